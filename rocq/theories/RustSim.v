(** * RustSim: the crate as a program of [Rust.v], and how to run it on symbolic inputs. *)

From Coq Require Import String ZifyBool ZifyNat.
From Verif Require Import Base Api Lists Tables Zpaq Rust RustText.
Open Scope list_scope.
Open Scope Z_scope.

Fixpoint find_fn (l : list (string * fn)) (f : string) : option fn :=
  match l with
  | [] => None
  | (g, b) :: r => if String.eqb f g then Some b else find_fn r f
  end.

Fixpoint find_table (l : list (string * (ity * list Z))) (f : string) : option (ity * list Z) :=
  match l with
  | [] => None
  | (g, t) :: r => if String.eqb f g then Some t else find_table r f
  end.

(** Functions with a body, constant tables, and whatever the user adds. *)
Definition program_of (fns : list (string * fn)) (tabs : list (string * (ity * list Z))) (user : program) : program := fun f =>
  match find_fn fns f with
  | Some g => Some (Source g)
  | None =>
      match find_table tabs f with
      | Some (t, l) => Some (Given [] (fun _ => Done ([], VList (map (VInt t) l))))
      | None => user f
      end
  end.

(** The crate.  The one function that is not in [text] is [Zpaq::fragment_ave_from_max] (src/zpaq.rs:56-59, floating point;
    see Float.v), which the user adds too. *)
Definition crate (user : program) : program := program_of text tables user.

(** A slice of bytes, and [Some(k)] / [None] for an index. *)
Definition vbyte (b : byte) : value := VInt U8 (b2z b).
Definition vbytes (l : list byte) : value := VList (map vbyte l).
Definition vsize (n : nat) : value := VInt Usize (Z.of_nat n).
Definition vopt (o : option nat) : value := match o with Some k => VSome (vsize k) | None => VNone end.

Fixpoint bump (k n : nat) : nat := match k with O => n | S k' => S (bump k' n) end.

Lemma bump_ge k n : (k <= n)%nat -> exists m, n = bump k m.
Proof.
  revert n; induction k as [|k IH]; intros n H.
  - exists n; reflexivity.
  - destruct n as [|n]; [lia|]. destruct (IH n ltac:(lia)) as [m Hm]. exists m. simpl. congruence.
Qed.

Arguments scoped _ _ _ /.
Arguments andthen _ _ /.
Arguments pure_then {A} _ _ /.
Arguments obind {A B} _ _ /.
Arguments ret _ _ /.
Arguments checked _ _ /.
Arguments vbyte _ /.
Arguments params_of _ _ /.
Arguments ity_size _ /.

(** Look up the functions that are called. *)
Ltac is_string f := lazymatch f with String.EmptyString => idtac | String.String _ _ => idtac end.
Ltac look :=
  repeat match goal with
  | |- context [crate ?u ?f] =>
      is_string f;
      let r := eval vm_compute in (find_fn text f) in
      match r with
      | Some ?g => change (crate u f) with (Some (Source g))
      | None =>
          lazymatch f with
          | "GEAR_32"%string => change (crate u f) with (Some (Given [] (fun _ => Done ([], VList (map (VInt U32) GEAR_32)))))
          | "GEAR_64"%string => change (crate u f) with (Some (Given [] (fun _ => Done ([], VList (map (VInt U64) GEAR_64)))))
          | "GO_BUZHASH"%string => change (crate u f) with (Some (Given [] (fun _ => Done ([], VList (map (VInt U32) GO_BUZHASH)))))
          | "BORG_BUZHASH_BASE"%string => change (crate u f) with (Some (Given [] (fun _ => Done ([], VList (map (VInt U32) BORG_BUZHASH_BASE)))))
          | _ => change (crate u f) with (u f)
          end
      end
  end.

(** Operations on literals. *)
Ltac is_lit z := lazymatch z with Zpos _ => idtac | Z0 => idtac end.
Ltac lits :=
  repeat match goal with
  | |- context [?a mod ?b] => is_lit a; is_lit b; let r := eval vm_compute in (a mod b) in change (a mod b) with r
  | |- context [?a mod 2 ^ ?b] => is_lit a; is_lit b; let r := eval vm_compute in (a mod 2 ^ b) in change (a mod 2 ^ b) with r
  | |- context [Z.shiftl ?a ?b] => is_lit a; is_lit b; let r := eval vm_compute in (Z.shiftl a b) in change (Z.shiftl a b) with r
  | |- context [?a - ?b] => is_lit a; is_lit b; let r := eval vm_compute in (a - b) in change (a - b) with r
  | |- context [?a * ?b] => is_lit a; is_lit b; let r := eval vm_compute in (a * b) in change (a * b) with r
  | |- context [?a <? 2 ^ ?b] => is_lit a; is_lit b; let r := eval vm_compute in (a <? 2 ^ b) in change (a <? 2 ^ b) with r
  | |- context [?a <? ?b] => is_lit a; is_lit b; let r := eval vm_compute in (a <? b) in change (a <? b) with r
  | |- context [?a <=? ?b] => is_lit a; is_lit b; let r := eval vm_compute in (a <=? b) in change (a <=? b) with r
  | |- context [?a =? ?b] => is_lit a; is_lit b; let r := eval vm_compute in (a =? b) in change (a =? b) with r
  end.

(** Run the program as far as it goes.  [reduce_hook] is redefined in the files that use this one, to look inside the
    values of the crate's types. *)
Ltac reduce_core :=
  cbn beta iota zeta delta
    [eval params_of assoc assoc_set String.eqb Ascii.eqb Bool.eqb String.append
     obind andthen pure_then ret evals seq scoped assign write_back bind_params select type_of
     int_op wrap_op bin_op prim_op mutprim_op get_field set_field get_index set_index get_slice len_of copy_slice cast
     checked of_bool firsts seconds zip env_app env_length env_keep arrange gate
     ity_eqb ity_bits ity_size fn_params fn_body VUnit VPair VSome VNone Nat.leb negb bump vbyte vbytes vopt vsize].
Ltac reduce_hook := fail.
Ltac reduce := reduce_core; repeat (progress (look; lits; try reduce_hook); reduce_core).

(** The outcome of a call, in terms of the model's. *)
Definition as_out {A} (k : A -> list value * value) (r : res A) : out (list value * value) :=
  match r with
  | Ok a => Done (k a)
  | Panic => Panics
  | Diverge => NoFuel
  end.

(** Enter a call, or the body of a loop. *)
Ltac enter :=
  match goal with
  | |- context [call_with (crate ?u) (eval (crate ?u) (lock ?n)) ?f ?vs] =>
      let t := eval cbv beta delta [call_with] in (call_with (crate u) (eval (crate u) n) f vs) in
      change (call_with (crate u) (eval (crate u) (lock n)) f vs) with t
  end; look; reduce.
Ltac run := repeat enter.

Ltac start :=
  intros;
  match goal with
  | H : (_ <= ?n)%nat |- context [call_with _ (eval _ (lock ?n))] =>
      let m := fresh "m" in destruct (bump_ge _ _ H) as [m ->]
  end.

Lemma small_mod z : 0 <= z < 2 ^ 64 -> z mod 2 ^ 64 = z.
Proof. apply Z.mod_small. Qed.

Lemma byte_mod x k : 8 <= k -> b2z x mod 2 ^ k = b2z x.
Proof.
  intros Hk. pose proof (b2z_range x). pose proof (Z.pow_le_mono_r 2 8 k ltac:(lia) ltac:(lia)).
  change (2 ^ 8) with 256 in *. apply Z.mod_small. lia.
Qed.

(** Indexing a slice of bytes. *)
Lemma nth_vbyte data z i : z = Z.of_nat i -> nth_error (map vbyte data) (Z.to_nat z) = option_map vbyte (nth_error data i).
Proof. intros ->. rewrite Nat2Z.id. apply nth_error_map. Qed.

(** [&data[a..b]]. *)
Lemma slice_bytes data za zb a b : za = Z.of_nat a -> zb = Z.of_nat b ->
  (if (za <=? zb) && (zb <=? Z.of_nat (length (map vbyte data)))
   then Done (VList (firstn (Z.to_nat zb - Z.to_nat za) (skipn (Z.to_nat za) (map vbyte data)))) else Panics) =
  match sub_slice data a b with Ok l => Done (vbytes l) | _ => Panics end.
Proof.
  intros -> ->. unfold sub_slice. rewrite map_length, !Nat2Z.id, skipn_map, firstn_map.
  destruct (a <=? b)%nat eqn:E1, (b <=? length data)%nat eqn:E2; cbn [andb];
    repeat match goal with |- context [(?x <=? ?y)%Z] => destruct (x <=? y) eqn:? end; try reflexivity; lia.
Qed.

Lemma sub_slice_len {A} (l r : list A) a b : sub_slice l a b = Ok r -> length r = (b - a)%nat /\ (a <= b)%nat /\ (b <= length l)%nat.
Proof.
  unfold sub_slice. destruct (a <=? b)%nat eqn:E1, (b <=? length l)%nat eqn:E2; cbn [andb]; try discriminate.
  intros [= <-]. rewrite firstn_length, skipn_length. lia.
Qed.

(** ** Loops *)

(** The outcome of a loop body or of a loop, in terms of the model's. *)
Definition lift_ctl {S R} (env_of : S -> env) (env_ret : S -> env) (v : R -> value) (c : res (ctl S R))
  : out (env * flow) :=
  match c with
  | Ok (Next s) => Done (env_of s, Value VUnit)
  | Ok (Base.Return s r) => Done (env_ret s, Returning (v r))
  | Ok (Base.Break s) => Done (env_of s, Breaking)
  | Panic => Panics
  | Diverge => NoFuel
  end.

(** After the loop: [break] has been consumed. *)
Definition lift_loop {S R} (env_of : S -> env) (env_ret : S -> env) (v : R -> value) (c : res (ctl S R))
  : out (env * flow) :=
  match c with
  | Ok (Next s) => Done (env_of s, Value VUnit)
  | Ok (Base.Return s r) => Done (env_ret s, Returning (v r))
  | Ok (Base.Break s) => Done (env_of s, Value VUnit)
  | Panic => Panics
  | Diverge => NoFuel
  end.

Lemma length_set_nth {A} (l : list A) i v : length (set_nth l i v) = length l.
Proof. revert i. induction l as [|x l IH]; intros [|i]; cbn [set_nth length]; congruence. Qed.

Lemma set_nth_map {A B} (f : A -> B) l i v : set_nth (map f l) i (f v) = map f (set_nth l i v).
Proof. revert i. induction l as [|x l IH]; intros [|i]; cbn [set_nth map]; congruence. Qed.

Lemma iter_enum_sim {S R A} (Inv : S -> Prop) (env_of env_ret : S -> env) (v : R -> value) (va : A -> value)
  (body : S -> nat -> A -> res (ctl S R)) (bodyv : env -> Z -> value -> out (env * flow)) (N : nat) :
  (forall s i x, Inv s -> (i < N)%nat ->
     bodyv (env_of s) (Z.of_nat i) (va x) = lift_ctl env_of env_ret v (body s i x) /\
     (forall s', body s i x = Ok (Next s') -> Inv s')) ->
  forall l i s, Inv s -> (i + length l <= N)%nat ->
    iter_enum bodyv (Z.of_nat i) (map va l) (env_of s) = lift_loop env_of env_ret v (for_enum body i l s).
Proof.
  intros Hb l. induction l as [|x l IH]; intros i s Hs Hi; [reflexivity|].
  cbn [map iter_enum for_enum length] in *.
  destruct (Hb s i x Hs ltac:(lia)) as [E K]. rewrite E.
  destruct (body s i x) as [[s'|s' r|s']| |] eqn:B; cbn [bind lift_ctl]; try reflexivity.
  replace (Z.of_nat i + 1) with (Z.of_nat (Datatypes.S i)) by lia.
  apply IH; [apply (K s' eq_refl) | lia].
Qed.

Lemma iter_range_sim {S R} (Inv : S -> Prop) (env_of env_ret : S -> env) (v : R -> value)
  (body : S -> nat -> res (ctl S R)) (bodyv : env -> Z -> out (env * flow)) (L N : nat) :
  (forall s i, Inv s -> (L <= i < N)%nat ->
     bodyv (env_of s) (Z.of_nat i) = lift_ctl env_of env_ret v (body s i) /\
     (forall s', body s i = Ok (Next s') -> Inv s')) ->
  forall n lo s, Inv s -> (L <= lo)%nat -> (lo + n <= N)%nat ->
    iter_range bodyv (Z.of_nat lo) n (env_of s) = lift_loop env_of env_ret v (for_range body lo n s).
Proof.
  intros Hb n. induction n as [|n IH]; intros lo s Hs Hl Hi; [reflexivity|].
  cbn [iter_range for_range].
  destruct (Hb s lo Hs ltac:(lia)) as [E K]. rewrite E.
  destruct (body s lo) as [[s'|s' r|s']| |] eqn:B; cbn [bind lift_ctl]; try reflexivity.
  replace (Z.of_nat lo + 1) with (Z.of_nat (Datatypes.S lo)) by lia.
  apply IH; [apply (K s' eq_refl) | lia | lia].
Qed.

(** [loop]: the state of the program after a [return] is only known to satisfy [P]. *)
Lemma iter_loop_sim {S R} (Inv : S -> Prop) (env_of : S -> env) (P : R -> env -> Prop) (v : R -> value)
  (body : S -> res (ctl S R)) (bodyv : env -> out (env * flow)) :
  (forall s, Inv s ->
     match body s with
     | Ok (Next s') => bodyv (env_of s) = Done (env_of s', Value VUnit) /\ Inv s'
     | Ok (Base.Return _ r) => exists rho, bodyv (env_of s) = Done (rho, Returning (v r)) /\ P r rho
     | Ok (Base.Break s') => bodyv (env_of s) = Done (env_of s', Breaking) /\ Inv s'
     | Panic => bodyv (env_of s) = Panics
     | Diverge => bodyv (env_of s) = NoFuel
     end) ->
  forall fuel n s, Inv s -> (fuel <= n)%nat ->
    match loop fuel body s with
    | Ok (Next s') | Ok (Base.Break s') => iter_loop n bodyv (env_of s) = Done (env_of s', Value VUnit) /\ Inv s'
    | Ok (Base.Return _ r) => exists rho, iter_loop n bodyv (env_of s) = Done (rho, Returning (v r)) /\ P r rho
    | Panic => iter_loop n bodyv (env_of s) = Panics
    | Diverge => True
    end.
Proof.
  intros Hb fuel. induction fuel as [|fuel IH]; intros n s Hs Hn; [exact I|].
  destruct n as [|n]; [lia|]. cbn [loop iter_loop]. specialize (Hb s Hs).
  destruct (body s) as [[s'|s' r|s']| |]; cbn [bind].
  - destruct Hb as [-> Hs']. apply IH; [assumption | lia].
  - destruct Hb as [rho [-> HP]]. exists rho. split; [reflexivity | assumption].
  - destruct Hb as [-> Hs']. split; [reflexivity | assumption].
  - rewrite Hb. reflexivity.
  - exact I.
Qed.

(** Replace the loop in the goal by the model's.  The first goal left is the simulation of the body. *)
Ltac sim_enum Inv env_of v va model_body l s :=
  match goal with
  | |- context [iter_enum ?b 0 ?vl ?rho] =>
      let H := fresh "Hloop" in
      assert (H : iter_enum b 0 vl rho = lift_loop env_of env_of v (for_enum model_body 0 l s));
      [ refine (iter_enum_sim Inv env_of env_of v va model_body b (length l) _ l 0%nat s _ _)
      | rewrite H; clear H ]
  end.

Ltac sim_range Inv env_of v model_body lo cnt s :=
  match goal with
  | |- context [iter_range ?b ?zlo ?n ?rho] =>
      let H := fresh "Hloop" in
      assert (H : iter_range b zlo n rho = lift_loop env_of env_of v (for_range model_body lo cnt s));
      [ replace zlo with (Z.of_nat lo) by lia; replace n with cnt by (rewrite ?map_length; lia);
        refine (iter_range_sim Inv env_of env_of v model_body b lo (lo + cnt) _ cnt lo s _ (le_n lo) (le_n (lo + cnt)))
      | rewrite H; clear H ]
  end.

(** Decide the innermost condition of the goal. *)
Ltac is_if t := lazymatch t with context [if _ then _ else _] => idtac end.
Ltac decide_if :=
  match goal with
  | |- context [if ?c then _ else _] =>
      lazymatch c with
      | context [if _ then _ else _] => fail
      | _ => let E := fresh "E" in destruct c eqn:E
      end
  end.

Ltac agree_rec := first [reflexivity | lia | progress f_equal; agree_rec].
Ltac agree := unfold vopt, VSome, VNone, VPair, VUnit, vsize, vbyte; agree_rec.
(** Case analysis on all conditions of the goal; the impossible cases go. *)
Ltac cases := repeat (decide_if; reduce; try reflexivity; try (exfalso; lia)).
