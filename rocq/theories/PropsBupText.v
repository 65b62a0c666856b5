(** * PropsBupText: C83, tests/qc_bup.rs and the tests of src/bup.rs that compare with [rollsum], from their text. *)

From Coq Require Import String ZifyBool ZifyNat.
From Verif Require Import Base Api Spec Lists Contract Bup BupProofs Bupsplit Rust RustLex RustParse RustElab RustSource RustFiles RustTests RustText RustSim RustBup PropsBupsplit.
Open Scope list_scope.
Open Scope Z_scope.

(** ** Their text *)

Definition qc_text := Eval vm_compute in match qc_test_functions with Some l => accepted l | None => [] end.
Definition compare_text := Eval vm_compute in match bup_test_functions with Some l => accepted l | None => [] end.
Definition bup_text := Eval vm_compute in qc_text ++ compare_text.

(** Nothing in tests/qc_bup.rs is left out. *)
Theorem C83_text :
  qc_test_functions = Some (map (fun p => (fst p, Fine (snd p))) qc_text) /\ bup_test_functions = Some (map (fun p => (fst p, Fine (snd p))) compare_text) /\
  option_map fn_names (tokens tests_qc_bup_rs) = Some qc_tests.
Proof. repeat apply conj; vm_compute; reflexivity. Qed.
Print Assumptions C83_text.

(** ** The crate [rollsum], and a generator that draws any bytes *)

Definition enc_Bup (b : Bup) : value :=
  VStruct "Bup" [("s1"%string, VInt Usize (b_s1 b)); ("s2"%string, VInt Usize (b_s2 b)); ("window"%string, vbytes (b_window b)); ("wofs"%string, vsize (b_wofs b))].
Definition byte_in (v : value) : list byte := match v with VInt U8 z => match Byte.of_N (Z.to_N z) with Some b => [b] | None => [] end | _ => [] end.
Definition bytes_in (l : list value) : list byte := flat_map byte_in l.
Definition bup_in (v : value) : option Bup :=
  match v with
  | VStruct _ [(_, VInt _ a); (_, VInt _ b); (_, VList l); (_, VInt _ o)] => Some {| b_s1 := a; b_s2 := b; b_window := bytes_in l; b_wofs := Z.to_nat o |}
  | _ => None
  end.
Definition vedge (o : option (nat * Z)) : value := match o with Some (k, z) => VSome (VPair (vsize k) (VInt U32 z)) | None => VNone end.

Lemma bytes_in_vbytes l : bytes_in (map vbyte l) = l.
Proof. induction l as [|x l IH]; [reflexivity|]. cbn [map bytes_in flat_map] in *. unfold bytes_in in IH. rewrite IH. unfold vbyte, byte_in, b2z. now rewrite N2Z.id, Byte.of_to_N. Qed.
Lemma bup_in_enc b : bup_in (enc_Bup b) = Some b.
Proof. unfold enc_Bup, bup_in, vbytes, vsize. rewrite bytes_in_vbytes, Nat2Z.id. now destruct b. Qed.

Definition given_default (vs : list value) : out (list value * value) := Done (vs, enc_Bup bup_new).
Definition given_roll_byte (vs : list value) : out (list value * value) :=
  match vs with
  | [v; w] => match bup_in v, byte_in w with Some b, [x] => Done ([enc_Bup (bup_roll b x); w], VUnit) | _, _ => Stuck end
  | _ => Stuck
  end.
Definition given_roll (vs : list value) : out (list value * value) :=
  match vs with
  | [v; VList l] => match bup_in v with Some b => Done ([enc_Bup (fold_left bup_roll (bytes_in l) b); VList l], VUnit) | None => Stuck end
  | _ => Stuck
  end.
Definition given_digest (vs : list value) : out (list value * value) :=
  match vs with [v] => match bup_in v with Some b => Done (vs, VInt U32 (bup_sum b)) | None => Stuck end | _ => Stuck end.
Definition given_edge (resets : bool) (vs : list value) : out (list value * value) :=
  match vs with
  | [v; VList l] =>
      match bup_in v with
      | Some b => let '(b', o) := bup_find_chunk_edge resets b (bytes_in l) in Done ([enc_Bup b'; VList l], vedge o)
      | None => Stuck
      end
  | _ => Stuck
  end.
Definition vdraw : value := VStruct "ThreadRng" [].
Definition given_rng (vs : list value) : out (list value * value) := Done (vs, vdraw).
Definition given_fill (draw : nat -> list byte) (vs : list value) : out (list value * value) :=
  match vs with [r; VList l] => Done ([r; vbytes (draw (length l))], VUnit) | _ => Stuck end.
Definition given_bits (vs : list value) : out (list value * value) := Done (vs, VInt U32 13).

Definition rollsum_crate (resets : bool) (draw : nat -> list byte) : program := fun f =>
  if String.eqb f "Bup::default" then Some (Given [] given_default)
  else if String.eqb f "Bup::roll_byte" then Some (Given [("self"%string, true); ("newch"%string, false)] given_roll_byte)
  else if String.eqb f "Bup::roll" then Some (Given [("self"%string, true); ("buf"%string, false)] given_roll)
  else if String.eqb f "Bup::digest" then Some (Given [("self"%string, false)] given_digest)
  else if String.eqb f "Bup::find_chunk_edge" then Some (Given [("self"%string, true); ("buf"%string, false)] (given_edge resets))
  else if String.eqb f "CHUNK_BITS" then Some (Given [] given_bits)
  else if String.eqb f "thread_rng" then Some (Given [] given_rng)
  else if String.eqb f "ThreadRng::fill_bytes" then Some (Given [("self"%string, true); ("dest"%string, true)] (given_fill draw))
  else None.
Definition compared (resets : bool) (draw : nat -> list byte) : program := fun f =>
  match find_fn bup_text f with Some g => Some (Rust.Source g) | None => rollsum_crate resets draw f end.

Ltac look_bup :=
  repeat match goal with
  | |- context [compared ?r ?d ?f] =>
      is_string f;
      let g := eval vm_compute in (find_fn bup_text f) in
      match g with
      | Some ?g => change (compared r d f) with (Some (Rust.Source g))
      | None =>
          lazymatch f with
          | "Bup::default"%string => change (compared r d f) with (Some (Given [] given_default))
          | "Bup::roll_byte"%string => change (compared r d f) with (Some (Given [("self"%string, true); ("newch"%string, false)] given_roll_byte))
          | "Bup::roll"%string => change (compared r d f) with (Some (Given [("self"%string, true); ("buf"%string, false)] given_roll))
          | "Bup::digest"%string => change (compared r d f) with (Some (Given [("self"%string, false)] given_digest))
          | "Bup::find_chunk_edge"%string => change (compared r d f) with (Some (Given [("self"%string, true); ("buf"%string, false)] (given_edge r)))
          | "CHUNK_BITS"%string => change (compared r d f) with (Some (Given [] given_bits))
          | "thread_rng"%string => change (compared r d f) with (Some (Given [] given_rng))
          | "ThreadRng::fill_bytes"%string => change (compared r d f) with (Some (Given [("self"%string, true); ("dest"%string, true)] (given_fill d)))
          end
      end
  end.
Ltac types :=
  repeat match goal with
  | |- context [type_of (enc_RsIncr ?s)] => change (type_of (enc_RsIncr s)) with "RollSumIncr"%string
  | |- context [type_of (enc_Bup ?b)] => change (type_of (enc_Bup b)) with "Bup"%string
  | |- context [type_of vdraw] => change (type_of vdraw) with "ThreadRng"%string
  end.
Ltac reduce_hook ::= types; look_bup.

Lemma push_window s d s' o : rollsum_push s d = Ok (s', o) -> length (rsi_window s') = length (rsi_window s).
Proof.
  unfold rollsum_push. generalize 0%nat. revert s. induction d as [|x d IH]; intros s i; cbn [for_enum bind]; [now intros [= <- <-]|].
  unfold rollsum_push_body at 1. destruct (roll_byte s x) as [s1| |] eqn:E; cbn [bind]; try discriminate. destruct (rollsum_incr_at_split s1); cbn [bind].
  - intros [= <- <-]. exact (roll_byte_window _ _ _ E).
  - intros H. rewrite (IH _ _ H). exact (roll_byte_window _ _ _ E).
Qed.
Lemma new_window : length (rsi_window (rollsum_incr_new rollsum_default)) = 64%nat. Proof. reflexivity. Qed.

Section Compared.
Variable resets : bool.
Variable draw : nat -> list byte.
Notation u := (compared resets draw).
Notation prog := (crate u).

Ltac given := match goal with |- call_with _ _ ?f _ = _ => unfold call_with; look; look_bup end; cbv beta iota.
Lemma src_bup_default k : call prog k "Bup::default" [] = Done ([], enc_Bup bup_new).
Proof. given. reflexivity. Qed.
Lemma src_bup_roll_byte k b x : call prog k "Bup::roll_byte" [enc_Bup b; vbyte x] = Done ([enc_Bup (bup_roll b x); vbyte x], VUnit).
Proof.
  given. unfold given_roll_byte. rewrite bup_in_enc. assert (E := bytes_in_vbytes [x]). unfold bytes_in in E. cbn [map flat_map] in E. rewrite app_nil_r in E. now rewrite E.
Qed.
Lemma src_bup_roll k b d : call prog k "Bup::roll" [enc_Bup b; vbytes d] = Done ([enc_Bup (fold_left bup_roll d b); vbytes d], VUnit).
Proof. given. unfold given_roll, vbytes. now rewrite bup_in_enc, bytes_in_vbytes. Qed.
Lemma src_bup_digest k b : call prog k "Bup::digest" [enc_Bup b] = Done ([enc_Bup b], VInt U32 (bup_sum b)).
Proof. given. unfold given_digest. now rewrite bup_in_enc. Qed.
Lemma src_bup_edge k b d : call prog k "Bup::find_chunk_edge" [enc_Bup b; vbytes d] =
  Done ([enc_Bup (fst (bup_find_chunk_edge resets b d)); vbytes d], vedge (snd (bup_find_chunk_edge resets b d))).
Proof. given. unfold given_edge, vbytes. rewrite bup_in_enc, bytes_in_vbytes. now destruct (bup_find_chunk_edge resets b d). Qed.
Lemma src_bits k : call prog k "CHUNK_BITS" [] = Done ([], VInt U32 13).
Proof. given. reflexivity. Qed.
Lemma src_rng k : call prog k "thread_rng" [] = Done ([], vdraw).
Proof. given. reflexivity. Qed.
Lemma src_fill k l : call prog k "ThreadRng::fill_bytes" [vdraw; VList l] = Done ([vdraw; vbytes (draw (length l))], VUnit).
Proof. given. reflexivity. Qed.

Lemma eq_answers a (b : option (nat * Z)) : ints_eqb (match a with Some k => [vsize k] | None => [] end) (match b with Some (k, _) => [vsize k] | None => [] end) = Done (same_answer a b).
Proof.
  destruct a as [x|], b as [[y z]|]; try reflexivity. unfold same_answer. cbn [ints_eqb vsize ity_eqb option_map fst].
  destruct (Nat.eqb_spec x y); [replace (Z.of_nat x =? Z.of_nat y) with true by lia|replace (Z.of_nat x =? Z.of_nat y) with false by lia]; reflexivity.
Qed.

Ltac same v1 v2 :=
  let A := fresh "A" in assert (A := eq_answers v1 v2); destruct v1 as [?|], v2 as [[? ?]|]; cbn [vedge vopt]; reduce; cbn [orb andb]; rewrite A; clear A; reduce.
Ltac room n H := assert (Hn' : (40 <= n)%nat) by lia; let m := fresh "m" in destruct (bump_ge _ _ Hn') as [m ->]; clear Hn'; cbn [bump] in H.

Lemma src_simple_eq n xs : (200 <= n)%nat -> Z.of_nat (length xs) < 2 ^ 62 ->
  call prog n "simple_eq" [vbytes xs] = as_out (fun b => ([vbytes xs], VBool b)) (qc_simple_eq resets xs).
Proof.
  intros Hn HL. room n Hn. enter. rewrite src_rs_incr_default by lia. reduce. rewrite src_bup_default. reduce. unfold qc_simple_eq.
  rewrite (src_rollsum_push u _ rollsum_default) by (rewrite ?new_window; lia). cbn [incr_push rollsum_incr].
  destruct (rollsum_push _ xs) as [[m1 v1]| |]; unfold as_out; cbn [bind]; reduce; try reflexivity.
  rewrite src_bup_edge. destruct (bup_find_chunk_edge resets bup_new xs) as [m2 v2]. cbn [fst snd]. same v1 v2; reflexivity.
Qed.

Lemma src_chk_a n xs : (200 <= n)%nat -> Z.of_nat (length xs) < 2 ^ 62 ->
  call prog n "chk_a" [vbytes xs] = as_out (fun _ => ([vbytes xs], VUnit)) (qc_chk_a resets xs).
Proof.
  intros Hn HL. room n Hn. enter. rewrite src_rs_incr_default by lia. reduce. rewrite src_bup_default. reduce. unfold qc_chk_a, qc_simple_eq.
  rewrite (src_rollsum_push u _ rollsum_default) by (rewrite ?new_window; lia). cbn [incr_push rollsum_incr].
  destruct (rollsum_push _ xs) as [[m1 v1]| |]; unfold as_out; cbn [bind]; reduce; try reflexivity.
  rewrite src_bup_edge. destruct (bup_find_chunk_edge resets bup_new xs) as [m2 v2]. cbn [fst snd].
  same v1 v2; (match goal with |- context [same_answer ?a ?b] => destruct (same_answer a b) end); reflexivity.
Qed.

Lemma src_chk_b n xs : (200 <= n)%nat -> Z.of_nat (length xs) < 2 ^ 62 ->
  call prog n "chk_b" [vbytes xs] = as_out (fun _ => ([vbytes xs], VUnit)) (qc_chk_b xs).
Proof.
  intros Hn HL. room n Hn. enter. rewrite src_rs_incr_default by lia. reduce. rewrite src_bup_default. reduce. rewrite src_bits. reduce.
  match goal with |- context [iter_enum ?b _ _ _] => set (body := b) end.
  set (E := fun m1 m2 => [("cm"%string, VInt U32 8191); ("m2"%string, enc_Bup m2); ("m1"%string, enc_RsIncr m1); ("x"%string, vbytes xs)]).
  assert (S : forall m1 m2 i v, length (rsi_window m1) = 64%nat -> body (E m1 m2) i (vbyte v) =
    match roll_byte m1 v with
    | Ok m1' => if rollsum_incr_digest m1' =? bup_sum (bup_roll m2 v) then if Bool.eqb (rollsum_incr_at_split m1') (bup_edge (bup_roll m2 v)) then Done (E m1' (bup_roll m2 v), Value VUnit) else Panics else Panics
    | Panic => Panics
    | Diverge => NoFuel
    end).
  { intros m1 m2 i v W. unfold body, lock, E. reduce. change (VInt U8 (b2z v)) with (vbyte v). rewrite src_roll_byte by (rewrite ?W; lia).
    destruct (roll_byte m1 v) as [m1'| |]; unfold as_out; reduce; try reflexivity. change (VInt U8 (b2z v)) with (vbyte v). rewrite src_bup_roll_byte. reduce.
    rewrite src_rs_incr_digest by lia. reduce. rewrite src_bup_digest. reduce. destruct (_ =? bup_sum _); reduce; [|reflexivity].
    rewrite src_rs_incr_at_split by lia. reduce. rewrite src_bup_digest. reduce. change (Z.land (bup_sum (bup_roll m2 v)) 8191 =? 8191) with (bup_edge (bup_roll m2 v)).
    destruct (Bool.eqb _ _); reflexivity. }
  clearbody body.
  assert (G : forall l i m1 m2, length (rsi_window m1) = 64%nat ->
    match qc_chk_b_loop m1 m2 l with
    | Ok _ => exists m1' m2', iter_enum body i (map vbyte l) (E m1 m2) = Done (E m1' m2', Value VUnit)
    | Panic => iter_enum body i (map vbyte l) (E m1 m2) = Panics
    | Diverge => iter_enum body i (map vbyte l) (E m1 m2) = NoFuel
    end).
  { clear - S. induction l as [|v l IH]; intros i m1 m2 W; cbn [qc_chk_b_loop map iter_enum]; [now exists m1, m2|]. rewrite S by exact W.
    destruct (roll_byte m1 v) as [m1'| |] eqn:R; cbn [bind]; try reflexivity. unfold rust_assert. destruct (_ =? bup_sum _); cbn [bind]; [|reflexivity].
    destruct (Bool.eqb _ _); cbn [bind]; [|reflexivity]. apply IH. rewrite (roll_byte_window _ _ _ R). exact W. }
  specialize (G xs 0 (rollsum_incr_new rollsum_default) bup_new new_window). unfold qc_chk_b.
  change [("cm"%string, VInt U32 8191); ("m2"%string, enc_Bup bup_new); ("m1"%string, enc_RsIncr (rollsum_incr_new rollsum_default)); ("x"%string, vbytes xs)]
    with (E (rollsum_incr_new rollsum_default) bup_new).
  destruct (qc_chk_b_loop _ _ xs) as [[]| |]; unfold as_out.
  - destruct G as (m1 & m2 & ->). unfold E. reduce. reflexivity.
  - rewrite G. reflexivity.
  - rewrite G. reflexivity.
Qed.

Lemma tail_slice (x : list byte) k : sub_slice x k (length x) = ('(_, r) <- split_at x k ;; Ok r).
Proof.
  unfold sub_slice, split_at. rewrite Nat.leb_refl, andb_true_r. destruct (Nat.leb_spec k (length x)) as [L|L]; cbn [bind]; [|reflexivity].
  f_equal. apply firstn_all2. rewrite skipn_length. lia.
Qed.

Lemma src_iter_eq n fuel xs : (200 + fuel <= n)%nat -> Z.of_nat (length xs) < 2 ^ 62 ->
  match qc_iter_eq resets fuel xs with
  | Ok b => call prog n "iter_eq" [vbytes xs] = Done ([vbytes xs], VBool b)
  | Panic => call prog n "iter_eq" [vbytes xs] = Panics
  | Diverge => True
  end.
Proof.
  intros Hn HL. room n Hn. enter. rewrite src_rs_incr_default by lia. reduce. rewrite src_bup_default. reduce.
  match goal with |- context [iter_loop ?k ?b ?rho] => set (body := b); assert (Hk : (fuel <= k)%nat) by lia; revert Hk; generalize k; intros rounds Hk end.
  set (E := fun m1 m2 x => [("x"%string, vbytes x); ("m2"%string, enc_Bup m2); ("m1"%string, enc_RsIncr m1); ("xs"%string, vbytes xs)]).
  assert (S : forall m1 m2 x, length (rsi_window m1) = 64%nat -> (length x <= length xs)%nat -> body (E m1 m2 x) =
    match rollsum_push m1 x with
    | Ok (m1', v1) =>
        let '(m2', v2) := bup_find_chunk_edge resets m2 x in
        if negb (same_answer v1 v2) then Done (E m1' m2' x, Returning (VBool false))
        else match v1 with
             | None => Done (E m1' m2' x, Returning (VBool true))
             | Some k =>
                 match split_at x k with
                 | Ok (_, x') => match x' with [] => Done (E m1' m2' x', Returning (VBool true)) | _ => Done (E m1' m2' x', Value VUnit) end
                 | _ => Panics
                 end
             end
    | Panic => Panics
    | Diverge => NoFuel
    end).
  { intros m1 m2 x W L. unfold body, lock, E. reduce. rewrite (src_rollsum_push u _ rollsum_default) by (rewrite ?W; lia). cbn [incr_push rollsum_incr].
    destruct (rollsum_push m1 x) as [[m1' v1]| |]; unfold as_out; reduce; try reflexivity.
    rewrite src_bup_edge. destruct (bup_find_chunk_edge resets m2 x) as [m2' v2]. cbn [fst snd].
    same v1 v2; (match goal with |- context [same_answer ?a ?b] => destruct (same_answer a b) eqn:Es end); reduce; try reflexivity; try discriminate Es.
    rewrite (slice_bytes x _ _ n (length x)) by (rewrite ?map_length; lia). rewrite tail_slice. destruct (split_at x n) as [[p x']| |]; cbn [bind]; reduce; try reflexivity.
    destruct x' as [|y x']; reduce; [reflexivity|]. rewrite map_length. cbn [length]. replace (_ =? 0) with false by lia. reduce. reflexivity. }
  clearbody body.
  assert (G : forall fuel rounds m1 m2 x, (fuel <= rounds)%nat -> length (rsi_window m1) = 64%nat -> (length x <= length xs)%nat ->
    match qc_iter_loop resets fuel m1 m2 x with
    | Ok b => exists m1' m2' x', iter_loop rounds body (E m1 m2 x) = Done (E m1' m2' x', Returning (VBool b))
    | Panic => iter_loop rounds body (E m1 m2 x) = Panics
    | Diverge => True
    end).
  { clear - S. induction fuel as [|fuel IH]; intros rounds m1 m2 x Hr W L; cbn [qc_iter_loop]; [exact I|].
    destruct rounds as [|rounds]; [lia|]. cbn [iter_loop]. rewrite S by assumption.
    destruct (rollsum_push m1 x) as [[m1' v1]| |] eqn:P; cbn [bind]; try reflexivity; try exact I. apply push_window in P.
    destruct (bup_find_chunk_edge resets m2 x) as [m2' v2]. destruct (negb _); [now exists m1', m2', x|]. destruct v1 as [k|]; [|now exists m1', m2', x].
    unfold split_at. destruct (Nat.leb k (length x)); cbn [bind]; [|reflexivity]. destruct (skipn k x) as [|y x'] eqn:X; [now exists m1', m2', []|].
    apply IH; [lia|congruence|]. rewrite <- X, skipn_length. lia. }
  specialize (G fuel rounds (rollsum_incr_new rollsum_default) bup_new xs Hk new_window (le_n _)). unfold qc_iter_eq.
  change [("x"%string, vbytes xs); ("m2"%string, enc_Bup bup_new); ("m1"%string, enc_RsIncr (rollsum_incr_new rollsum_default)); ("xs"%string, vbytes xs)]
    with (E (rollsum_incr_new rollsum_default) bup_new xs).
  destruct (qc_iter_loop _ _ _ _ xs) as [b| |]; [|now rewrite G|exact I]. destruct G as (m1 & m2 & x & ->). unfold E. reduce. reflexivity.
Qed.

(** The tests with data written into them. *)
Lemma src_tests n f : (300 <= n)%nat -> In f ["simple_eq_1"; "simple_eq_1b"; "simple_eq_2"; "simple_eq_3"]%string -> call prog n f [] = Done ([], VUnit).
Proof.
  intros Hn [<-|[<-|[<-|[<-|[]]]]]; room n Hn; enter;
    (match goal with |- context [call_with _ _ _ [VList ?l]] => change (VList l) with (vbytes (bytes_in l)); assert (L : Z.of_nat (length (bytes_in l)) < 2 ^ 62) by (vm_compute; reflexivity); generalize (bytes_in l), L; intros d Hd end).
  1, 3, 4: rewrite src_chk_a, C83_chk_a by (assumption || lia); reduce; reflexivity.
  rewrite src_chk_b, C83_chk_b by (assumption || lia). reduce. reflexivity.
Qed.

(** ** src/bup.rs *)

Notation data := (draw (Z.to_nat 2048)).

Lemma src_compare_rollsum n : (200 <= n)%nat -> call prog n "compare_rollsum" [] = as_out (fun _ => ([], VUnit)) (compare_rollsum data).
Proof.
  intros Hn. room n Hn. enter. rewrite src_rs_incr_default by lia. reduce. rewrite src_bup_default. reduce. unfold compare_rollsum. cbv zeta.
  assert (W := new_window). revert W. generalize (rollsum_incr_new rollsum_default) bup_new. intros m1 m2 W.
  Ltac digests := rewrite src_rs_incr_digest by lia; reduce; rewrite src_bup_digest; reduce; unfold rust_assert; destruct (_ =? bup_sum _); cbn [bind]; reduce; [|reflexivity].
  Ltac rolled W := match goal with |- context [roll_byte ?m ?x] => let s := fresh "m1" in let R := fresh "R" in
    destruct (roll_byte m x) as [s| |] eqn:R; unfold as_out; cbn [bind]; reduce; try reflexivity; apply roll_byte_window in R; rewrite W in R; clear W; rename R into W end.
  digests. change (VInt U8 4) with (vbyte x04). rewrite src_roll_byte by (rewrite ?W; lia). rolled W.
  change (VInt U8 4) with (vbyte x04). rewrite src_bup_roll_byte. reduce. digests.
  change (VInt U8 18) with (vbyte x12). rewrite src_roll_byte by (rewrite ?W; lia). rolled W.
  change (VInt U8 18) with (vbyte x12). rewrite src_bup_roll_byte. reduce. digests.
  rewrite src_rng. reduce. rewrite src_fill, repeat_length. reduce. set (b := data).
  revert W. generalize m3 (bup_roll (bup_roll m2 x04) x12). clear - Hn. intros m1 m2 W.
  match goal with |- context [iter_enum ?b _ _ _] => set (body := b) end.
  set (E := fun m1 m2 => [("b"%string, vbytes b); ("r"%string, vdraw); ("m2"%string, enc_Bup m2); ("m1"%string, enc_RsIncr m1)]).
  assert (S : forall m1 m2 i v, length (rsi_window m1) = 64%nat -> body (E m1 m2) i (vbyte v) =
    match roll_byte m1 v with
    | Ok m1' => if rollsum_incr_digest m1' =? bup_sum (bup_roll m2 v) then Done (E m1' (bup_roll m2 v), Value VUnit) else Panics
    | Panic => Panics
    | Diverge => NoFuel
    end).
  { clear - Hn. intros m1 m2 i v W. unfold body, lock, E. reduce. change (VInt U8 (b2z v)) with (vbyte v). rewrite src_roll_byte by (rewrite ?W; lia).
    destruct (roll_byte m1 v) as [m1'| |]; unfold as_out; reduce; try reflexivity. change (VInt U8 (b2z v)) with (vbyte v). rewrite src_bup_roll_byte. reduce.
    rewrite src_rs_incr_digest by lia. reduce. rewrite src_bup_digest. reduce. destruct (_ =? bup_sum _); reduce; reflexivity. }
  clearbody body.
  assert (G : forall l i m1 m2, length (rsi_window m1) = 64%nat ->
    match compare_rollsum_loop m1 m2 l with
    | Ok (m1', m2') => iter_enum body i (map vbyte l) (E m1 m2) = Done (E m1' m2', Value VUnit) /\ length (rsi_window m1') = 64%nat
    | Panic => iter_enum body i (map vbyte l) (E m1 m2) = Panics
    | Diverge => iter_enum body i (map vbyte l) (E m1 m2) = NoFuel
    end).
  { clear - S. induction l as [|v l IH]; intros i m1 m2 W; cbn [compare_rollsum_loop map iter_enum]; [now split|]. rewrite S by exact W.
    destruct (roll_byte m1 v) as [m1'| |] eqn:R; cbn [bind]; try reflexivity. unfold rust_assert. destruct (_ =? bup_sum _); cbn [bind]; [|reflexivity].
    apply IH. rewrite (roll_byte_window _ _ _ R). exact W. }
  specialize (G b 0 m1 m2 W).
  change [("b"%string, vbytes b); ("r"%string, vdraw); ("m2"%string, enc_Bup m2); ("m1"%string, enc_RsIncr m1)] with (E m1 m2).
  destruct (compare_rollsum_loop m1 m2 b) as [[m1' m2']| |]; cbn [bind]; [|rewrite G; reflexivity..].
  destruct G as [-> W']. unfold E. reduce. rewrite src_roll by (rewrite ?W'; lia). destruct (roll_bytes m1' b) as [m1''| |]; unfold as_out; cbn [bind]; reduce; try reflexivity.
  rewrite src_bup_roll. reduce. rewrite src_rs_incr_digest by lia. reduce. rewrite src_bup_digest. reduce. destruct (_ =? bup_sum _); reduce; reflexivity.
Qed.

Hypothesis drawn : forall k, length (draw k) = k.
Lemma src_compare_bup n fuel : (200 + fuel <= n)%nat ->
  match compare_bup resets fuel data with
  | Ok _ => call prog n "compare_bup" [] = Done ([], VUnit)
  | Panic => call prog n "compare_bup" [] = Panics
  | Diverge => True
  end.
Proof.
  intros Hn. room n Hn. enter. rewrite src_rs_incr_default by lia. reduce. rewrite src_bup_default. reduce.
  rewrite src_rng. reduce. rewrite src_fill, repeat_length. reduce. assert (HL : Z.of_nat (length data) < 2 ^ 62) by (rewrite drawn; lia). revert HL. generalize data. intros b HL.
  match goal with |- context [iter_loop ?k ?b ?rho] => set (body := b); assert (Hk : (fuel <= k)%nat) by lia; revert Hk; generalize k; intros rounds Hk end.
  set (E := fun m1 m2 x => [("x"%string, vbytes x); ("b"%string, vbytes b); ("r"%string, vdraw); ("m2"%string, enc_Bup m2); ("m1"%string, enc_RsIncr m1)]).
  assert (S : forall m1 m2 x, length (rsi_window m1) = 64%nat -> (length x <= length b)%nat -> body (E m1 m2 x) =
    match rollsum_push m1 x with
    | Ok (m1', v1) =>
        let '(m2', v2) := bup_find_chunk_edge resets m2 x in
        if same_answer v1 v2 then
          match v1 with
          | None => Done (E m1' m2' x, Breaking)
          | Some k => match split_at x k with Ok (_, x') => Done (E m1' m2' x', Value VUnit) | _ => Panics end
          end
        else Panics
    | Panic => Panics
    | Diverge => NoFuel
    end).
  { intros m1 m2 x W L. unfold body, lock, E. reduce. rewrite (src_rollsum_push u _ rollsum_default) by (rewrite ?W; lia). cbn [incr_push rollsum_incr].
    destruct (rollsum_push m1 x) as [[m1' v1]| |]; unfold as_out; reduce; try reflexivity.
    rewrite src_bup_edge. destruct (bup_find_chunk_edge resets m2 x) as [m2' v2]. cbn [fst snd].
    same v1 v2; (match goal with |- context [same_answer ?a ?b] => destruct (same_answer a b) eqn:Es end); reduce; try reflexivity; try discriminate Es.
    rewrite (slice_bytes x _ _ n (length x)) by (rewrite ?map_length; lia). rewrite tail_slice. destruct (split_at x n) as [[p x']| |]; cbn [bind]; reduce; reflexivity. }
  clearbody body.
  assert (G : forall fuel rounds m1 m2 x, (fuel <= rounds)%nat -> length (rsi_window m1) = 64%nat -> (length x <= length b)%nat ->
    match compare_bup_loop resets fuel m1 m2 x with
    | Ok _ => exists m1' m2' x', iter_loop rounds body (E m1 m2 x) = Done (E m1' m2' x', Value VUnit)
    | Panic => iter_loop rounds body (E m1 m2 x) = Panics
    | Diverge => True
    end).
  { clear - S. induction fuel as [|fuel IH]; intros rounds m1 m2 x Hr W L; cbn [compare_bup_loop]; [exact I|].
    destruct rounds as [|rounds]; [lia|]. cbn [iter_loop]. rewrite S by assumption.
    destruct (rollsum_push m1 x) as [[m1' v1]| |] eqn:P; cbn [bind]; try reflexivity; try exact I. apply push_window in P.
    destruct (bup_find_chunk_edge resets m2 x) as [m2' v2]. unfold rust_assert. destruct (same_answer _ _); cbn [bind]; [|reflexivity].
    destruct v1 as [k|]; [|now exists m1', m2', x].
    unfold split_at. destruct (Nat.leb k (length x)); cbn [bind]; [|reflexivity].
    apply IH; [lia|congruence|]. rewrite skipn_length. lia. }
  specialize (G fuel rounds (rollsum_incr_new rollsum_default) bup_new b Hk new_window (le_n _)). unfold compare_bup.
  change [("x"%string, vbytes b); ("b"%string, vbytes b); ("r"%string, vdraw); ("m2"%string, enc_Bup bup_new); ("m1"%string, enc_RsIncr (rollsum_incr_new rollsum_default))]
    with (E (rollsum_incr_new rollsum_default) bup_new b).
  destruct (compare_bup_loop _ _ _ _ b) as [[]| |]; [|now rewrite G|exact I]. destruct G as (m1 & m2 & x & ->). unfold E. reduce. reflexivity.
Qed.

End Compared.

(** ** What the tests do *)

(** [simple_eq], [chk_a] and [chk_b] pass for every input, and so do the tests that call them, whether [rollsum] starts over after an edge or not. *)
Theorem C83_source : forall resets draw xs n, Z.of_nat (length xs) < 2 ^ 62 -> (300 <= n)%nat -> let prog := crate (compared resets draw) in
  call prog n "simple_eq" [vbytes xs] = Done ([vbytes xs], VBool true) /\
  call prog n "chk_a" [vbytes xs] = Done ([vbytes xs], VUnit) /\
  call prog n "chk_b" [vbytes xs] = Done ([vbytes xs], VUnit) /\
  forall f, In f ["simple_eq_1"; "simple_eq_1b"; "simple_eq_2"; "simple_eq_3"]%string -> call prog n f [] = Done ([], VUnit).
Proof.
  intros resets draw xs n HL Hn prog. unfold prog. rewrite src_simple_eq, src_chk_a, src_chk_b, C83_simple_eq, C83_chk_a, C83_chk_b by (assumption || lia).
  split; [reflexivity|]. split; [reflexivity|]. split; [reflexivity|]. intros f. now apply src_tests.
Qed.
Print Assumptions C83_source.

(** [iter_eq] passes for every input if the sums of [rollsum] go on after an edge.  Otherwise exactly for those on which the two APIs of RollSum agree. *)
Theorem C83_source_iter_eq_partial : forall draw xs n, Z.of_nat (length xs) < 2 ^ 62 -> (201 + length xs <= n)%nat ->
  call (crate (compared false draw)) n "iter_eq" [vbytes xs] = Done ([vbytes xs], VBool true) /\
  forall sched1 sched2 sh r1 r2,
    run_incr 0 (rollsum_incr rollsum_default) xs (sched1 ++ drain xs) = Ok r1 -> run_chunk sh (rollsum_chunk rollsum_default) xs (sched2 ++ drain xs) = Ok r2 ->
    exists ok, call (crate (compared true draw)) n "iter_eq" [vbytes xs] = Done ([vbytes xs], VBool ok) /\ (ok = true <-> r_cuts r1 = r_cuts r2).
Proof.
  intros draw xs n HL Hn. split.
  - assert (G := src_iter_eq false draw n (S (length xs)) xs ltac:(lia) HL). rewrite C83_iter_eq in G by lia. exact G.
  - intros sched1 sched2 sh r1 r2 E1 E2. destruct (C83_iter_eq_reset_partial xs (S (length xs)) sched1 sched2 sh r1 r2 ltac:(lia) E1 E2) as (ok & E & K).
    assert (G := src_iter_eq true draw n (S (length xs)) xs ltac:(lia) HL). rewrite E in G. now exists ok.
Qed.
Print Assumptions C83_source_iter_eq_partial.

(** The tests of src/bup.rs, whatever 2048 bytes are drawn. *)
Theorem C83_source_compare_partial : forall draw n, (forall k, length (draw k) = k) -> 2300 <= Z.of_nat n -> let data := draw (Z.to_nat 2048) in
  (forall resets, call (crate (compared resets draw)) n "compare_rollsum" [] = Done ([], VUnit)) /\
  call (crate (compared false draw)) n "compare_bup" [] = Done ([], VUnit) /\
  call (crate (compared true draw)) n "compare_bup" [] = match qc_iter_eq true (S (length data)) data with Ok true => Done ([], VUnit) | _ => Panics end.
Proof.
  intros draw n HD Hn data. assert (L : Z.of_nat (length data) = 2048) by (unfold data; rewrite HD; lia). split; [|split].
  - intros resets. rewrite src_compare_rollsum by lia. now rewrite C83_compare_rollsum.
  - assert (G := src_compare_bup false draw HD n (S (S (length data))) ltac:(lia)). fold data in G. rewrite C83_compare_bup in G by lia. exact G.
  - assert (G := src_compare_bup true draw HD n (S (S (length data))) ltac:(lia)). fold data in G.
    destruct (C83_compare_bup_reset_partial data (S (length data)) ltac:(lia)) as [[E ->]|[E ->]]; rewrite E in G; exact G.
Qed.
Print Assumptions C83_source_compare_partial.

(** Run on [close_cuts]: the two kinds of [rollsum] differ in [iter_eq] alone.  With a digest that is wrong the tests fail. *)
Example C83_case_source : let args := [vbytes close_cuts] in
  call (crate (compared true (repeat x00))) 300 "simple_eq" args = Done (args, VBool true) /\
  call (crate (compared true (repeat x00))) 300 "iter_eq" args = Done (args, VBool false) /\
  call (crate (compared false (repeat x00))) 300 "iter_eq" args = Done (args, VBool true) /\
  call (crate (fun f => if String.eqb f "Bup::digest" then Some (Given [("self"%string, false)] (fun vs => Done (vs, VInt U32 0))) else compared true (repeat x00) f)) 300 "chk_b" args = Panics.
Proof. cbv zeta. repeat apply conj; vm_compute; reflexivity. Qed.
