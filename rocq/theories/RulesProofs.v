(** * RulesProofs: the interpreter of [Rust.v] computes what the rules of [RustRules.v] derive. *)

From Coq Require Import String ZifyBool ZifyNat.
From Verif Require Import Base Rust RustRules.
Open Scope list_scope.
Open Scope Z_scope.

Definition of_opt {A} (r : option A) : out A := match r with Some a => Done a | None => Panics end.
Definition gives (o : outcome) : out (env * flow) := match o with Ended rho f => Done (rho, f) | Panicked => Panics end.

Lemma gives_inj o o' : gives o = gives o' -> o = o'.
Proof. destruct o, o'; cbn; congruence. Qed.
Lemma of_opt_inj {A} (o o' : option A) : of_opt o = of_opt o' -> o = o'.
Proof. destruct o, o'; cbn; congruence. Qed.

Lemma ity_eqb_iff t u : ity_eqb t u = true <-> t = u.
Proof. destruct t, u; cbn; split; congruence. Qed.
Lemma ity_eqb_refl t : ity_eqb t t = true.
Proof. now apply ity_eqb_iff. Qed.
Lemma size_width t : ity_size t = 2 ^ width t.
Proof. destruct t; reflexivity. Qed.
Lemma bits_width t : ity_bits t = width t.
Proof. destruct t; reflexivity. Qed.

Lemma ints_iff a : forall b r, same_ints a b r <-> ints_eqb a b = Done r.
Proof.
  induction a as [|v a IH]; intros b r.
  - split.
    + inversion 1; reflexivity.
    + destruct b; cbn; intros [= <-]; constructor.
  - split.
    + inversion 1; subst; [destruct v; reflexivity| |]; cbn; [rewrite ity_eqb_refl, Z.eqb_refl; now apply IH|].
      rewrite ity_eqb_refl. destruct (Z.eqb_spec x y); [contradiction|reflexivity].
    + destruct b as [|w b]; [destruct v; cbn; intros [= <-]; constructor|].
      cbn. destruct v; try discriminate. destruct w; try discriminate.
      destruct (ity_eqb t t0) eqn:E; [|discriminate]. apply ity_eqb_iff in E as <-.
      destruct (Z.eqb_spec z z0) as [<-|N]; [intros H; constructor; now apply IH|intros [= <-]; now constructor].
Qed.
Lemma ints_no a : forall b, ints_eqb a b <> Panics /\ ints_eqb a b <> NoFuel.
Proof.
  induction a as [|v a IH]; intros [|w b]; cbn; try (split; discriminate); destruct v; try (split; discriminate).
  destruct w; try (split; discriminate). destruct (ity_eqb t t0); [|split; discriminate]. destruct (z =? z0); [apply IH|split; discriminate].
Qed.

Lemma tells_iff r b P : (b = true <-> P) -> tells r P -> b = r.
Proof. unfold tells. destruct r, b; intuition congruence. Qed.
Lemma tells_bool b P : (b = true <-> P) -> tells b P.
Proof. exact (fun x => x). Qed.

Lemma int_iff t op a b r : op <> Shl -> op <> Shr -> bin_means op (VInt t a) (VInt t b) r <-> int_op t op a b = of_opt r.
Proof.
  intros N1 N2. split.
  - inversion 1; subst; cbn [int_op checked of_opt]; unfold checked, fits_in in *; rewrite ?size_width in *;
      try contradiction; try reflexivity;
      try match goal with |- context [if ?c then _ else _] => destruct c eqn:?; try reflexivity; lia end;
      do 2 f_equal; unfold tells in *; lia.
  - destruct op; cbn [int_op]; unfold checked; rewrite ?size_width; try contradiction;
      try match goal with |- context [if ?c then _ else _] => destruct c eqn:? end; intros E;
      destruct r as [r|]; try discriminate E; try (injection E as <-); try (constructor; unfold fits_in, tells; lia).
    all: match goal with H : negb (?b =? 0) = false |- _ => replace b with 0 by lia; constructor end.
Qed.

Lemma wrap_iff t op a b r : bin_means op (VWrap t a) (VWrap t b) r <-> wrap_op t op a b = of_opt r.
Proof.
  split.
  - inversion 1; subst; cbn [wrap_op of_opt]; rewrite ?size_width; try reflexivity.
    + destruct (Z.eqb_spec b 0); [contradiction|reflexivity].
    + do 2 f_equal; unfold tells in *; lia.
  - destruct op; cbn [wrap_op]; rewrite ?size_width; try (destruct r; discriminate); intros E.
    1-3: destruct r as [r|]; [|discriminate E]; injection E as <-; constructor.
    + destruct (Z.eqb_spec b 0) as [->|N]; destruct r as [r|]; try discriminate E; [constructor|injection E as <-; now constructor].
    + destruct r as [r|]; [|discriminate E]. injection E as <-. constructor. unfold tells. lia.
Qed.

Lemma bin_int op t u x y : bin_op op (VInt t x) (VInt u y) =
  match op with
  | Shl => checked (y <? ity_bits t) (VInt t (Z.shiftl x y mod ity_size t))
  | Shr => checked (y <? ity_bits t) (VInt t (Z.shiftr x y))
  | _ => if ity_eqb t u then int_op t op x y else Stuck
  end.
Proof. reflexivity. Qed.

Lemma bin_iff op a b r : bin_means op a b r <-> bin_op op a b = of_opt r.
Proof.
  destruct a as [t x|t x|ba|la| |ca la], b as [u y|u y|bb|lb| |cb lb]; try (split; [inversion 1|destruct r; discriminate]).
  - assert (D : op = Shl \/ op = Shr \/ (op <> Shl /\ op <> Shr)) by (destruct op; (left; reflexivity) || (right; left; reflexivity) || (right; right; split; discriminate)).
    destruct D as [->|[->|[N1 N2]]].
    1,2: cbn [bin_op]; rewrite ?size_width, ?bits_width; unfold checked; split;
      [inversion 1; subst; cbn [of_opt]; destruct (Z.ltb_spec y (width t)); reflexivity || lia
      |destruct (Z.ltb_spec y (width t)); destruct r as [r|]; try discriminate; [intros [= <-]; now constructor|intros _; now constructor]].
    rewrite bin_int. destruct (ity_eqb t u) eqn:E.
    + apply ity_eqb_iff in E as <-. rewrite (int_iff t op x y r) by assumption. destruct op; try contradiction; reflexivity.
    + split; [intros H|destruct op; try contradiction; destruct r; discriminate].
      exfalso. inversion H; subst; try contradiction; rewrite ity_eqb_refl in E; discriminate.
  - split.
    + inversion 1; subst. cbn [bin_op of_opt]. now rewrite size_width, bits_width.
    + cbn [bin_op]. destruct u; try (destruct r; discriminate). destruct op; try (destruct r; discriminate).
      rewrite size_width, bits_width. destruct r as [r|]; [|discriminate]. intros [= <-]. constructor.
  - cbn [bin_op]. destruct (ity_eqb t u) eqn:E.
    + apply ity_eqb_iff in E as <-. apply wrap_iff.
    + split; [|destruct r; discriminate]. intros H. exfalso. inversion H; subst; rewrite ity_eqb_refl in E; discriminate.
  - split.
    + inversion 1; subst. cbn [bin_op of_opt]. do 3 f_equal. apply (tells_iff _ _ (ba = bb)); [apply Bool.eqb_true_iff|assumption].
    + destruct op; try (destruct r; discriminate). cbn [bin_op]. destruct r as [r|]; [|discriminate]. intros [= <-]. constructor. apply tells_bool, Bool.eqb_true_iff.
  - split.
    + inversion 1; subst. cbn [bin_op of_opt]. apply ints_iff in H3. now rewrite H3.
    + destruct op; try (destruct r; discriminate). cbn [bin_op]. destruct (ints_no la lb) as [N1 N2].
      destruct (ints_eqb la lb) eqn:E; try contradiction; destruct r as [r|]; try discriminate.
      cbn. intros [= <-]. constructor. now apply ints_iff.
  - assert (O : forall c, In c ["Some"; "None"]%string <-> (String.eqb c "Some" || String.eqb c "None")%bool = true).
    { intros c. rewrite orb_true_iff, !String.eqb_eq. cbn [In]. intuition congruence. }
    split.
    + intros M. inversion M; subst; cbn [bin_op of_opt];
      match goal with O1 : In ca _, O2 : In cb _, Q : same_ints _ _ _ |- _ => apply O in O1, O2; apply ints_iff in Q; now rewrite O1, O2, Q end.
    + cbn [bin_op]. destruct (_ || _)%bool eqn:O1; [|destruct r; discriminate]. destruct (String.eqb cb "Some" || _)%bool eqn:O2; [|destruct r; discriminate].
      apply O in O1, O2. cbn [andb]. destruct op; try (destruct r; discriminate); destruct (ints_no la lb) as [N1 N2];
      (destruct (ints_eqb la lb) eqn:E; try contradiction; destruct r as [r|]; try discriminate); cbn [obind of_opt]; intros [= <-]; constructor; try assumption; now apply ints_iff.
Qed.

Lemma wpow_pow b e : wpow64 b e = b ^ Z.of_nat e mod 2 ^ 64.
Proof.
  induction e as [|e IH]; [reflexivity|]. cbn [wpow64]. rewrite IH. rewrite Nat2Z.inj_succ, Z.pow_succ_r by lia.
  change (ity_size U64) with (2 ^ 64). now rewrite Z.mul_mod_idemp_r by discriminate.
Qed.

Ltac str := repeat match goal with
  | H : context [String.eqb ?c ?s] |- _ => destruct (String.eqb_spec c s); [subst c|]
  end.

Lemma prim_iff p vs r : prim_means p vs r <-> prim_op p vs = of_opt r.
Proof.
  split.
  - inversion 1; subst; cbn [prim_op of_opt]; unfold checked, of_bool, fits_in, tells in *; rewrite ?ity_eqb_refl, ?size_width, ?wpow_pow; try reflexivity.
    + do 2 f_equal. destruct l, r0; try reflexivity; intuition congruence.
    + destruct (Z.eqb_spec x 0); [contradiction|reflexivity].
    + destruct (Z.ltb_spec z (2 ^ width t)); [reflexivity|lia].
    + destruct (Z.ltb_spec z (2 ^ width t)); [lia|reflexivity].
    + destruct vs0 as [|? [|? ?]]; cbn in *; reflexivity || lia.
    + destruct (Z.leb_spec n (Z.of_nat (length l))); [reflexivity|lia].
    + destruct (Z.leb_spec n (Z.of_nat (length l))); [lia|reflexivity].
  - intros E.
    destruct p; cbn [prim_op] in E; unfold checked, of_bool in E; rewrite ?size_width in E;
    repeat match type of E with context [match ?x with _ => _ end] =>
      lazymatch x with
      | String.eqb ?c ?s => destruct (String.eqb_spec c s); [subst c|]
      | ity_eqb ?a ?b => let F := fresh in destruct (ity_eqb a b) eqn:F; [apply ity_eqb_iff in F; subst b|]
      | _ => first [is_var x; destruct x|destruct x eqn:?]
      end end;
    destruct r as [r|]; cbn [of_opt] in E; try discriminate E;
    try (match type of E with Done ?x = Done ?y => assert (x = y) by congruence; subst y end); clear E;
    rewrite ?wpow_pow;
    try (constructor; unfold fits_in, tells; solve [lia|cbn; lia|intuition congruence]).
    replace z with 0 by lia. constructor.
Qed.

Lemma mut_iff p v vs v' r : mut_means p v vs v' r <-> mutprim_op p v vs = Done (v', r).
Proof.
  split; [inversion 1; reflexivity|].
  destruct p; cbn [mutprim_op]; destruct v; try discriminate.
  - destruct l, vs; try discriminate; intros [= <- <-]; constructor.
  - destruct vs as [|? [|? ?]]; try discriminate; intros [= <- <-]; constructor.
  - destruct vs; try discriminate; intros [= <- <-]; constructor.
Qed.
Lemma mut_no p v vs : mutprim_op p v vs <> Panics /\ mutprim_op p v vs <> NoFuel.
Proof. destruct p, v; try (split; discriminate); destruct vs as [|? [|? ?]]; try destruct l; split; discriminate. Qed.

Lemma assoc_iff rho x v : looks_up rho x v <-> assoc rho x = Done v.
Proof.
  split.
  - intros (pre & post & -> & N). induction pre as [|[y w] pre IH]; cbn.
    + now rewrite String.eqb_refl.
    + cbn in N. destruct (String.eqb_spec x y); [subst; tauto|]. apply IH. tauto.
  - induction rho as [|[y w] rho IH]; cbn; [discriminate|]. destruct (String.eqb_spec x y) as [<-|N].
    + intros [= <-]. now exists [], rho.
    + intros E. destruct (IH E) as (pre & post & -> & M). exists ((y, w) :: pre), post. split; [reflexivity|]. cbn. intros [F|F]; [congruence|tauto].
Qed.
Lemma assoc_no rho x : assoc rho x <> Panics /\ assoc rho x <> NoFuel.
Proof. induction rho as [|[y w] rho IH]; cbn; [split; discriminate|]. destruct (String.eqb x y); [split; discriminate|exact IH]. Qed.

Lemma assoc_set_iff rho x v : forall rho', updates rho x v rho' <-> assoc_set rho x v = Done rho'.
Proof.
  intros rho'. split.
  - intros (pre & w & post & -> & N & ->). induction pre as [|[y w'] pre IH]; cbn.
    + now rewrite String.eqb_refl.
    + cbn in N. destruct (String.eqb_spec x y); [subst; tauto|]. rewrite IH by tauto. reflexivity.
  - revert rho'. induction rho as [|[y w] rho IH]; cbn; [discriminate|]. intros rho'. destruct (String.eqb_spec x y) as [<-|N].
    + intros [= <-]. now exists [], w, rho.
    + destruct (assoc_set rho x v) as [r| | |]; try discriminate. intros [= <-]. destruct (IH r eq_refl) as (pre & w' & post & -> & M & ->).
      exists ((y, w) :: pre), w', post. split; [reflexivity|]. split; [|reflexivity]. cbn. intros [F|F]; [congruence|tauto].
Qed.
Lemma assoc_set_no rho x v : assoc_set rho x v <> Panics /\ assoc_set rho x v <> NoFuel.
Proof.
  induction rho as [|[y w] rho IH]; cbn; [split; discriminate|]. destruct (String.eqb x y); [split; discriminate|].
  destruct IH. destruct (assoc_set rho x v); try contradiction; split; discriminate.
Qed.

Lemma firsts_map {A B} (l : list (A * B)) : firsts l = map fst l.
Proof. induction l as [|[a b] l IH]; cbn; congruence. Qed.
Lemma seconds_map {A B} (l : list (A * B)) : seconds l = map snd l.
Proof. induction l as [|[a b] l IH]; cbn; congruence. Qed.
Lemma zip_combine {A B} (l : list A) : forall m : list B, zip l m = combine l m.
Proof. induction l as [|a l IH]; intros [|b m]; cbn; congruence. Qed.
Lemma env_app_app a b : env_app a b = a ++ b.
Proof. induction a as [|x a IH]; cbn; congruence. Qed.
Lemma env_length_length a : env_length a = length a.
Proof. induction a as [|x a IH]; cbn; congruence. Qed.
Lemma env_keep_skipn k a : env_keep (length a) k a = skipn (length a - k) a.
Proof.
  induction a as [|x a IH]; [now destruct k|]. cbn [env_keep length]. destruct (Nat.leb_spec (S (length a)) k).
  - now replace (S (length a) - k)%nat with 0%nat by lia.
  - rewrite IH. replace (S (length a) - k)%nat with (S (length a - k)) by lia. reflexivity.
Qed.

Lemma arrange_iff decl : forall fs gs, arrange decl fs = Done gs <-> (map fst gs = decl /\ Forall (fun '(f, v) => looks_up fs f v) gs).
Proof.
  induction decl as [|f decl IH]; intros fs gs; cbn.
  - split; [intros [= <-]; now split|]. intros [E _]. destruct gs; [reflexivity|discriminate].
  - split.
    + destruct (assoc fs f) as [v| | |] eqn:E; try discriminate. cbn. destruct (arrange decl fs) as [l| | |] eqn:E'; try discriminate.
      intros [= <-]. cbn. destruct (proj1 (IH fs l) E') as [<- F]. split; [reflexivity|]. constructor; [now apply assoc_iff|exact F].
    + destruct gs as [|[g v] gs]; [intros []; discriminate|]. cbn. intros [[= -> E] F]. inversion F; subst. apply assoc_iff in H1. rewrite H1. cbn.
      now rewrite (proj2 (IH fs gs) (conj eq_refl H2)).
Qed.
Lemma arrange_no decl fs : arrange decl fs <> Panics /\ arrange decl fs <> NoFuel.
Proof.
  induction decl as [|f decl [I1 I2]]; cbn; [split; discriminate|]. destruct (assoc_no fs f). destruct (assoc fs f); try contradiction; try (split; discriminate).
  cbn. destruct (arrange decl fs); try contradiction; split; discriminate.
Qed.

(** ** Operators without effect *)

Definition head_op (h : head) (vs : list value) : out value :=
  match h, vs with
  | HField f, [v] => get_field v f
  | HIndex, [v; i] => get_index v i
  | HSlice, [v; a; b] => get_slice v a b
  | HSliceFrom, [v; a] => obind (len_of v) (fun b => get_slice v a b)
  | HSliceTo, [v; b] => get_slice v (VInt Usize 0) b
  | HWrapping, [VInt t z] => Done (VWrap t z)
  | HCast t, [v] => cast t v
  | HBin op, [a; b] => bin_op op a b
  | HNot, [VBool b] => Done (VBool (negb b))
  | HStruct name decl names, vs => obind (arrange decl (zip names vs)) (fun fs => Done (VStruct name fs))
  | HCon c, vs => Done (VCon c vs)
  | HList, vs => Done (VList vs)
  | HPrim p, vs => prim_op p vs
  | _, _ => Stuck
  end.

Lemma head_iff h vs r : means h vs r <-> head_op h vs = of_opt r.
Proof.
  split.
  - inversion 1; subst; cbn [head_op of_opt]; try reflexivity.
    + now apply assoc_iff.
    + cbn. now rewrite H0.
    + cbn. destruct (nth_error l (Z.to_nat z)) eqn:E; [|reflexivity]. apply nth_error_None in H0. congruence.
    + cbn. unfold checked. destruct (_ && _) eqn:E; [reflexivity|lia].
    + cbn. unfold checked. destruct (_ && _) eqn:E; [lia|reflexivity].
    + cbn. unfold checked. destruct (_ && _) eqn:E; [|lia]. do 2 f_equal. apply firstn_all2. rewrite skipn_length. lia.
    + cbn. unfold checked. destruct (_ && _) eqn:E; [lia|reflexivity].
    + cbn. unfold checked. destruct (_ && _) eqn:E; [|lia]. cbn [Z.to_nat skipn]. now rewrite Nat.sub_0_r.
    + cbn. unfold checked. destruct (_ && _) eqn:E; [lia|reflexivity].
    + now apply bin_iff.
    + rewrite zip_combine. replace (arrange (map fst fs) (combine names vs)) with (@Done (list (string * value)) fs); [reflexivity|].
      symmetry. now apply arrange_iff.
    + now apply prim_iff.
  - intros E. destruct h; cbn [head_op] in E.
    + destruct vs as [|v [|? ?]]; try (destruct r; discriminate E). destruct v; try (destruct r; discriminate E).
      * cbn in E. destruct (String.eqb_spec f "0") as [->|]; destruct r as [r|]; try discriminate E. injection E as <-. constructor.
      * cbn in E. destruct r as [r|]; [constructor; now apply assoc_iff|]. destruct (assoc_no fields f). contradiction.
    + destruct vs as [|v [|w [|? ?]]]; try (destruct r; discriminate E). destruct v; try (destruct r; discriminate E).
      destruct w as [[]| | | | |]; try (destruct r; discriminate E). cbn in E.
      destruct (nth_error l (Z.to_nat z)) eqn:N; destruct r as [r|]; try discriminate E.
      * injection E as <-. now constructor.
      * constructor. now apply nth_error_None.
    + destruct vs as [|v [|w [|x [|? ?]]]]; try (destruct r; discriminate E). destruct v; try (destruct r; discriminate E).
      destruct w as [[]| | | | |]; try (destruct r; discriminate E). destruct x as [[]| | | | |]; try (destruct r; discriminate E). cbn in E. unfold checked in E.
      destruct (_ && _) eqn:N in E; destruct r as [r|]; try discriminate E.
      * injection E as <-. constructor. lia.
      * constructor. lia.
    + destruct vs as [|v [|w [|? ?]]]; try (destruct r; discriminate E). destruct v; try (destruct r; discriminate E).
      destruct w as [[]| | | | |]; try (destruct r; discriminate E). cbn in E. unfold checked in E.
      destruct (_ && _) eqn:N in E; destruct r as [r|]; try discriminate E.
      * injection E as <-. rewrite firstn_all2 by (rewrite skipn_length; lia). constructor. lia.
      * constructor. lia.
    + destruct vs as [|v [|w [|? ?]]]; try (destruct r; discriminate E). destruct v; try (destruct r; discriminate E).
      destruct w as [[]| | | | |]; try (destruct r; discriminate E). cbn [get_slice] in E. unfold checked in E.
      destruct (_ && _) eqn:N in E; destruct r as [r|]; try discriminate E.
      * injection E as <-. cbn [Z.to_nat skipn]. rewrite Nat.sub_0_r. constructor. lia.
      * constructor. lia.
    + destruct vs as [|v [|? ?]]; try (destruct v; destruct r; discriminate E); try (destruct r; discriminate E).
      destruct v; destruct r as [r|]; try discriminate E. injection E as <-. constructor.
    + destruct vs as [|v [|? ?]]; try (destruct r; discriminate E). destruct v; destruct r as [r|]; try discriminate E.
      cbn [cast of_opt] in E. rewrite size_width in E. injection E as <-. constructor.
    + destruct vs as [|v [|w [|? ?]]]; try (destruct r; discriminate E). constructor. now apply bin_iff.
    + destruct vs as [|v [|? ?]]; try (destruct v; destruct r; discriminate E); try (destruct r; discriminate E).
      destruct v; destruct r as [r|]; try discriminate E. injection E as <-. constructor.
    + rewrite zip_combine in E. destruct (arrange_no decl (combine names vs)).
      destruct (arrange decl (combine names vs)) as [fs| | |] eqn:A; try contradiction; destruct r as [r|]; try discriminate E.
      cbn in E. injection E as <-. apply arrange_iff in A as [A B]. now constructor.
    + destruct r as [r|]; [|discriminate E]. injection E as <-. constructor.
    + destruct r as [r|]; [|discriminate E]. injection E as <-. constructor.
    + constructor. now apply prim_iff.
Qed.

(** ** The interpreter, operands first *)

Section Interpreter.
Variable prog : program.

Definition evg (n : nat) : env -> expr -> out (env * flow) := fun rho e => eval prog (gate rho n) rho e.
Lemma evg_eval n rho e : evg n rho e = eval prog n rho e.
Proof. unfold evg, gate. now destruct rho. Qed.

Definition apply (n : nat) (f : string) (rho : env) (es : list expr) (vs : list value) : out (env * flow) :=
  pure_then (call_with prog (eval prog (lock n)) f vs) (fun '(finals, v) =>
  pure_then (write_back (evg n) rho (params_of prog f) es finals) (fun rho' => Done (rho', Value v))).

Definition store (n : nat) (rho : env) (place : expr) (m : out (value * value)) : out (env * flow) :=
  pure_then m (fun '(new, r) => pure_then (assign (evg n) rho place new) (fun rho' => Done (rho', Value r))).

Definition act (n : nat) (rho : env) (e : expr) (vs : list value) : out (env * flow) :=
  match head_of e with
  | Some h => ret rho (head_op h vs)
  | None =>
      match e, vs with
      | Lit t z, [] => Done (rho, Value (VInt t z))
      | BoolLit b, [] => Done (rho, Value (VBool b))
      | Var x, [] => ret rho (assoc rho x)
      | And _ b, [VBool c] => if c then evg n rho b else Done (rho, Value (VBool false))
      | Or _ b, [VBool c] => if c then Done (rho, Value (VBool true)) else evg n rho b
      | Call f es, vs => apply n f rho es vs
      | Method m es, v :: r => apply n (append (type_of v) (append "::" m)) rho es (v :: r)
      | MutPrim p place es, v :: r => store n rho place (mutprim_op p v r)
      | CopyFromSlice place _ _ _, [v; a; b; s] => store n rho place (obind (copy_slice v a b s) (fun v' => Done (v', VUnit)))
      | Swap p q, [a; b] =>
          pure_then (assign (evg n) rho p b) (fun rho =>
          pure_then (assign (evg n) rho q a) (fun rho => Done (rho, Value VUnit)))
      | Let x _, [v] => Done ((x, v) :: rho, Value VUnit)
      | LetPair x y _, [VCon _ [a; b]] => Done ((y, b) :: (x, a) :: rho, Value VUnit)
      | Assign place _, [v] => store n rho place (Done (v, VUnit))
      | OpAssign op place _, [v; old] => store n rho place (obind (bin_op op old v) (fun new => Done (new, VUnit)))
      | Block es, [] => scoped [] rho (fun rho => seq (evg n) rho es)
      | If _ t f, [VBool b] => if b then evg n rho t else evg n rho f
      | Match _ arms, [v] => pure_then (select v arms) (fun '(bs, e') => scoped bs rho (fun rho => evg n rho e'))
      | ForRange x _ _ body, [VInt Usize a; VInt Usize b] =>
          iter_range (fun rho i => scoped [(x, VInt Usize i)] rho (fun rho => eval prog (lock n) rho body)) a (Z.to_nat b - Z.to_nat a) rho
      | ForEnum i v _ body, [VList l] =>
          iter_enum (fun rho iz vv => scoped [(v, vv); (i, VInt Usize iz)] rho (fun rho => eval prog (lock n) rho body)) 0 l rho
      | ForIn v _ body, [VList l] =>
          iter_enum (fun rho _ vv => scoped [(v, vv)] rho (fun rho => eval prog (lock n) rho body)) 0 l rho
      | Loop body, [] => iter_loop n (fun rho => eval prog (lock n) rho body) rho
      | Break, [] => Done (rho, Breaking)
      | Return _, [v] => Done (rho, Returning v)
      | _, _ => Stuck
      end
  end.

Lemma evals_ext ev k k' : (forall rho vs, k rho vs = k' rho vs) -> forall es rho, evals ev rho es k = evals ev rho es k'.
Proof.
  intros H es. revert k k' H. induction es as [|e es IH]; intros k k' H rho; cbn; [apply H|].
  destruct (ev rho e) as [[rho' []]| | |]; cbn; try reflexivity. apply IH. intros. apply H.
Qed.
Lemma andthen_ext m k k' : (forall rho v, k rho v = k' rho v) -> andthen m k = andthen m k'.
Proof. intros H. destruct m as [[rho []]| | |]; cbn; congruence. Qed.

Lemma eval_act n rho e : eval prog (S n) rho e = evals (evg n) rho (operands e) (fun rho vs => act n rho e vs).
Proof.
  destruct e; try reflexivity;
    cbn [operands]; unfold act; cbn [eval evals head_of head_op]; unfold store.
  all: try (apply andthen_ext; intros r v; destruct v; reflexivity).
  - change (fun rho e => eval prog (gate rho n) rho e) with (evg n). rewrite <- seconds_map. apply evals_ext. intros r vs. rewrite firsts_map. now destruct (arrange _ _).
  - change (fun rho e => eval prog (gate rho n) rho e) with (evg n). apply evals_ext. intros r vs. now destruct vs.
  - apply andthen_ext; intros r1 v1. apply andthen_ext; intros r2 v2. apply andthen_ext; intros r3 v3. apply andthen_ext; intros r4 v4. now destruct (copy_slice v1 v2 v3 v4).
  - apply andthen_ext; intros r1 v1. apply andthen_ext; intros r2 v2. now destruct (bin_op op v2 v1).
Qed.

(** ** What the interpreter computes, the rules derive *)

Definition sound (ev : env -> expr -> out (env * flow)) : Prop := forall rho e o, ev rho e = gives o -> ends prog rho e o.

Lemma sound_ended ev rho e rho' f : sound ev -> ev rho e = Done (rho', f) -> ends prog rho e (Ended rho' f).
Proof. intros H E. apply H. exact E. Qed.
Lemma sound_panic ev rho e : sound ev -> ev rho e = Panics -> ends prog rho e Panicked.
Proof. intros H E. apply H. exact E. Qed.

Lemma sound_evals ev : sound ev -> forall es rho k o, evals ev rho es k = gives o ->
  (exists rho' vs, args prog rho es (Vals rho' vs) /\ k rho' vs = gives o) \/ args prog rho es (Stop o).
Proof.
  intros S es. induction es as [|e es IH]; intros rho k o E; cbn in E.
  - left. exists rho, []. split; [constructor|exact E].
  - destruct (ev rho e) as [[rho1 [v|v|]]| | |] eqn:Ee; cbn in E; try (destruct o; discriminate E).
    + apply (sound_ended _ _ _ _ _ S) in Ee. destruct (IH _ _ _ E) as [(rho' & vs & A & K)|A].
      * left. exists rho', (v :: vs). split; [econstructor; eassumption|exact K].
      * right. eapply args_later; eassumption.
    + right. apply args_here; [|]. { apply S. rewrite Ee. exact E. } destruct o; [injection E as -> <-|discriminate E]. exact I.
    + right. apply args_here; [|]. { apply S. rewrite Ee. exact E. } destruct o; [injection E as -> <-|discriminate E]. exact I.
    + right. apply args_here; [|]. { apply S. rewrite Ee. exact E. } destruct o; [discriminate E|]. exact I.
Qed.

Lemma sound_seq ev : sound ev -> forall es rho o, seq ev rho es = gives o -> steps prog rho es o.
Proof.
  intros S es. induction es as [|e es IH]; intros rho o E.
  - destruct o; [|discriminate E]. cbn in E. injection E as <- <-. constructor.
  - destruct es as [|e' es]; [cbn in E; constructor; now apply S|].
    change (seq ev rho (e :: e' :: es)) with (andthen (ev rho e) (fun rho _ => seq ev rho (e' :: es))) in E.
    destruct (ev rho e) as [[rho1 [v|v|]]| | |] eqn:Ee; cbn [andthen] in E; try (destruct o; discriminate E).
    + apply (sound_ended _ _ _ _ _ S) in Ee. eapply steps_next; [exact Ee|]. now apply IH.
    + apply steps_stop; [|]. { apply S. rewrite Ee. exact E. } destruct o; [injection E as -> <-|discriminate E]. exact I.
    + apply steps_stop; [|]. { apply S. rewrite Ee. exact E. } destruct o; [injection E as -> <-|discriminate E]. exact I.
    + apply steps_stop; [|]. { apply S. rewrite Ee. exact E. } destruct o; [discriminate E|]. exact I.
Qed.

Lemma field_iff old f v new : field_set old f v new <-> set_field old f v = Done new.
Proof.
  split.
  - inversion 1; subst; cbn; [|now rewrite ity_eqb_refl]. apply assoc_set_iff in H0. now rewrite H0.
  - destruct old; try discriminate; cbn.
    + destruct v; try discriminate. destruct (String.eqb_spec f "0"); [subst f|discriminate]. destruct (ity_eqb t t0) eqn:E; [|discriminate].
      apply ity_eqb_iff in E as <-. intros [= <-]. constructor.
    + destruct (assoc_set fields f v) eqn:E; try discriminate. intros [= <-]. constructor. now apply assoc_set_iff.
Qed.
Lemma field_no old f v : set_field old f v <> Panics /\ set_field old f v <> NoFuel.
Proof.
  destruct old; try (split; discriminate); cbn.
  - destruct v; try (split; discriminate). destruct (String.eqb f "0"); [|split; discriminate]. destruct (ity_eqb t t0); split; discriminate.
  - destruct (assoc_set_no fields f v). destruct (assoc_set fields f v); try contradiction; split; discriminate.
Qed.

Lemma sound_assign ev : sound ev -> forall place rho v r, assign ev rho place v = of_opt r -> assigns prog rho place v r.
Proof.
  intros S place. induction place; intros rho w r E; cbn [assign] in E; try (destruct r; discriminate E).
  - destruct r as [r|]; [constructor; now apply assoc_set_iff|]. destruct (assoc_set_no rho x w). contradiction.
  - destruct (ev rho place) as [[rho1 [old|?|]]| | |] eqn:Ee; try (destruct r; discriminate E).
    + destruct (field_no old f w). destruct (set_field old f w) as [new| | |] eqn:F; try contradiction; [|destruct r; discriminate E].
      eapply assign_field; [eapply sound_ended; eassumption|apply field_iff; exact F|]. apply IHplace. exact E.
    + destruct r; [discriminate E|]. apply assign_field_fails. eapply sound_panic; eassumption.
  - destruct (ev rho place1) as [[rho1 [old|?|]]| | |] eqn:Ee; try (destruct r; discriminate E).
    + destruct (ev rho place2) as [[rho2 [vi|?|]]| | |] eqn:Ei; try (destruct r; discriminate E).
      * destruct old; try (destruct r; discriminate E). destruct vi as [[]| | | | |]; try (destruct r; discriminate E).
        cbn [set_index] in E. unfold checked in E. destruct (Z.ltb_spec z (Z.of_nat (length l))); cbn [obind] in E.
        -- eapply assign_index; [eapply sound_ended; eassumption|eapply sound_ended; eassumption|assumption|]. apply IHplace1. exact E.
        -- destruct r; [discriminate E|]. eapply assign_index_out; [eapply sound_ended; eassumption|eapply sound_ended; eassumption|assumption].
      * destruct r; [discriminate E|]. eapply assign_index_index; [eapply sound_ended|eapply sound_panic]; eassumption.
    + destruct r; [discriminate E|]. apply assign_index_place. eapply sound_panic; eassumption.
Qed.

Lemma sound_writes ev : sound ev -> forall ps es vs rho r, write_back ev rho ps es vs = of_opt r -> writes prog rho ps es vs r.
Proof.
  intros S ps. induction ps as [|[x []] ps IH]; intros es vs rho r E; cbn [write_back] in E.
  - destruct es, vs; try (destruct r; discriminate E). destruct r; [|discriminate E]. injection E as <-. constructor.
  - destruct es, vs; try (destruct r; discriminate E).
    destruct (assign ev rho e v) as [rho'| | |] eqn:A; cbn [obind] in E; try (destruct r; discriminate E).
    + eapply writes_mut; [apply (sound_assign ev S); exact A|]. now apply IH.
    + destruct r; [discriminate E|]. apply writes_fails. apply (sound_assign ev S). exact A.
  - destruct es, vs; try (destruct r; discriminate E). apply writes_other. now apply IH.
Qed.

Lemma bind_iff ps : forall vs rho, bind_params ps vs = Done rho <-> length vs = length ps /\ rho = combine (map fst ps) vs.
Proof.
  induction ps as [|[x b] ps IH]; intros [|v vs] rho; cbn; try (split; [discriminate|intros []; discriminate]).
  - split; [intros [= <-]; now split|intros [_ ->]; reflexivity].
  - split.
    + destruct (bind_params ps vs) as [r| | |] eqn:E; try discriminate. apply IH in E as [L ->]. intros [= <-]. split; [now rewrite L|reflexivity].
    + intros [[= L] ->]. rewrite (proj2 (IH vs _) (conj L eq_refl)). reflexivity.
Qed.
Lemma bind_no ps : forall vs, bind_params ps vs <> Panics /\ bind_params ps vs <> NoFuel.
Proof.
  induction ps as [|[x b] ps IH]; intros [|v vs]; cbn; try (split; discriminate).
  destruct (IH vs). destruct (bind_params ps vs); try contradiction; split; discriminate.
Qed.

Lemma sound_calls ev : sound ev -> forall f vs r, call_with prog ev f vs = of_opt r -> calls prog f vs r.
Proof.
  intros S f vs r E. unfold call_with in E. destruct (prog f) as [[g|ps g]|] eqn:P; [| |destruct r; discriminate E].
  - destruct (bind_no (fn_params g) vs). destruct (bind_params (fn_params g) vs) as [rho0| | |] eqn:B; try contradiction; [|destruct r; discriminate E].
    apply bind_iff in B as [L ->]. cbn [obind] in E.
    destruct (ev _ (fn_body g)) as [[rho1 [v|v|]]| | |] eqn:Ee; try (destruct r; discriminate E).
    + destruct r as [r|]; [|discriminate E]. cbn in E. injection E as <-. rewrite seconds_map.
      eapply call_source; [exact P|exact L|eapply sound_ended; eassumption|now left].
    + destruct r as [r|]; [|discriminate E]. cbn in E. injection E as <-. rewrite seconds_map.
      eapply call_source; [exact P|exact L|eapply sound_ended; eassumption|now right].
    + destruct r as [r|]; [discriminate E|]. eapply call_source_fails; [exact P|exact L|eapply sound_panic; eassumption].
  - destruct r as [r|]; [eapply call_given|eapply call_given_fails]; eassumption.
Qed.

Lemma scoped_iff bs rho (ev : env -> expr -> out (env * flow)) e o : scoped bs rho (fun rho => ev rho e) = gives o <-> exists o1, ev (bs ++ rho) e = gives o1 /\ o = leave rho o1.
Proof.
  unfold scoped. rewrite env_app_app. split.
  - destruct (ev (bs ++ rho) e) as [[rho' f]| | |] eqn:E; intros H; try (destruct o; discriminate H).
    + exists (Ended rho' f). split; [reflexivity|]. apply gives_inj. rewrite <- H. cbn. now rewrite !env_length_length, env_keep_skipn.
    + exists Panicked. split; [reflexivity|]. apply gives_inj. now rewrite <- H.
  - intros (o1 & -> & ->). destruct o1 as [rho' f|]; [|reflexivity]. cbn. now rewrite !env_length_length, env_keep_skipn.
Qed.

(** The loops over a list of bindings. *)
Fixpoint iter_envs (ev : env -> expr -> out (env * flow)) (body : expr) (bss : list env) (rho : env) : out (env * flow) :=
  match bss with
  | [] => Done (rho, Value VUnit)
  | bs :: r =>
      match scoped bs rho (fun rho => ev rho body) with
      | Done (rho', Value _) => iter_envs ev body r rho'
      | Done (rho', Returning v) => Done (rho', Returning v)
      | Done (rho', Breaking) => Done (rho', Value VUnit)
      | Panics => Panics
      | Stuck => Stuck
      | NoFuel => NoFuel
      end
  end.

Lemma range_envs ev body x n : forall a rho,
  iter_range (fun rho i => scoped [(x, VInt Usize i)] rho (fun rho => ev rho body)) a n rho =
  iter_envs ev body (map (fun i => [(x, VInt Usize (a + Z.of_nat i))]) (List.seq 0 n)) rho.
Proof.
  induction n as [|n IH]; intros a rho; [reflexivity|]. cbn [iter_range List.seq map iter_envs]. rewrite Z.add_0_r.
  rewrite <- seq_shift, map_map. destruct (scoped _ rho _) as [[rho' [v|v|]]| | |]; try reflexivity. rewrite IH. f_equal. apply map_ext. intros i. do 3 f_equal. lia.
Qed.
Lemma enum_envs ev body (bind : Z -> value -> env) l : forall i rho,
  iter_enum (fun rho i v => scoped (bind i v) rho (fun rho => ev rho body)) i l rho =
  iter_envs ev body (map (fun '(k, v) => bind (i + Z.of_nat k) v) (combine (List.seq 0 (length l)) l)) rho.
Proof.
  induction l as [|w l IH]; intros i rho; [reflexivity|]. cbn [iter_enum length List.seq combine map iter_envs]. rewrite Z.add_0_r.
  destruct (scoped _ rho _) as [[rho' [v|v|]]| | |]; try reflexivity. rewrite IH. f_equal. rewrite <- seq_shift.
  generalize (List.seq 0 (length l)). clear. intros ks. revert l. induction ks as [|k ks IH]; intros [|v l]; try reflexivity. cbn [map combine]. rewrite IH. f_equal. f_equal. lia.
Qed.
Lemma in_envs ev body x l : forall i rho,
  iter_enum (fun rho _ v => scoped [(x, v)] rho (fun rho => ev rho body)) i l rho = iter_envs ev body (map (fun v => [(x, v)]) l) rho.
Proof.
  induction l as [|w l IH]; intros i rho; [reflexivity|]. cbn [iter_enum map iter_envs].
  destruct (scoped _ rho _) as [[rho' [v|v|]]| | |]; try reflexivity. apply IH.
Qed.

Lemma sound_each ev : sound ev -> forall body bss rho o, iter_envs ev body bss rho = gives o -> each prog rho bss body o.
Proof.
  intros S body bss. induction bss as [|bs bss IH]; intros rho o E; cbn [iter_envs] in E.
  - destruct o; [|discriminate E]. cbn in E. injection E as <- <-. constructor.
  - destruct (scoped bs rho _) as [[rho1 f]| | |] eqn:Es; try (destruct o; discriminate E).
    + change (Done (rho1, f)) with (gives (Ended rho1 f)) in Es. apply (scoped_iff bs rho ev body) in Es as (o1 & E1 & L). apply S in E1. symmetry in L.
      destruct f as [v|v|].
      * eapply each_next; [exact E1|exact L|]. now apply IH.
      * destruct o; [|discriminate E]. cbn in E. injection E as <- <-. eapply each_return; eassumption.
      * destruct o; [|discriminate E]. cbn in E. injection E as <- <-. eapply each_break; eassumption.
    + change (@Panics (env * flow)) with (gives Panicked) in Es. apply (scoped_iff bs rho ev body) in Es as (o1 & E1 & L). apply S in E1.
      destruct o1; [discriminate L|]. destruct o; [discriminate E|]. now apply each_fails.
Qed.

Lemma sound_repeats ev : sound ev -> forall body n rho o, iter_loop n (fun rho => ev rho body) rho = gives o -> repeats prog rho body o.
Proof.
  intros S body n. induction n as [|n IH]; intros rho o E; cbn [iter_loop] in E; [destruct o; discriminate E|].
  destruct (ev rho body) as [[rho1 [v|v|]]| | |] eqn:Ee; try (destruct o; discriminate E).
  - eapply repeat_next; [eapply sound_ended; eassumption|]. now apply IH.
  - destruct o; [|discriminate E]. cbn in E. injection E as <- <-. apply repeat_return. eapply sound_ended; eassumption.
  - destruct o; [|discriminate E]. cbn in E. injection E as <- <-. eapply repeat_break. eapply sound_ended; eassumption.
  - destruct o; [discriminate E|]. apply repeat_fails. eapply sound_panic; eassumption.
Qed.

Lemma select_iff v arms : forall bs e, chooses v arms bs e <-> select v arms = Done (bs, e).
Proof.
  intros bs e. split.
  - induction 1; cbn; rewrite ?zip_combine, ?String.eqb_refl; try reflexivity.
    destruct (String.eqb_spec c' c); [congruence|assumption].
  - induction arms as [|[[c xs|] e'] arms IH]; cbn; [discriminate| |].
    + destruct v; try discriminate. destruct (String.eqb_spec c c0) as [<-|N].
      * rewrite zip_combine. intros [= <- <-]. constructor.
      * intros E. apply choose_later; [congruence|now apply IH].
    + intros [= <- <-]. constructor.
Qed.
Lemma select_no v arms : select v arms <> Panics /\ select v arms <> NoFuel.
Proof. induction arms as [|[[c xs|] e'] arms IH]; cbn; try (split; discriminate). destruct v; try (split; discriminate). destruct (String.eqb c c0); [split; discriminate|exact IH]. Qed.

Lemma sound_store n rho e vs place m o : sound (evg n) ->
  (forall new r, m = Done (new, r) -> stores e vs place new r) -> (m = Panics -> store_fails e vs) ->
  store n rho place m = gives o -> acts prog rho e vs o.
Proof.
  intros S H1 H2 E. unfold store in E. destruct m as [[new r]| | |]; cbn [pure_then] in E; try (destruct o; discriminate E).
  - specialize (H1 _ _ eq_refl). destruct (assign (evg n) rho place new) as [rho'| | |] eqn:A; cbn [pure_then] in E; try (destruct o; discriminate E).
    + destruct o; [|discriminate E]. cbn in E. injection E as <- <-. eapply act_store; [exact H1|]. apply (sound_assign _ S). exact A.
    + destruct o; [discriminate E|]. eapply act_store_place; [exact H1|]. apply (sound_assign _ S). exact A.
  - destruct o; [discriminate E|]. now apply act_store_fails, H2.
Qed.

Lemma sound_apply n f rho e es vs o : sound (evg n) -> sound (eval prog (lock n)) -> callee e vs f es ->
  apply n f rho es vs = gives o -> acts prog rho e vs o.
Proof.
  intros S S' C E. unfold apply in E. destruct (call_with prog (eval prog (lock n)) f vs) as [[finals v]| | |] eqn:K; cbn [pure_then] in E; try (destruct o; discriminate E).
  - assert (T : takes prog f (params_of prog f)).
    { unfold takes, params_of. unfold call_with in K. destruct (prog f) as [[]|]; try reflexivity. discriminate K. }
    destruct (write_back (evg n) rho (params_of prog f) es finals) as [rho'| | |] eqn:W; cbn [pure_then] in E; try (destruct o; discriminate E).
    + destruct o; [|discriminate E]. cbn in E. injection E as <- <-. eapply act_call; [exact C|exact T|apply (sound_calls _ S'); exact K|apply (sound_writes _ S); exact W].
    + destruct o; [discriminate E|]. eapply act_call_write; [exact C|exact T|apply (sound_calls _ S'); exact K|apply (sound_writes _ S); exact W].
  - destruct o; [discriminate E|]. eapply act_call_fails; [exact C|]. apply (sound_calls _ S'). exact K.
Qed.

Lemma callee_type m es v vs : callee (Method m es) (v :: vs) (append (type_of v) (append "::" m)) es.
Proof. destruct v; try (apply callee_other; discriminate). apply callee_struct. Qed.

Ltac val o E := destruct o; [|discriminate E]; cbn [gives] in E; injection E as <- <-.

Lemma sound_act n : sound (evg n) -> sound (eval prog (lock n)) -> forall rho e vs o, act n rho e vs = gives o -> acts prog rho e vs o.
Proof.
  intros S S' rho e vs o E. unfold act in E. destruct (head_of e) as [h|] eqn:H.
  - destruct (head_op h vs) as [v| | |] eqn:M; cbn [ret] in E; try (destruct o; discriminate E).
    + val o E. eapply act_pure; [exact H|]. apply head_iff. exact M.
    + destruct o; [discriminate E|]. eapply act_pure_fails; [exact H|]. apply head_iff. exact M.
  - destruct e; try discriminate H; clear H;
    try (destruct vs as [|v vs]; [|destruct o; discriminate E]).
    + val o E. constructor.
    + val o E. constructor.
    + destruct (assoc_no rho x). destruct (assoc rho x) eqn:A; try contradiction; cbn [ret] in E; try (destruct o; discriminate E). val o E. constructor. now apply assoc_iff.
    + destruct vs as [|[| |b| | |] [|? ?]]; try (destruct o; discriminate E). destruct b; [apply act_and_true, S, E|val o E; constructor].
    + destruct vs as [|[| |b| | |] [|? ?]]; try (destruct o; discriminate E). destruct b; [val o E; constructor|apply act_or_false, S, E].
    + eapply sound_apply; [exact S|exact S'|constructor|exact E].
    + destruct vs as [|v vs]; [destruct o; discriminate E|]. eapply sound_apply; [exact S|exact S'|apply callee_type|exact E].
    + destruct vs as [|v vs]; [destruct o; discriminate E|]. eapply sound_store; [exact S| | |exact E].
      * intros new r M. constructor. now apply mut_iff.
      * intros M. destruct (mut_no p v vs). contradiction.
    + destruct vs as [|v [|a [|b [|s [|? ?]]]]]; try (destruct o; discriminate E). eapply sound_store; [exact S| | |exact E].
      * destruct v, a as [[]| | | | |], b as [[]| | | | |], s; try discriminate. cbn. unfold checked. destruct (_ && _) eqn:C; [|discriminate].
        intros new r [= <- <-]. apply store_copy; lia.
      * destruct v, a as [[]| | | | |], b as [[]| | | | |], s; try discriminate. cbn. unfold checked. destruct (_ && _) eqn:C; [discriminate|].
        intros _. apply copy_out. lia.
    + destruct vs as [|a [|b [|? ?]]]; try (destruct o; discriminate E).
      destruct (assign (evg n) rho e1 b) as [rho1| | |] eqn:A1; cbn [pure_then] in E; try (destruct o; discriminate E).
      * destruct (assign (evg n) rho1 e2 a) as [rho2| | |] eqn:A2; cbn [pure_then] in E; try (destruct o; discriminate E).
        -- val o E. eapply act_swap; apply (sound_assign _ S); eassumption.
        -- destruct o; [discriminate E|]. eapply act_swap_second; apply (sound_assign _ S); [exact A1|exact A2].
      * destruct o; [discriminate E|]. apply act_swap_first. apply (sound_assign _ S). exact A1.
    + destruct vs as [|v [|? ?]]; try (destruct o; discriminate E). val o E. constructor.
    + destruct vs as [|[| | | | |c [|a [|b [|? ?]]]] [|? ?]]; try (destruct o; discriminate E). val o E. constructor.
    + destruct vs as [|v [|? ?]]; try (destruct o; discriminate E). eapply sound_store; [exact S| | |exact E]; [intros new r [= <- <-]; constructor|discriminate].
    + destruct vs as [|v [|old [|? ?]]]; try (destruct o; discriminate E). eapply sound_store; [exact S| | |exact E].
      * destruct (bin_op op old v) as [w| | |] eqn:B; try discriminate. intros new r [= <- <-]. constructor. apply bin_iff. exact B.
      * destruct (bin_op op old v) as [w| | |] eqn:B; try discriminate. intros _. constructor. apply bin_iff. exact B.
    + apply (scoped_iff [] rho (fun rho _ => seq (evg n) rho es) Break) in E as (o1 & E & ->). apply act_block. apply (sound_seq _ S). exact E.
    + destruct vs as [|[| |b| | |] [|? ?]]; try (destruct o; discriminate E). destruct b; [apply act_if_true, S, E|apply act_if_false, S, E].
    + destruct vs as [|v [|? ?]]; try (destruct o; discriminate E). destruct (select_no v arms).
      destruct (select v arms) as [[bs e']| | |] eqn:C; try contradiction; cbn [pure_then] in E; try (destruct o; discriminate E).
      apply (scoped_iff bs rho (evg n) e') in E as (o1 & E & ->). eapply act_match; [apply select_iff; exact C|]. now apply S.
    + destruct vs as [|[[]| | | | |] [|[[]| | | | |] [|? ?]]]; try (destruct o; discriminate E).
      rewrite (range_envs (eval prog (lock n))) in E. eapply act_for; [constructor|]. eapply sound_each; eassumption.
    + destruct vs as [|[| | |l| |] [|? ?]]; try (destruct o; discriminate E).
      rewrite (enum_envs (eval prog (lock n)) _ (fun iz vv => [(v, vv); (i, VInt Usize iz)])) in E. eapply act_for; [constructor|].
      eapply sound_each; [exact S'|]. exact E.
    + destruct vs as [|[| | |l| |] [|? ?]]; try (destruct o; discriminate E).
      rewrite (in_envs (eval prog (lock n))) in E. eapply act_for; [constructor|]. eapply sound_each; eassumption.
    + apply act_loop. eapply sound_repeats; [exact S'|exact E].
    + val o E. constructor.
    + destruct vs as [|v [|? ?]]; try (destruct o; discriminate E). val o E. constructor.
Qed.

Lemma eval_sound n : sound (eval prog n).
Proof.
  induction n as [|n IH]; intros rho e o E; [destruct o; discriminate E|].
  assert (S : sound (evg n)) by (intros r x y; rewrite evg_eval; apply IH).
  rewrite eval_act in E. apply (sound_evals _ S) in E as [(rho' & vs & A & K)|A].
  - eapply ends_act; [exact A|]. eapply sound_act; [exact S|exact IH|exact K].
  - now apply ends_stop.
Qed.

(** ** What the rules derive, the interpreter computes *)

Scheme ends_rule := Minimality for ends Sort Prop
  with args_rule := Minimality for args Sort Prop
  with acts_rule := Minimality for acts Sort Prop
  with steps_rule := Minimality for steps Sort Prop
  with assigns_rule := Minimality for assigns Sort Prop
  with writes_rule := Minimality for writes Sort Prop
  with calls_rule := Minimality for calls Sort Prop
  with each_rule := Minimality for each Sort Prop
  with repeats_rule := Minimality for repeats Sort Prop.

(** With enough fuel. *)
Definition enough (P : nat -> Prop) : Prop := exists n, forall m, (n <= m)%nat -> P m.

Lemma enough_all (P : nat -> Prop) : (forall m, P m) -> enough P.
Proof. intros H. exists 0%nat. auto. Qed.
Lemma enough_1 (P Q : nat -> Prop) : enough P -> (forall m, P m -> Q m) -> enough Q.
Proof. intros [n H] K. exists n. auto. Qed.
Lemma enough_2 (P P' Q : nat -> Prop) : enough P -> enough P' -> (forall m, P m -> P' m -> Q m) -> enough Q.
Proof. intros [n H] [n' H'] K. exists (n + n')%nat. intros m L. apply K; [apply H|apply H']; lia. Qed.
Lemma enough_3 (P P' P'' Q : nat -> Prop) : enough P -> enough P' -> enough P'' -> (forall m, P m -> P' m -> P'' m -> Q m) -> enough Q.
Proof. intros [n H] [n' H'] [n'' H''] K. exists (n + n' + n'')%nat. intros m L. apply K; [apply H|apply H'|apply H'']; lia. Qed.

Lemma andthen_abrupt o k : abrupt o -> andthen (gives o) k = gives o.
Proof. destruct o as [? []|]; try contradiction; reflexivity. Qed.

Ltac one H := apply (enough_1 _ _ H); clear H; intros m H; rewrite ?evg_eval in *.
Ltac two H H' := apply (enough_2 _ _ _ H H'); clear H H'; intros m H H'.
Ltac three H H' H'' := apply (enough_3 _ _ _ _ H H' H''); clear H H' H''; intros m H H' H''.
Ltac now_ := apply enough_all; intros m.

Lemma act_of_store m rho e vs place new r : stores e vs place new r -> act m rho e vs = store m rho place (Done (new, r)).
Proof.
  destruct 1; try reflexivity.
  - cbn. apply mut_iff in H. now rewrite H.
  - cbn. unfold checked. destruct (_ && _) eqn:E; [reflexivity|lia].
  - cbn. apply bin_iff in H. now rewrite H.
Qed.
Lemma act_of_fails m rho e vs : store_fails e vs -> act m rho e vs = Panics.
Proof.
  destruct 1.
  - cbn. unfold checked. destruct (_ && _) eqn:E; [lia|reflexivity].
  - cbn. apply bin_iff in H. now rewrite H.
Qed.
Lemma act_of_callee m rho e vs f es : callee e vs f es -> act m rho e vs = apply m f rho es vs.
Proof. destruct 1; try reflexivity. destruct v; try reflexivity. now destruct (H name fields). Qed.
Lemma params_takes f ps : takes prog f ps -> params_of prog f = ps.
Proof. unfold takes, params_of. destruct (prog f) as [[]|]; intros; congruence || contradiction. Qed.
Lemma act_of_turns m rho e vs bss body : turns e vs bss body -> act m rho e vs = iter_envs (eval prog (lock m)) body bss rho.
Proof.
  destruct 1; cbn [act head_of].
  - apply (range_envs (eval prog (lock m))).
  - apply (enum_envs (eval prog (lock m)) body (fun iz vv => [(x, vv); (i, VInt Usize iz)])).
  - apply (in_envs (eval prog (lock m))).
Qed.

Lemma eval_complete : forall rho e o, ends prog rho e o -> enough (fun m => eval prog m rho e = gives o).
Proof.
  apply (ends_rule prog
    (fun rho e o => enough (fun m => eval prog m rho e = gives o))
    (fun rho es r => enough (fun m => forall k, evals (evg m) rho es k = match r with Vals rho' vs => k rho' vs | Stop o => gives o end))
    (fun rho e vs o => enough (fun m => act m rho e vs = gives o))
    (fun rho es o => enough (fun m => seq (evg m) rho es = gives o))
    (fun rho place v r => enough (fun m => assign (evg m) rho place v = of_opt r))
    (fun rho ps es vs r => enough (fun m => write_back (evg m) rho ps es vs = of_opt r))
    (fun f vs r => enough (fun m => call_with prog (eval prog (lock m)) f vs = of_opt r))
    (fun rho bss body o => enough (fun m => iter_envs (eval prog (lock m)) body bss rho = gives o))
    (fun rho body o => exists n, forall m j, (n <= m)%nat -> (n <= j)%nat -> iter_loop j (fun rho => eval prog (lock m) rho body) rho = gives o)).
  (* ends *)
  - intros rho e rho' vs o _ A _ B. destruct A as [n A], B as [n' B]. exists (S (n + n')). intros [|m] L; [lia|].
    rewrite eval_act, A by lia. apply B. lia.
  - intros rho e o _ [n A]. exists (S n). intros [|m] L; [lia|]. rewrite eval_act, A by lia. reflexivity.
  (* args *)
  - intros. now_. reflexivity.
  - intros rho e es rho1 v rho2 vs _ A _ B. two A B. intros k. cbn. rewrite evg_eval, A. cbn. now rewrite B.
  - intros rho e es o _ A N. one A. intros k. cbn. rewrite evg_eval, A. now apply andthen_abrupt.
  - intros rho e es rho1 v o _ A _ B. two A B. intros k. cbn. rewrite evg_eval, A. cbn. now rewrite B.
  (* acts *)
  - intros. now_. reflexivity.
  - intros. now_. reflexivity.
  - intros rho x v H. now_. cbn. apply assoc_iff in H. now rewrite H.
  - intros rho e h vs v H M. now_. unfold act. rewrite H. apply head_iff in M. now rewrite M.
  - intros rho e h vs H M. now_. unfold act. rewrite H. apply head_iff in M. now rewrite M.
  - intros. now_. reflexivity.
  - intros rho a b o _ A. one A. cbn. now rewrite evg_eval.
  - intros. now_. reflexivity.
  - intros rho a b o _ A. one A. cbn. now rewrite evg_eval.
  - intros rho e vs f es ps finals v rho' C T _ A _ B. two A B. rewrite (act_of_callee _ _ _ _ _ _ C). unfold apply. rewrite A. cbn. now rewrite (params_takes _ _ T), B.
  - intros rho e vs f es ps finals v C T _ A _ B. two A B. rewrite (act_of_callee _ _ _ _ _ _ C). unfold apply. rewrite A. cbn. now rewrite (params_takes _ _ T), B.
  - intros rho e vs f es C _ A. one A. rewrite (act_of_callee _ _ _ _ _ _ C). unfold apply. now rewrite A.
  - intros rho e vs place new r rho' H _ A. one A. rewrite (act_of_store _ _ _ _ _ _ _ H). unfold store. cbn. now rewrite A.
  - intros rho e vs place new r H _ A. one A. rewrite (act_of_store _ _ _ _ _ _ _ H). unfold store. cbn. now rewrite A.
  - intros rho e vs H. now_. now apply act_of_fails.
  - intros rho p q a b rho1 rho2 _ A _ B. two A B. cbn. rewrite A. cbn. now rewrite B.
  - intros rho p q a b _ A. one A. cbn. now rewrite A.
  - intros rho p q a b rho1 _ A _ B. two A B. cbn. rewrite A. cbn. now rewrite B.
  - intros. now_. reflexivity.
  - intros. now_. reflexivity.
  - intros rho es o _ A. one A. cbn [act head_of]. apply (scoped_iff [] rho (fun rho _ => seq (evg m) rho es) Break). eauto.
  - intros rho c t f o _ A. one A. cbn. now rewrite evg_eval.
  - intros rho c t f o _ A. one A. cbn. now rewrite evg_eval.
  - intros rho e arms v bs e' o C _ A. one A. cbn [act head_of]. apply select_iff in C. rewrite C. cbn [pure_then].
    apply (scoped_iff bs rho (evg m) e'). exists o. now rewrite evg_eval.
  - intros rho e vs bss body o T _ A. one A. now rewrite (act_of_turns _ _ _ _ _ _ T).
  - intros rho body o _ [n A]. exists n. intros m L. cbn. now apply A.
  - intros. now_. reflexivity.
  - intros. now_. reflexivity.
  (* steps *)
  - intros. now_. reflexivity.
  - intros rho e o _ A. one A. cbn. now rewrite evg_eval.
  - intros rho e e' es rho1 v o _ A _ B. two A B.
    change (seq (evg m) rho (e :: e' :: es)) with (andthen (evg m rho e) (fun rho _ => seq (evg m) rho (e' :: es))). now rewrite evg_eval, A.
  - intros rho e e' es o _ A N. one A.
    change (seq (evg m) rho (e :: e' :: es)) with (andthen (evg m rho e) (fun rho _ => seq (evg m) rho (e' :: es))). rewrite evg_eval, A. now apply andthen_abrupt.
  (* assigns *)
  - intros rho x v rho' H. now_. now apply assoc_set_iff.
  - intros rho p f v rho1 old new r _ A F _ B. two A B. cbn. rewrite evg_eval, A. cbn. apply field_iff in F. now rewrite F.
  - intros rho p f v _ A. one A. cbn. now rewrite evg_eval, A.
  - intros rho p i v rho1 l rho2 z r _ A _ B L _ C. three A B C. cbn. rewrite !evg_eval, A. cbn. rewrite B. cbn. unfold checked.
    destruct (Z.ltb_spec z (Z.of_nat (length l))); [exact C|lia].
  - intros rho p i v rho1 l rho2 z _ A _ B L. two A B. cbn. rewrite !evg_eval, A. cbn. rewrite B. cbn. unfold checked.
    destruct (Z.ltb_spec z (Z.of_nat (length l))); [lia|reflexivity].
  - intros rho p i v _ A. one A. cbn. now rewrite evg_eval, A.
  - intros rho p i v rho1 old _ A _ B. two A B. cbn. now rewrite !evg_eval, A, B.
  (* writes *)
  - intros. now_. reflexivity.
  - intros rho x ps e es v vs rho' r _ A _ B. two A B. cbn. rewrite A. exact B.
  - intros rho x ps e es v vs _ A. one A. cbn. now rewrite A.
  - intros rho x ps e es v vs r _ A. one A. exact A.
  (* calls *)
  - intros f ps g vs r P G. now_. unfold call_with. now rewrite P.
  - intros f ps g vs P G. now_. unfold call_with. now rewrite P.
  - intros f g vs rho fl v P L _ A D. one A. unfold call_with. rewrite P, (proj2 (bind_iff _ _ _) (conj L eq_refl)). cbn [obind].
    change (lock m) with m. rewrite A, <- seconds_map. destruct D as [-> | ->]; reflexivity.
  - intros f g vs P L _ A. one A. unfold call_with. rewrite P, (proj2 (bind_iff _ _ _) (conj L eq_refl)). cbn [obind].
    change (lock m) with m. now rewrite A.
  (* each *)
  - intros. now_. reflexivity.
  - intros rho bs bss body o1 rho1 v o _ A L _ B. two A B. cbn [iter_envs].
    replace (scoped bs rho _) with (gives (Ended rho1 (Value v))); [exact B|]. symmetry. apply (scoped_iff bs rho (eval prog (lock m)) body). eauto.
  - intros rho bs bss body o1 rho1 _ A L. one A. cbn [iter_envs].
    replace (scoped bs rho _) with (gives (Ended rho1 Breaking)); [reflexivity|]. symmetry. apply (scoped_iff bs rho (eval prog (lock m)) body). eauto.
  - intros rho bs bss body o1 rho1 v _ A L. one A. cbn [iter_envs].
    replace (scoped bs rho _) with (gives (Ended rho1 (Returning v))); [reflexivity|]. symmetry. apply (scoped_iff bs rho (eval prog (lock m)) body). eauto.
  - intros rho bs bss body _ A. one A. cbn [iter_envs].
    replace (scoped bs rho _) with (gives Panicked); [reflexivity|]. symmetry. apply (scoped_iff bs rho (eval prog (lock m)) body). exists Panicked. now split.
  (* repeats *)
  - intros rho body rho1 v o _ [n A] _ [n' B]. exists (S (n + n')). intros m [|j] L L'; [lia|]. cbn. change (lock m) with m in *. rewrite A by lia. apply B; lia.
  - intros rho body rho1 _ [n A]. exists (S n). intros m [|j] L L'; [lia|]. cbn. change (lock m) with m. now rewrite A by lia.
  - intros rho body rho1 v _ [n A]. exists (S n). intros m [|j] L L'; [lia|]. cbn. change (lock m) with m. now rewrite A by lia.
  - intros rho body _ [n A]. exists (S n). intros m [|j] L L'; [lia|]. cbn. change (lock m) with m. now rewrite A by lia.
Qed.

End Interpreter.
