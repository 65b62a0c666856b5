(** * TypingSound: what type inference finds obeys the rules of [Typing.v]. *)

From Coq Require Import String.
From Verif Require Import Base Rust RustLex RustParse RustElab Typing.
Open Scope string_scope.
Open Scope list_scope.

(** ** Induction on types *)

Lemma ty_ind_all (P : ty -> Prop) :
  (forall i, P (TyInt i)) -> P TyBool -> P TyF64 -> (forall t, P t -> P (TyWrap t)) -> (forall t, P t -> P (TyRef t)) -> (forall t, P t -> P (TyList t)) ->
  (forall x, P (TyStruct x)) -> (forall c ts, Forall P ts -> P (TyCon c ts)) -> (forall x, P (TyAssoc x)) -> (forall t, P t -> P (TyFrom t)) ->
  (forall v, P (TyVar v)) -> P TyNever -> forall t, P t.
Proof.
  intros Hi Hb Hf Hw Hr Hl Hs Hc Ha Hfr Hv Hn. fix IH 1. intros [i| | |t|t|t|x|c ts|x|t|v|].
  - apply Hi.
  - exact Hb.
  - exact Hf.
  - apply Hw, IH.
  - apply Hr, IH.
  - apply Hl, IH.
  - apply Hs.
  - apply Hc. induction ts as [|t ts IHts]; constructor; [apply IH|exact IHts].
  - apply Ha.
  - apply Hfr, IH.
  - apply Hv.
  - exact Hn.
Qed.

(** ** Loops *)

Lemma leaves_breaks : forall e, leaves e = true -> breaks e.
Proof.
  fix IH 1. intros e.
  destruct e as [z t|z|b|x| |p|e|e|e|e f|a b|a b|e t|o a b|es|es|a b|p fs|p ta es|e m es|m es|a b|o a b|e| |p t e|es|c a b|e arms|p e b|b|p e]; cbn [leaves]; intros H; try discriminate H;
  repeat match type of H with (_ || _)%bool = true => apply orb_prop in H; destruct H as [H|H] end;
  try (apply (breaks_part e); [constructor|exact (IH e H)]);
  try (apply (breaks_part a); [constructor|exact (IH a H)]);
  try (apply (breaks_part b); [constructor|exact (IH b H)]);
  try (apply (breaks_part c); [constructor|exact (IH c H)]);
  try (destruct a as [a|]; [apply (breaks_part a); [constructor|exact (IH a H)]|discriminate H]);
  try (destruct b as [b|]; [apply (breaks_part b); [constructor|exact (IH b H)]|discriminate H]);
  try (assert (X : exists x, In x es /\ breaks x) by (induction es as [|a r IHr]; [discriminate H|]; cbn [existsb] in H; destruct (leaves a) eqn:A;
    [exists a; split; [now left|exact (IH a A)]|destruct (IHr H) as (y & I & B); exists y; split; [now right|exact B]]);
    destruct X as (y & I & B); apply (breaks_part y); [constructor; exact I|exact B]).
  2: constructor.
  - assert (X : exists f x, In (f, x) fs /\ breaks x) by (induction fs as [|[f a] r IHr]; [discriminate H|]; cbn [existsb snd] in H; destruct (leaves a) eqn:A;
    [exists f, a; split; [now left|exact (IH a A)]|destruct (IHr H) as (g & y & I & B); exists g, y; split; [now right|exact B]]).
    destruct X as (f & y & I & B). apply (breaks_part y); [econstructor; exact I|exact B].
  - assert (X : exists f x, In (f, x) arms /\ breaks x) by (induction arms as [|[f a] r IHr]; [discriminate H|]; cbn [existsb snd] in H; destruct (leaves a) eqn:A;
    [exists f, a; split; [now left|exact (IH a A)]|destruct (IHr H) as (g & y & I & B); exists g, y; split; [now right|exact B]]).
    destruct X as (f & y & I & B). apply (breaks_part y); [econstructor; exact I|exact B].
Qed.
Lemma breaks_leaves e : breaks e -> leaves e = true.
Proof.
  induction 1 as [|e e' P _ IH]; [reflexivity|].
  assert (L : forall es, In e es -> existsb leaves es = true) by (intros es I; apply existsb_exists; exists e; now split).
  assert (M : forall (A : Type) (f : A) fs, In (f, e) fs -> existsb (fun p => leaves (snd p)) fs = true) by (intros A f fs I; apply existsb_exists; exists (f, e); now split).
  destruct P; cbn [leaves]; rewrite ?IH, ?orb_true_r; try reflexivity; try (now apply L); try (now eapply M); rewrite ?(L es), ?orb_true_r by assumption; try reflexivity.
  - exact (M _ _ _ H).
  - rewrite (M _ _ _ H). apply orb_true_r.
Qed.

Lemma ty_eqb_eq : forall a b, ty_eqb a b = true -> a = b.
Proof.
  induction a as [i| | |t IH|t IH|t IH|x|c ts IH|x|t IH|v|] using ty_ind_all; intros [j| | |u|u|u|y|d us|y|u|w|]; cbn [ty_eqb]; try discriminate; intros H; try reflexivity.
  - destruct i, j; try discriminate; reflexivity.
  - f_equal. now apply IH.
  - f_equal. now apply IH.
  - f_equal. now apply IH.
  - f_equal. now apply String.eqb_eq.
  - apply andb_prop in H as [H1 H2]. apply String.eqb_eq in H1. subst d. f_equal.
    revert us H2. induction IH as [|t ts Ht Hts IHts]; intros [|u us] H2; try discriminate; [reflexivity|].
    apply andb_prop in H2 as [H2 H3]. f_equal; [now apply Ht|now apply IHts].
  - f_equal. now apply String.eqb_eq.
  - f_equal. now apply IH.
  - f_equal. now apply N.eqb_eq.
Qed.

(** ** Putting types in *)

Section Inst.
Variable sg : N -> ty.

Fixpoint inst (t : ty) : ty :=
  match t with
  | TyWrap u => TyWrap (inst u)
  | TyRef u => TyRef (inst u)
  | TyList u => TyList (inst u)
  | TyCon c ts => TyCon c (map inst ts)
  | TyFrom u => TyFrom (inst u)
  | TyVar v => sg v
  | _ => t
  end.
Definition inst_env (env : list (string * ty)) : list (string * ty) := map (fun p => (fst p, inst (snd p))) env.

Lemma fits_inst : forall t, fits t (inst t).
Proof.
  induction t as [i| | |t IH|t IH|t IH|x|c ts IH|x|t IH|v|] using ty_ind_all; cbn [inst]; try constructor; try assumption.
  induction IH; constructor; assumption.
Qed.

Definition sat (s : state) : Prop := forall v t, In (v, t) (solved s) -> sg v = inst t.

Lemma sat_solution s v t : sat s -> solution (solved s) v = Some t -> sg v = inst t.
Proof.
  intros H E. apply H. clear H. induction (solved s) as [|[w u] l IH]; cbn [solution] in E; [discriminate|].
  destruct (N.eqb_spec v w); [subst; injection E as ->; now left|right; now apply IH].
Qed.
End Inst.

Lemma find_in {A} : forall (l : list (string * A)) x a, find l x = Some a -> In (x, a) l.
Proof.
  induction l as [|[y b] l IH]; intros x a; cbn [find]; [discriminate|]. destruct (String.eqb_spec x y); [intros [= ->]; left; congruence|intros H; right; now apply IH].
Qed.
Lemma mem_in l x : mem l x = true -> In x l.
Proof. unfold mem. intros H. apply existsb_exists in H as (y & H & E). apply String.eqb_eq in E. now subst. Qed.

Lemma op_find o op : find ops o = Some op -> operator o op.
Proof. intros H. apply find_in in H. cbn in H. repeat (destruct H as [[= <- <-]|H]; [constructor|]). contradiction. Qed.
Lemma op_shift o op : find ops o = Some op -> if mem ["<<"; ">>"] o then shift op else ~ shift op.
Proof. intros H. apply find_in in H. cbn in H. repeat (destruct H as [[= <- <-]|H]; [cbn; try constructor; try (intros K; now inversion K)|]). contradiction. Qed.
Lemma op_compares o op : find ops o = Some op -> if compares o then comparison op else ~ comparison op.
Proof. intros H. apply find_in in H. cbn in H. repeat (destruct H as [[= <- <-]|H]; [cbn; try constructor; try (intros K; now inversion K)|]). contradiction. Qed.

Section Sound.
Variable cx : context.
Variable sg : N -> ty.
Local Notation I := (inst sg).
Local Notation IE := (inst_env sg).
Local Notation sat := (sat sg).

Lemma shape_sound : forall n s t, sat s -> unfolds cx (I t) (I (shape cx n s t)).
Proof.
  induction n as [|n IH]; intros s t S; [constructor|].
  destruct t as [i| | |t|t|t|x|c ts|x|t|v|]; cbn [shape]; try constructor.
  - destruct (String.eqb_spec x "Self"); [|constructor]. subst x.
    destruct (sfn_impl (cx_fn cx)) as [[[tr t'] d]|] eqn:E; [|constructor].
    assert (F : unfolds cx (I (TyStruct "Self")) (I t')).
    { eapply unfolds_self; [exact E|apply (fits_inst sg)|constructor]. }
    destruct t' as [i| | |t|t|t|y|c ts|y|t|v|]; try exact F.
    destruct (String.eqb_spec y "Self"); [constructor|]. eapply unfolds_self; [exact E|constructor|]. apply (IH s (TyStruct y) S).
  - destruct (find (sfn_assoc (cx_fn cx)) x) as [t'|] eqn:E; [|constructor]. eapply unfolds_assoc; [apply find_in; exact E|apply (fits_inst sg)|]. now apply IH.
  - destruct (solution (solved s) v) as [t'|] eqn:E; [|constructor]. cbn [inst]. rewrite (sat_solution _ _ _ _ S E). now apply IH.
Qed.
Lemma res_sound s t : sat s -> unfolds cx (I t) (I (res cx s t)).
Proof. apply shape_sound. Qed.

Lemma strip_refs_sound : forall n s t, sat s -> views cx (I t) (I (strip_refs cx n s t)).
Proof.
  induction n as [|n IH]; intros s t S; cbn [strip_refs]; [constructor; constructor|].
  pose proof (res_sound s t S) as R. destruct (res cx s t) as [i| | |u|u|u|x|c ts|x|u|v|]; try (now constructor).
  eapply views_ref; [exact R|]. now apply IH.
Qed.
Lemma strip_sound s t : sat s -> views cx (I t) (I (strip cx s t)).
Proof. apply strip_refs_sound. Qed.

Lemma struct_in_gs t : is_struct_in (sfn_gs (cx_fn cx)) t = true -> exists x, t = TyStruct x /\ In x (sfn_gs (cx_fn cx)).
Proof. destruct t; cbn; try discriminate. intros H. apply mem_in in H. eauto. Qed.

Lemma unify_sound : forall n a b s s', unify_at cx n a b s = Fine s' -> sat s' -> sat s /\ agree cx (I a) (I b).
Proof.
  induction n as [|n IH]; intros a b s s' H S; [discriminate|]. cbn [unify_at] in H.
  enough (G : sat s /\ agree cx (I (res cx s a)) (I (res cx s b))).
  { destruct G as [G1 G2]. split; [exact G1|]. eapply agree_left; [apply views_same, (res_sound s a G1)|]. eapply agree_right; [apply views_same, (res_sound s b G1)|exact G2]. }
  set (a' := res cx s a) in *. set (b' := res cx s b) in *. clearbody a' b'. clear a b. rename a' into a, b' into b.
  assert (A : forall ts us s s', (fix all (ts us : list ty) (s : state) : inferred state :=
        match ts, us with
        | t :: ts', u :: us' => try s <- unify_at cx n t u s; all ts' us' s
        | _, _ => Fine s
        end) ts us s = Fine s' -> sat s' -> length ts = length us -> sat s /\ Forall2 (agree cx) (map I ts) (map I us)).
  { induction ts as [|t ts IHt]; intros [|u us] s1 s2 E S2 L; try discriminate; [injection E as ->; split; [exact S2|constructor]|].
    destruct (unify_at cx n t u s1) as [s3|] eqn:E1; [|discriminate]. injection L as L.
    destruct (IHt us s3 s2 E S2 L) as [S3 F]. destruct (IH _ _ _ _ E1 S3) as [S1 G]. split; [exact S1|]. now constructor. }
  assert (B : forall x us s s', (fix bounds (x : ty) (us : list ty) (s : state) : inferred state :=
        match us with
        | [] => Fine s
        | u :: us' => try s <- unify_at cx n x (match u with TyCon _ (u' :: _) => u' | _ => u end) s; bounds x us' s
        end) x us s = Fine s' -> sat s' -> sat s /\ Forall (range_of cx (I x)) (map I us)).
  { intros x. induction us as [|u us IHu]; intros s1 s2 E S2; [injection E as ->; split; [exact S2|constructor]|].
    match type of E with match ?q with _ => _ end = _ => destruct q as [s3|] eqn:E1; [|discriminate] end.
    destruct (IHu s3 s2 E S2) as [S3 F]. destruct (IH _ _ _ _ E1 S3) as [S1 G]. split; [exact S1|]. cbn [map]. constructor; [|exact F].
    destruct u as [i| | |u|u|u|y|c [|u us']|y|u|v|]; try (constructor; exact G). }
  assert (Hd : forall ts, hd TyUnit (map I ts) = I (hd TyUnit ts)) by (intros [|t ts]; reflexivity).
  destruct (ty_eqb a b) eqn:E; [apply ty_eqb_eq in E; subst b; injection H as ->; split; [exact S|constructor]|].
  assert (P : (if (is_struct_in (sfn_gs (cx_fn cx)) a || is_struct_in (sfn_gs (cx_fn cx)) b)%bool then Fine s else Unknown "types differ") = Fine s' -> sat s /\ agree cx (I a) (I b)).
  { clear H. intros H. destruct (is_struct_in (sfn_gs (cx_fn cx)) a) eqn:Ea; cbn [orb] in H.
    - injection H as ->. split; [exact S|]. apply struct_in_gs in Ea as (x & -> & Hx). now constructor.
    - destruct (is_struct_in (sfn_gs (cx_fn cx)) b) eqn:Eb; [|discriminate]. injection H as ->. split; [exact S|]. apply struct_in_gs in Eb as (x & -> & Hx). now constructor. }
  assert (R : unify_at cx n (strip cx s a) (strip cx s b) s = Fine s' -> sat s /\ agree cx (I a) (I b)).
  { intros H1. destruct (IH _ _ _ _ H1 S) as [S1 G]. split; [exact S1|].
    eapply agree_left; [apply (strip_sound s a S1)|]. eapply agree_right; [apply (strip_sound s b S1)|exact G]. }
  assert (V : forall v t, s' = solve v t s -> sat s /\ sg v = I t).
  { intros v t ->. split; [|apply S; now left]. intros w u Hw. apply S. now right. }
  destruct a as [i| | |t|t|t|x|c ts|x|t|v|], b as [j| | |u|u|u|y|d us|y|u|w|];
    first [exact (P H)|exact (R H)
          |(injection H as H; symmetry in H; apply V in H as [H1 H2]; split; [exact H1|]; cbn [inst] in *; rewrite H2; apply agree_same)
          |(injection H as ->; split; [exact S|constructor])
          |(destruct (IH _ _ _ _ H S) as [S1 G]; split; [exact S1|]; cbn [inst]; constructor; exact G)|idtac].
  destruct (String.eqb_spec c "Ranges").
  { subst c. destruct (B _ _ _ _ H S) as [S1 G]. split; [exact S1|]. cbn [inst]. apply agree_range_left. now rewrite Hd. }
  destruct (String.eqb_spec d "Ranges").
  { subst d. destruct (B _ _ _ _ H S) as [S1 G]. split; [exact S1|]. cbn [inst]. apply agree_range_right. now rewrite Hd. }
  destruct (String.eqb_spec c d); cbn [andb] in H; [|exact (P H)]. destruct (Nat.eqb_spec (length ts) (length us)); [|exact (P H)].
  subst d. destruct (A _ _ _ _ H S) as [S1 G]; [assumption|]. split; [exact S1|]. cbn [inst]. now constructor.
Qed.

Lemma sat_same s s' : solved s' = solved s -> sat s' -> sat s.
Proof. unfold TypingSound.sat. now intros ->. Qed.

(** ** Names *)

Lemma instance_sound g : forall n t s t' s', instance n g t s = (t', s') -> solved s' = solved s /\ seen g t (I t').
Proof.
  induction n as [|n IH]; intros t s t' s' H; [injection H as <- <-; split; [reflexivity|apply seen_same, fits_inst]|].
  assert (D : (t, s) = (t', s') -> solved s' = solved s /\ seen g t (I t')) by (intros [= <- <-]; split; [reflexivity|apply seen_same, fits_inst]).
  destruct t as [i| | |t|t|t|x|c ts|x|t|v|]; cbn [instance] in H; try exact (D H).
  - destruct (instance n g t s) as [u s1] eqn:E. injection H as <- <-. destruct (IH _ _ _ _ E) as [E1 E2]. split; [exact E1|now constructor].
  - destruct (instance n g t s) as [u s1] eqn:E. injection H as <- <-. destruct (IH _ _ _ _ E) as [E1 E2]. split; [exact E1|now constructor].
  - destruct (instance n g t s) as [u s1] eqn:E. injection H as <- <-. destruct (IH _ _ _ _ E) as [E1 E2]. split; [exact E1|now constructor].
  - destruct (String.eqb_spec x "Self").
    + subst x. destruct (sfn_impl g) as [[[tr t2] d]|] eqn:E; [|exact (D H)]. injection H as <- <-. split; [reflexivity|]. eapply seen_self; [exact E|apply fits_inst].
    + destruct (mem (sfn_gs g) x) eqn:E; [|exact (D H)]. injection H as <- <-. split; [reflexivity|]. apply seen_param. now apply mem_in.
  - match type of H with (let (_, _) := ?q ts s in _) = _ => destruct (q ts s) as [us s1] eqn:E; assert (A : forall ts s us s1, q ts s = (us, s1) -> solved s1 = solved s /\ Forall2 (seen g) ts (map I us)) end.
    { clear -IH. induction ts as [|t ts IHt]; intros s us s1 E; [injection E as <- <-; split; [reflexivity|constructor]|].
      destruct (instance n g t s) as [u s2] eqn:E1. match type of E with (let (_, _) := ?q in _) = _ => destruct q as [us2 s3] eqn:E2 end.
      injection E as <- <-. destruct (IH _ _ _ _ E1) as [F1 F2]. destruct (IHt _ _ _ E2) as [F3 F4]. split; [congruence|now constructor]. }
    injection H as <- <-. destruct (A _ _ _ _ E) as [E1 E2]. split; [exact E1|]. now constructor.
  - destruct (find (sfn_assoc g) x) as [t2|] eqn:E; [|exact (D H)]. destruct (IH _ _ _ _ H) as [E1 E2]. split; [exact E1|]. eapply seen_assoc; [apply find_in; exact E|exact E2].
Qed.

Lemma instances_sound g : forall ps s ts s', instances cx g ps s = (ts, s') ->
  solved s' = solved s /\ Forall2 (seen g) (map (fun p => snd (fst p)) ps) (map I ts).
Proof.
  induction ps as [|[[p t] m] ps IH]; intros s ts s' H; cbn [instances] in H; [injection H as <- <-; split; [reflexivity|constructor]|].
  destruct (instance _ g t s) as [t1 s1] eqn:E1. destruct (instances cx g ps s1) as [ts1 s2] eqn:E2. injection H as <- <-.
  destruct (instance_sound _ _ _ _ _ _ E1) as [F1 F2]. destruct (IH _ _ _ E2) as [F3 F4]. split; [congruence|]. now constructor.
Qed.

Lemma signature_sound g s ps r s' : signature cx g s = (ps, r, s') ->
  solved s' = solved s /\ Forall2 (seen g) (param_types g) (map I ps) /\ seen g (sfn_ret g) (I r).
Proof.
  unfold signature. destruct (instances cx g (sfn_params g) s) as [ps1 s1] eqn:E1. destruct (instance _ g (sfn_ret g) s1) as [r1 s2] eqn:E2. intros [= <- <- <-].
  destruct (instances_sound _ _ _ _ _ E1) as [F1 F2]. destruct (instance_sound _ _ _ _ _ _ E2) as [F3 F4]. split; [congruence|]. split; assumption.
Qed.

Lemma open_params_sound : forall t s t' s', open_params cx t s = (t', s') -> solved s' = solved s /\ field_type (ci_params (cx_items cx)) t (I t').
Proof.
  induction t as [i| | |t IH|t IH|t IH|x|c ts IH|x|t IH|v|] using ty_ind_all; intros s t' s' H; cbn [open_params] in H;
    try (injection H as <- <-; split; [reflexivity|apply field_same, fits_inst]);
    try (destruct (open_params cx t s) as [u s1] eqn:E; injection H as <- <-; destruct (IH _ _ _ E) as [E1 E2]; split; [exact E1|cbn [inst]; now constructor]).
  destruct (mem _ x) eqn:E; injection H as <- <-; (split; [reflexivity|]); [apply field_param; now apply mem_in|apply field_same, fits_inst].
Qed.

Lemma struct_name_sound p x : struct_name cx p = Fine x -> structure cx p x.
Proof.
  unfold struct_name, self_type. destruct (String.eqb_spec (last p "") "Self") as [E|E].
  - destruct (sfn_impl (cx_fn cx)) as [[[tr t] d]|] eqn:F; [|discriminate]. destruct t; try discriminate. intros [= ->]. now apply structure_self with tr d.
  - intros [= <-]. now constructor.
Qed.

Lemma find_free f g : List.find (fun g => (named f g && match sfn_impl g with None => true | _ => false end)%bool) (ci_fns (cx_items cx)) = Some g ->
  In g (ci_fns (cx_items cx)) /\ free f g.
Proof.
  intros H. apply find_some in H as [H1 H2]. split; [exact H1|]. apply andb_prop in H2 as [H2 H3]. apply String.eqb_eq in H2. split; [congruence|]. destruct (sfn_impl g); [discriminate|reflexivity].
Qed.
Lemma owned_member f o g : (named f g && owned_by o g)%bool = true -> member o f g.
Proof.
  intros H. apply andb_prop in H as [H1 H2]. apply String.eqb_eq in H1. split; [congruence|]. unfold owned_by in H2.
  destruct (sfn_impl g) as [[[tr t] d]|]; [|discriminate]. exists tr, t, d. split; [reflexivity|]. destruct t; try discriminate; apply String.eqb_eq in H2; subst; eauto.
Qed.
Lemma member_owned f o g : member o f g -> (named f g && owned_by o g)%bool = true.
Proof.
  intros (H1 & tr & t & d & H2 & H3). unfold named, owned_by. rewrite H1, H2, String.eqb_refl. destruct H3 as [->|[ts ->]]; cbn; apply String.eqb_refl.
Qed.
Lemma find_member f o g : List.find (fun g => (named f g && owned_by o g)%bool) (ci_fns (cx_items cx)) = Some g -> In g (ci_fns (cx_items cx)) /\ member o f g.
Proof. intros H. apply find_some in H as [H1 H2]. split; [exact H1|now apply owned_member]. Qed.

Lemma method_sig_sound m b s ps u s' : method_sig cx m b s = Fine (ps, u, s') -> solved s' = solved s /\ method_type cx m (map I ps) (I u).
Proof.
  unfold method_sig. set (owners := List.filter _ (ci_fns (cx_items cx))).
  assert (O : forall g, In g owners -> In g (ci_fns (cx_items cx)) /\ method m g).
  { intros g H. apply filter_In in H as [H1 H2]. split; [exact H1|]. apply andb_prop in H2 as [H2 H3]. apply andb_prop in H2 as [H2 H4]. apply String.eqb_eq in H2.
    split; [congruence|]. split; [destruct (sfn_impl g); [discriminate|discriminate H4]|]. unfold takes_self in H3.
    destruct (sfn_params g) as [|[[p t] mu] l]; [discriminate|]. destruct p; try discriminate. apply String.eqb_eq in H3. subst. eauto. }
  match goal with |- context [match ?q with g :: _ => Some g | [] => _ end] => set (mine := q) end.
  match goal with |- context [if ?q then hd_error owners else _] => set (opn := q) end.
  match goal with |- context [hd_error ?q] => lazymatch q with owners => fail | _ => set (general := q) end end.
  assert (C : forall g, match mine with g :: _ => Some g | [] => if opn then hd_error owners else hd_error general end = Some g -> In g owners).
  { intros g. destruct mine as [|g1 l] eqn:E.
    - destruct opn.
      + destruct owners; [discriminate|]. intros [= ->]. now left.
      + assert (G : forall g, In g general -> In g owners) by (intros g1 H; now apply filter_In in H). destruct general; [discriminate|]. intros [= ->]. apply G. now left.
    - intros [= ->]. subst mine. destruct b; try discriminate. assert (G : In g (g :: l)) by now left. rewrite <- E in G. now apply filter_In in G. }
  set (trait := if String.eqb m "hash" then _ else _).
  assert (T : forall ps r, trait = Some (ps, r) -> method_type cx m (map I ps) (I r)).
  { intros ps1 r1. subst trait. destruct (String.eqb_spec m "hash"); [intros [= <- <-]; now apply method_hash|].
    destruct (String.eqb_spec m "push"); [intros [= <- <-]; now apply method_push|discriminate]. }
  assert (T' : forall (q : bool) ps r, (if q then trait else None) = Some (ps, r) -> method_type cx m (map I ps) (I r)) by (intros [|] ps1 r1; [apply T|discriminate]).
  clearbody trait. clear T. rename T' into T.
  match goal with |- match ?q with _ => _ end = _ -> _ => destruct q as [[ps1 r1]|] eqn:E end.
  - intros [= <- <- <-]. split; [reflexivity|exact (T _ _ _ E)].
  - match goal with |- match ?q with _ => _ end = _ -> _ => destruct q as [g|] end.
    + specialize (C g eq_refl). apply O in C as [C1 C2]. destruct (signature cx g s) as [[ps1 r1] s1] eqn:E1. intros [= <- <- <-].
      destruct (signature_sound _ _ _ _ _ E1) as (F1 & F2 & F3). split; [exact F1|]. apply method_crate with g; try assumption.
      destruct ps1 as [|p1 ps1]; cbn [map tl] in *; inversion F2; [constructor|assumption].
    + destruct mine; [|discriminate]. destruct trait as [[ps1 r1]|] eqn:E1; [|discriminate]. intros [= <- <- <-]. split; [reflexivity|]. now apply (T true).
Qed.

Lemma bound_inst : forall env x t, find env x = Some t -> bound (IE env) x (I t).
Proof.
  induction env as [|[y u] env IH]; intros x t; cbn [find]; [discriminate|]. destruct (String.eqb_spec x y).
  - intros [= ->]. subst y. constructor.
  - intros H. constructor; [assumption|now apply IH].
Qed.
Lemma unbound_inst : forall env p, match p with [x] => find env x | _ => None end = None -> unbound (IE env) p.
Proof.
  intros env p H x t -> B. cbn in H. induction env as [|[y u] env IH]; [inversion B|]. cbn [find] in H.
  destruct (String.eqb_spec x y); [discriminate|]. cbn in B. inversion B; subst; [contradiction|]. now apply IH.
Qed.

Lemma iterator_sound : forall e l o, iterator e = (l, o) -> goes_over e (mem l "enumerate") o.
Proof.
  fix IH 1. intros e l o H. destruct e; try (injection H as <- <-; constructor). destruct args; [|injection H as <- <-; constructor].
  cbn [iterator] in H. destruct (mem _ m) eqn:E; [|injection H as <- <-; constructor]. destruct (iterator e) as [l1 o1] eqn:E1. injection H as <- <-.
  pose proof (IH _ _ _ E1) as G. apply mem_in in E as [<-|[<-|[<-|[]]]].
  - now apply over_iter.
  - now apply over_enumerate with (mem l1 "enumerate").
  - now apply over_cloned.
Qed.

Lemma pat_vars_sound : forall ps xs, pat_vars ps = Fine xs -> ps = map PVar xs.
Proof.
  induction ps as [|p ps IH]; intros xs; cbn [pat_vars]; [now intros [= <-]|]. destruct p; try discriminate.
  destruct (pat_vars ps) as [l|]; [|discriminate]. intros [= <-]. cbn. f_equal. now apply IH.
Qed.

(** ** Terms, written when the equations are solved *)

Variable sF : state.
Hypothesis HF : sat sF.
Hypothesis HD : cx_i32 cx = true -> forall v, solution (solved sF) v = None -> sg v = TyInt U32.

Lemma strip_int s i : strip cx s (TyInt i) = TyInt i.
Proof. unfold strip. generalize (cx_chain cx). intros [|n]; [reflexivity|]. cbn [strip_refs]. unfold res. destruct (cx_chain cx); reflexivity. Qed.

Lemma int_type_sound t i : int_type cx sF t = Fine i -> views cx (I t) (TyInt i).
Proof.
  unfold int_type. pose proof (strip_sound sF t HF) as V. destruct (strip cx sF t); try discriminate.
  - intros [= <-]. exact V.
  - destruct (solution (solved sF) n) eqn:E; [discriminate|]. destruct (cx_i32 cx) eqn:D; [|discriminate]. intros [= <-]. cbn [inst] in V. now rewrite (HD eq_refl _ E) in V.
Qed.

Lemma type_name_sound s : sat s -> forall n t x, type_name cx n s t = Fine x -> called cx (I t) x.
Proof.
  intros S. induction n as [|n IH]; intros t x H; [discriminate|]. cbn [type_name] in H. pose proof (res_sound s t S) as R. destruct (res cx s t); try discriminate; cbn [inst] in R.
  - destruct (type_name cx n s t0) as [y|] eqn:E; [|discriminate]. injection H as <-. eapply called_ref; [exact R|now apply IH].
  - injection H as <-. eapply called_list; exact R.
  - injection H as <-. eapply called_struct; exact R.
  - injection H as <-. eapply called_con; exact R.
Qed.

Lemma default_sound t x : default_call cx t sF = Fine x -> exists y, views cx (I t) (TyStruct y) /\ x = Call (y ++ "::default") [].
Proof.
  unfold default_call. pose proof (strip_sound sF t HF) as V. destruct (strip cx sF t); try discriminate. intros [= <-]. eauto.
Qed.
Lemma from_sound a b k x : from_call cx a b k sF = Fine x -> exists c e, k sF = Fine e /\ conversion cx (I a) (I b) c /\ x = Call c [e].
Proof.
  unfold from_call. pose proof (strip_sound sF b HF) as V. destruct (strip cx sF b); try discriminate. destruct (type_name cx _ sF a) as [y|] eqn:E; [|discriminate].
  destruct (k sF) as [e|]; [|discriminate]. intros [= <-]. exists (n ++ "::from<" ++ y ++ ">")%string, e. split; [reflexivity|]. split; [|reflexivity].
  constructor; [exact V|]. now apply type_name_sound in E.
Qed.

Lemma filter_none {A} (f : A -> bool) l : (forall a, In a l -> f a = false) -> filter f l = [].
Proof. induction l as [|a l IH]; intros H; [reflexivity|]. cbn. rewrite (H a) by now left. apply IH. intros b Hb. apply H. now right. Qed.

Lemma only_from_sound x s want s1 t :
  match List.filter (fun g => (named "from" g && owned_by x g)%bool) (ci_fns (cx_items cx)) with
  | [g] => match signature cx g s with ([t], _, s') => (Some t, s') | _ => (None, s) end
  | _ => (None, s)
  end = (want, s1) -> (forall w, want = Some w -> agree cx (I w) (I t)) -> solved s1 = solved s /\ only_from cx x (I t).
Proof.
  intros H W. split.
  - destruct (filter _ _) as [|g [|g2 l]]; [now injection H as _ <-| |now injection H as _ <-].
    destruct (signature cx g s) as [[ps r] s2] eqn:E. destruct (signature_sound _ _ _ _ _ E) as [F _]. destruct ps as [|p [|p2 ps]]; injection H as _ <-; congruence.
  - intros before g after p u m E1 E2 E3 E4. rewrite E1, filter_app in H. cbn [filter] in H. rewrite (member_owned _ _ _ E2) in H.
    assert (N : forall g', In g' (before ++ after) -> (named "from" g' && owned_by x g')%bool = false).
    { intros g' G. destruct (_ && _)%bool eqn:Q; [|reflexivity]. exfalso. exact (E3 g' G (owned_member _ _ _ Q)). }
    rewrite !filter_none in H by (intros g' G; apply N, in_or_app; tauto). cbn [app] in H.
    unfold signature in H. rewrite E4 in H. cbn [instances] in H. destruct (instance _ g u s) as [t1 s2] eqn:E. destruct (instance _ g (sfn_ret g) s2) as [r s3].
    injection H as <- <-. exists (I t1). split; [now apply instance_sound in E|now apply W].
Qed.

Fixpoint wanted (ws ts : list ty) : Prop :=
  match ws, ts with w :: ws', t :: ts' => agree cx (I w) (I t) /\ wanted ws' ts' | _, _ => True end.
Lemma wanted_all : forall ws ts, wanted ws ts -> length ws = length ts -> Forall2 (agree cx) (map I ws) (map I ts).
Proof.
  induction ws as [|w ws IH]; intros [|t ts] H L; try discriminate; [constructor|]. destruct H as [H1 H2]. cbn. constructor; [exact H1|]. apply IH; [exact H2|now injection L].
Qed.
Lemma wanted_each u : forall ts (es : list sx), wanted (map (fun _ => u) es) ts -> length ts = length es -> Forall (agree cx (I u)) (map I ts).
Proof.
  induction ts as [|t ts IH]; intros [|e es] H L; try discriminate; constructor; [apply H|]. apply (IH es); [apply H|now injection L].
Qed.

Definition ex_ok (env : environment) (e : sx) (t : ty) (k : later) : Prop := forall x, k sF = Fine x -> reads cx (IE env) e (I t) x.

Record sound_at (n : nat) : Prop := {
  s_infer : forall env want e s t k s', infer cx n env want e s = Fine (t, k, s') -> sat s' ->
    sat s /\ (forall w, want = Some w -> agree cx (I w) (I t)) /\ ex_ok env e t k;
  s_list : forall env ws es s ts ks s', infer_list cx n env ws es s = Fine (ts, ks, s') -> sat s' ->
    sat s /\ wanted ws ts /\ length ts = length es /\ forall xs, with_all ks sF = Fine xs -> reads_all cx (IE env) es (map I ts) xs;
  s_block : forall env want t0 es s t ks s', infer_block cx n env want t0 es s = Fine (t, ks, s') -> sat s' ->
    sat s /\ forall xs, with_all ks sF = Fine xs -> reads_statements cx (IE env) (I t0) es (I t) xs;
  s_fields : forall env decl fs s l s', infer_fields cx n env decl fs s = Fine (l, s') -> sat s' ->
    sat s /\ forall xs, with_all (map snd l) sF = Fine xs -> reads_fields cx (IE env) decl fs (combine (map fst l) xs);
  s_arms : forall env sc r arms s l s', infer_arms cx n env sc r arms s = Fine (l, s') -> sat s' ->
    sat s /\ forall xs, with_all (map snd l) sF = Fine xs -> reads_arms cx (IE env) (I sc) (I r) arms (combine (map fst l) xs);
  s_call : forall env p tas args s t k s', infer_call cx n env p tas args s = Fine (t, k, s') -> sat s' -> sat s /\ ex_ok env (SCall p tas args) t k;
  s_method : forall env r m args s t k s', infer_method cx n env r m args s = Fine (t, k, s') -> sat s' -> sat s /\ ex_ok env (SMethod r m args) t k;
  s_macro : forall env m args s t k s', infer_macro cx n env m args s = Fine (t, k, s') -> sat s' -> sat s /\ ex_ok env (SMacro m args) t k;
  s_any : forall env want e s t k s', infer_any cx n env want e s = Fine (t, k, s') -> sat s' -> sat s /\ ex_ok env e t k }.

(** Take apart what succeeded. *)
Ltac split_on q :=
  lazymatch q with
  | String.eqb ?a ?b => destruct (String.eqb_spec a b)
  | Nat.eqb ?a ?b => destruct (Nat.eqb_spec a b)
  | andb ?a ?b => let E := fresh "E" in let F := fresh "E" in destruct (andb a b) eqn:E; [apply andb_prop in E as [E F]|]
  | _ => first [is_var q; destruct q | let E := fresh "E" in destruct q eqn:E]
  end.
Ltac opens := repeat match goal with
  | H : Unknown _ = Fine _ |- _ => discriminate H
  | H : Fine _ = Fine _ |- _ => injection H; clear H; intros; subst
  | H : String.eqb _ _ = true |- _ => apply String.eqb_eq in H; subst
  | H : match ?q with _ => _ end = Fine _ |- _ => progress (split_on q; try discriminate)
  end.
Ltac know n IH := repeat match goal with
  | S : TypingSound.sat sg {| solved := solved ?s; unused := _ |} |- _ => change (sat s) in S
  | H : infer cx n ?env ?w ?e ?s = Fine (?t, ?k, ?s'), S : TypingSound.sat sg ?s' |- _ => destruct (s_infer n IH _ _ _ _ _ _ _ H S) as (? & ? & ?); clear H
  | H : infer_list cx n ?env ?w ?e ?s = Fine (?t, ?k, ?s'), S : TypingSound.sat sg ?s' |- _ => destruct (s_list n IH _ _ _ _ _ _ _ H S) as (? & ? & ? & ?); clear H
  | H : infer_block cx n ?env ?w ?t0 ?e ?s = Fine (?t, ?k, ?s'), S : TypingSound.sat sg ?s' |- _ => destruct (s_block n IH _ _ _ _ _ _ _ _ H S) as (? & ?); clear H
  | H : infer_fields cx n ?env ?d ?e ?s = Fine (?t, ?s'), S : TypingSound.sat sg ?s' |- _ => destruct (s_fields n IH _ _ _ _ _ _ H S) as (? & ?); clear H
  | H : infer_arms cx n ?env ?d ?r ?e ?s = Fine (?t, ?s'), S : TypingSound.sat sg ?s' |- _ => destruct (s_arms n IH _ _ _ _ _ _ _ H S) as (? & ?); clear H
  | H : unify cx ?a ?b ?s = Fine ?s', S : TypingSound.sat sg ?s' |- _ => destruct (unify_sound _ _ _ _ _ H S) as (? & ?); clear H
  | H : strip cx ?s ?t = ?u, S : TypingSound.sat sg ?s |- _ => let V := fresh "V" in pose proof (strip_sound s t S) as V; rewrite H in V; cbn [inst map] in V; clear H
  | H : res cx ?s ?t = ?u, S : TypingSound.sat sg ?s |- _ => let V := fresh "V" in pose proof (res_sound s t S) as V; rewrite H in V; cbn [inst map] in V; clear H
  | H : forall w, Some ?u = Some w -> _ |- _ => specialize (H u eq_refl)
  | H : forall w, None = Some w -> _ |- _ => clear H
  end.
Ltac written := match goal with K : _ sF = Fine _ |- _ => cbv beta iota delta [with1 with2 with3 with_list now] in K; opens end.
Ltac close := repeat match goal with
  | H : ex_ok ?env ?e ?t ?k, K : ?k sF = Fine ?x |- _ => specialize (H x K)
  | H : forall xs, Fine ?x = Fine xs -> _ |- _ => specialize (H x eq_refl)
  | H : forall xs, with_all ?ks sF = Fine xs -> _, K : with_all ?ks sF = Fine ?x |- _ => specialize (H x K)
  end.
Ltac go n IH := unfold fresh in *; opens; know n IH; (split; [assumption|]); intros ?x ?K; try written; opens; close; cbn [inst map].

Ltac gom n IH := unfold fresh in *; opens; know n IH; (split; [assumption|]); intros ?R ?x ?K; try written; opens; close; cbn [inst map].
Ltac refold H := fold (infer cx) (infer_any cx) (infer_list cx) (infer_block cx) (infer_fields cx) (infer_arms cx) (infer_call cx) (infer_method cx) (infer_macro cx) in H.

Section Step.
Variable n : nat.
Hypothesis IH : sound_at n.

Lemma step_infer env want e s t k s' : infer cx (S n) env want e s = Fine (t, k, s') -> sat s' ->
  sat s /\ (forall w, want = Some w -> agree cx (I w) (I t)) /\ ex_ok env e t k.
Proof.
  intros H S. cbn [infer] in H. refold H. destruct (infer_any cx n env want e s) as [[[t1 k1] s1]|] eqn:E; [|discriminate]. destruct want as [w|].
  - destruct (unify cx w t1 s1) as [s2|] eqn:U; [|discriminate]. injection H as <- <- <-. destruct (unify_sound _ _ _ _ _ U S) as [S1 A].
    destruct (s_any n IH _ _ _ _ _ _ _ E S1) as [S2 R]. split; [exact S2|]. split; [now intros u [= <-]|exact R].
  - injection H as <- <- <-. destruct (s_any n IH _ _ _ _ _ _ _ E S) as [S2 R]. split; [exact S2|]. split; [discriminate|exact R].
Qed.

Lemma step_list env ws es s ts ks s' : infer_list cx (S n) env ws es s = Fine (ts, ks, s') -> sat s' ->
  sat s /\ wanted ws ts /\ length ts = length es /\ forall xs, with_all ks sF = Fine xs -> reads_all cx (IE env) es (map I ts) xs.
Proof.
  intros H S. cbn [infer_list] in H. refold H. destruct es as [|e es].
  - injection H as <- <- <-. split; [exact S|]. split; [destruct ws; exact Logic.I|]. split; [reflexivity|]. intros xs [= <-]. constructor.
  - destruct (infer cx n env (hd_error ws) e s) as [[[t k] s1]|] eqn:E; [|discriminate]. destruct (infer_list cx n env (tl ws) es s1) as [[[ts1 ks1] s2]|] eqn:F; [|discriminate].
    injection H as <- <- <-. destruct (s_list n IH _ _ _ _ _ _ _ F S) as (S1 & W & L & A). destruct (s_infer n IH _ _ _ _ _ _ _ E S1) as (S0 & W0 & A0).
    split; [exact S0|]. split; [destruct ws as [|w ws]; [exact Logic.I|split; [now apply W0|exact W]]|]. split; [cbn; congruence|].
    intros xs K. cbn [with_all] in K. destruct (k sF) as [x|] eqn:E1; [|discriminate]. destruct (with_all ks1 sF) as [l|] eqn:E2; [|discriminate]. injection K as <-.
    cbn [map]. constructor; [now apply A0|now apply A].
Qed.

Lemma step_fields env decl fs s l s' : infer_fields cx (S n) env decl fs s = Fine (l, s') -> sat s' ->
  sat s /\ forall xs, with_all (map snd l) sF = Fine xs -> reads_fields cx (IE env) decl fs (combine (map fst l) xs).
Proof.
  intros H S. cbn [infer_fields] in H. refold H. destruct fs as [|[f e] fs]; [injection H as <- <-; split; [exact S|]; intros xs K; constructor|].
  destruct (find decl f) as [t|] eqn:E; [|discriminate]. destruct (open_params cx t s) as [t1 s1] eqn:O.
  destruct (infer cx n env (Some t1) e s1) as [[[t2 k] s2]|] eqn:F; [|discriminate]. destruct (infer_fields cx n env decl fs s2) as [[l1 s3]|] eqn:G; [|discriminate].
  injection H as <- <-. know n IH. destruct (open_params_sound _ _ _ _ O) as [O1 O2]. split; [eapply sat_same; eassumption|].
  intros xs K. cbn [map snd fst with_all] in *. destruct (k sF) as [x|] eqn:E1; [|discriminate]. destruct (with_all (map snd l1) sF) as [xs1|] eqn:E2; [|discriminate]. injection K as <-.
  cbn [combine]. econstructor; [apply find_in; exact E|exact O2|apply H3; exact E1|assumption|now apply H0].
Qed.

Lemma step_block env want t0 es s t ks s' : infer_block cx (S n) env want t0 es s = Fine (t, ks, s') -> sat s' ->
  sat s /\ forall xs, with_all ks sF = Fine xs -> reads_statements cx (IE env) (I t0) es (I t) xs.
Proof.
  intros H S. cbn [infer_block] in H. refold H. destruct es as [|e es]; [injection H as <- <- <-; split; [exact S|]; intros xs [= <-]; constructor|].
  assert (D : forall w, (try (t, k, s) <- infer cx n env w e s; try (t, ks, s) <- infer_block cx n env want t es s; Fine (t, k :: ks, s)) = Fine (t, ks, s') ->
     sat s /\ forall xs, with_all ks sF = Fine xs -> reads_statements cx (IE env) (I t0) (e :: es) (I t) xs).
  { clear H. intros w H. opens. know n IH. split; [assumption|]. intros xs K. cbn [with_all] in K. opens. close. eapply statements_expr; eassumption. }
  destruct e; try exact (D _ H). clear D.
  destruct p; opens; know n IH; (split; [assumption|]); intros xs K; cbn [with_all] in K; opens; try written; close.
  - destruct t1 as [u|].
    + eapply statements_let_typed; [apply (fits_inst sg u)|eassumption|now apply H2|exact H0].
    + eapply statements_let; [eassumption|exact H0].
  - eapply statements_let_pair; [|eassumption|eassumption|exact H0]. intros u ->. exists (I u). split; [apply fits_inst|now apply H2].
Qed.

Lemma step_arms env sc r arms s l s' : infer_arms cx (S n) env sc r arms s = Fine (l, s') -> sat s' ->
  sat s /\ forall xs, with_all (map snd l) sF = Fine xs -> reads_arms cx (IE env) (I sc) (I r) arms (combine (map fst l) xs).
Proof.
  intros H S. cbn [infer_arms] in H. refold H. destruct arms as [|[p e] arms]; [injection H as <- <-; split; [exact S|]; intros xs K; constructor|].
  match type of H with match ?q with _ => _ end = _ => destruct q as [[p' env']|] eqn:E; [|discriminate] end.
  destruct (infer cx n env' None e s) as [[[t k] s1]|] eqn:E1; [|discriminate].
  match type of H with match ?q with _ => _ end = _ => destruct q as [s2|] eqn:E2; [|discriminate] end.
  destruct (infer_arms cx n env sc r arms s2) as [[l1 s3]|] eqn:E3; [|discriminate]. injection H as <- <-. know n IH.
  assert (U : sat s1 /\ (unfolds cx (I t) TyNever \/ agree cx (I r) (I t))).
  { destruct (res cx s1 t) eqn:E4; try (destruct (unify_sound _ _ _ _ _ E2 H) as [S1 A]; split; [exact S1|now right]).
    injection E2 as ->. split; [exact H|]. left. pose proof (res_sound _ t H) as R. rewrite E4 in R. exact R. }
  destruct U as [S1 U]. know n IH. split; [assumption|]. intros xs K. cbn [map fst snd with_all] in *. destruct (k sF) as [x1|] eqn:K1; [|discriminate]. destruct (with_all (map snd l1) sF) as [xs1|] eqn:K2; [|discriminate]. injection K as <-. close. cbn [combine]. rename E into Q.
  destruct p as [x|ps|c ps].
  - destruct (String.eqb_spec x "_"); [|discriminate]. injection Q as <- <-. subst x. eapply arms_wild; eassumption.
  - discriminate.
  - destruct (pat_vars ps) as [ys|] eqn:Ep; [|discriminate]. apply pat_vars_sound in Ep. subst ps. destruct ys as [|y ys].
    + assert (F : Fine (PCon c [], env) = Fine (p', env')) by (destruct sc as [i| | |u|u|u|x|c' [|u us]|x|u|v|]; exact Q). injection F as <- <-. eapply arms_constant; eassumption.
    + destruct sc as [i| | |u|u|u|x|c' [|u us]|x|u|v|]; try discriminate. injection Q as <- <-. cbn [inst map] in *.
      eapply (arms_constructor cx (IE env) c' (I u) (map I us) (I r) c (y :: ys)); [discriminate| |eassumption|eassumption].
      match goal with H : reads cx _ e _ _ |- _ => unfold inst_env in H; cbn [map fst snd] in H; rewrite map_app, map_map in H; exact H end.
Qed.

Lemma step_macro env m args s t k s' : infer_macro cx (S n) env m args s = Fine (t, k, s') -> sat s' -> sat s /\ ex_ok env (SMacro m args) t k.
Proof.
  intros H S. cbn [infer_macro] in H. refold H.
  assert (A : forall e, (try (_, k, s) <- infer cx n env (Some TyBool) e s; Fine (TyUnit, with1 (fun e => Prim Passert [e]) k, s)) = Fine (t, k, s') ->
    sat s /\ t = TyUnit /\ forall x, k sF = Fine x -> exists u y, reads cx (IE env) e u y /\ agree cx TyBool u /\ x = Prim Passert [y]).
  { clear H. intros e H. opens. know n IH. split; [assumption|]. split; [reflexivity|]. intros x K. written. close. eauto. }
  assert (P : forall l r, args = SStr l :: r -> sat s /\ ex_ok env (SMacro m args) t k).
  { intros l r ->. clear A. opens; know n IH; (split; [assumption|]); intros x K; written; close; cbn [inst map].
    - eapply reads_panic; eassumption.
    - match goal with E : find env "stdout" = Some _ |- _ => eapply reads_printed; [eassumption|exact (bound_inst _ _ _ E)] end.
    - eapply reads_println; [eassumption|]. now apply unbound_inst. }
  destruct args as [|a args]; [discriminate|].
  assert (Q : (forall l, a <> SStr l) -> match args with
     | [] => if String.eqb m "assert" then (try (_, k, s) <- infer cx n env (Some TyBool) a s; Fine (TyUnit, with1 (fun e => Prim Passert [e]) k, s)) else Unknown "macro"
     | [b] => if String.eqb m "assert_eq" then (try (_, k, s) <- infer cx n env (Some TyBool) (SBin "==" a b) s; Fine (TyUnit, with1 (fun e => Prim Passert [e]) k, s))
              else if String.eqb m "assert_ne" then (try (_, k, s) <- infer cx n env (Some TyBool) (SBin "!=" a b) s; Fine (TyUnit, with1 (fun e => Prim Passert [e]) k, s)) else Unknown "macro"
     | _ => Unknown "macro"
     end = Fine (t, k, s')).
  { intros N. destruct a; try exact H. exfalso. now apply (N s0). }
  clear H. destruct a; try (specialize (Q ltac:(discriminate))); try exact (P _ _ eq_refl); clear P;
    (destruct args as [|b2 [|c2 args]]; [| |discriminate Q];
     [destruct (String.eqb_spec m "assert"); [subst m|discriminate]; destruct (A _ Q) as (S0 & -> & B); split; [exact S0|]; intros x K;
      destruct (B x K) as (u & y & R & G & ->); eapply reads_assert; eassumption
     |destruct (String.eqb_spec m "assert_eq"); [subst m|destruct (String.eqb_spec m "assert_ne"); [subst m|discriminate]];
      destruct (A _ Q) as (S0 & -> & B); (split; [exact S0|]); intros x K; destruct (B x K) as (u & y & R & G & ->);
      [eapply reads_assert_eq; eassumption|eapply reads_assert_ne; eassumption]]).
Qed.

Lemma crate_call env p tas args s (og : option sfn) why c t k s' : (forall g, og = Some g -> resolves cx p c g) ->
  match og with
  | None => Unknown why
  | Some g =>
      match signature cx g s with
      | (ps, r, s) =>
          if Nat.eqb (length ps) (length args) then try (_, ks, s) <- infer_list cx n env ps args s; Fine (r, with_list (Call c) ks, s)
          else Unknown "arguments"
      end
  end = Fine (t, k, s') -> sat s' -> sat s /\ ex_ok env (SCall p tas args) t k.
Proof.
  intros R H S. destruct og as [g|]; [|discriminate]. destruct (signature cx g s) as [[ps r] s1] eqn:E. destruct (signature_sound _ _ _ _ _ E) as (F1 & F2 & F3).
  opens. know n IH. split; [eapply sat_same; eassumption|]. intros x K. written. close.
  eapply reads_call; [now apply R|exact F2|exact F3|eassumption|]. apply wanted_all; [assumption|congruence].
Qed.

Ltac tests := repeat match goal with
  | H : Unknown _ = Fine _ |- _ => discriminate H
  | H : (if ?q then _ else _) = Fine _ |- _ => split_on q
  | H : String.eqb _ _ = true |- _ => apply String.eqb_eq in H; subst
  | H : ?x = _ :> string |- _ => is_var x; subst x
  | H : (try o <- struct_name cx ?p; _) = Fine _ |- _ => let E := fresh "E" in destruct (struct_name cx p) eqn:E; [apply struct_name_sound in E|discriminate]
  end.
Ltac of_crate := match goal with H : match List.find _ _ with _ => _ end = Fine _, S : TypingSound.sat sg _ |- _ =>
  refine (crate_call _ _ _ _ _ _ _ _ _ _ _ _ H S); let g := fresh "g" in let F := fresh "F" in intros g F;
  first [apply find_free in F as [? ?]; first [apply resolves_free; assumption|apply resolves_crate; assumption]
        |apply find_member in F as [? ?]; first [apply resolves_member; assumption|apply resolves_inner; assumption]] end.

Lemma external_call env p tas args s t k s' rest :
  (if mem ["test_data"; "thread_rng"] (last p "") then
     try (_, ks, s) <- infer_list cx n env [] args s;
     Fine (if String.eqb (last p "") "test_data" then bytes_ty else TyStruct "ThreadRng", with_list (Call (last p "")) ks, s)
   else if (mem p "Pcg64" && String.eqb (last p "") "new")%bool then
     try (_, ks, s) <- infer_list cx n env [TyInt U128; TyInt U128] args s; Fine (TyStruct "Pcg64", with_list (Call "Pcg64::new") ks, s)
   else rest) = Fine (t, k, s') -> sat s' -> (sat s /\ ex_ok env (SCall p tas args) t k) \/ rest = Fine (t, k, s').
Proof.
  intros H S. destruct (mem _ (last p "")) eqn:M.
  - left. apply mem_in in M. destruct (infer_list cx n env [] args s) as [[[ts ks] s1]|] eqn:E; [|discriminate]. injection H as <- <- <-. know n IH. split; [assumption|]. intros x K. written. close.
    destruct M as [M|[M|[]]]; rewrite <- M; [eapply reads_test_data|eapply reads_thread_rng]; try eassumption; now symmetry.
  - destruct (mem p "Pcg64") eqn:M2; [|now right]. destruct (String.eqb_spec (last p "") "new"); [|now right]. left. cbn [andb] in H. apply mem_in in M2. opens. know n IH. split; [assumption|]. intros x K. written. close.
    eapply reads_pcg; try eassumption. match goal with H : wanted _ ?l |- _ => destruct l as [|t1 [|t2 l2]]; cbn [wanted] in H; cbn [map firstn] end; repeat constructor; tauto.
Qed.

Lemma step_call env p tas args s t k s' : infer_call cx (S n) env p tas args s = Fine (t, k, s') -> sat s' -> sat s /\ ex_ok env (SCall p tas args) t k.
Proof.
  intros H S. cbn [infer_call] in H. refold H.
  destruct args as [|a [|b args]].
  - apply (external_call env p tas [] s t k s') in H; [|exact S]. destruct H as [H|H]; [exact H|].
    destruct p as [|x [|y [|z [|w p]]]]; cbn [last] in H; tests; try of_crate.
    + go n IH. eapply reads_new_vec.
    + go n IH. apply default_sound in K as (y & V & ->). eapply reads_default. exact V.
    + go n IH. apply default_sound in K as (z & V & ->). eapply reads_derived; [eassumption|now apply mem_in|exact V].
    + injection H as <- <- <-. split; [exact S|]. intros x K. apply default_sound in K as (z & V & ->). eapply reads_assoc_default; [apply (res_sound s (TyAssoc y) S)|exact V].
  - destruct (String.eqb_spec (last p "") "Some"); [go n IH; eapply reads_some; eassumption|].
    destruct (mem ["Included"; "Excluded"] (last p "")) eqn:M.
    { apply mem_in in M. revert M. go n IH. destruct M as [M|[M|[]]]; rewrite <- M; [eapply reads_included|eapply reads_excluded]; try eassumption; now symmetry. }
    destruct (String.eqb_spec (last p "") "Wrapping"); [go n IH; eapply reads_wrapping; eassumption|].
    destruct p as [|x [|y [|z p]]]; cbn [last] in *; try discriminate; [of_crate|].
    destruct (String.eqb x "Box" && String.eqb y "new")%bool eqn:B.
    { apply andb_prop in B as [B1 B2]. tests. go n IH. eapply reads_box. eassumption. }
    destruct (mem ["Vec"; "VecDeque"] x && String.eqb y "with_capacity")%bool eqn:C.
    { apply andb_prop in C as [C1 C2]. apply mem_in in C1. tests. go n IH. eapply reads_capacity; eassumption. }
    destruct (String.eqb_spec x "Into").
    { subst x. destruct tas as [[|u tas]|]; try discriminate. go n IH. apply from_sound in K as (c & e & K & V & ->). eapply reads_into_path; [apply fits_inst|now apply H1|exact V]. }
    destruct (String.eqb_spec y "from"); [|tests; of_crate]. subst y.
    match type of H with (let (_, _) := ?q in _) = _ => destruct q as [want s1] eqn:Q end.
    destruct (infer cx n env want a s1) as [[[t1 k1] s2]|] eqn:E; [|discriminate]. injection H as <- <- <-. know n IH.
    destruct (only_from_sound _ _ _ _ _ Q ltac:(eassumption)) as [Q1 Q2]. split; [eapply sat_same; eassumption|]. intros y K. apply from_sound in K as (c & e & K & V & ->). close.
    eapply reads_from; eassumption.
  - apply (external_call env p tas (a :: b :: args) s t k s') in H; [|exact S]. destruct H as [H|H]; [exact H|].
    assert (F : match p with
       | [x; y] => try o <- struct_name cx [x]; match List.find (fun g => (named y g && owned_by o g)%bool) (ci_fns (cx_items cx)) with
                    | None => Unknown ("call " ++ o ++ "::" ++ y)
                    | Some g => match signature cx g s with
                       | (ps, r, s) => if Nat.eqb (length ps) (length (a :: b :: args)) then try (_, ks, s) <- infer_list cx n env ps (a :: b :: args) s; Fine (r, with_list (Call (o ++ "::" ++ y)) ks, s)
                          else Unknown "arguments" end end
       | _ => Unknown "path" end = Fine (t, k, s') -> sat s /\ ex_ok env (SCall p tas (a :: b :: args)) t k).
    { clear H. intros H. destruct p as [|x [|y [|z p]]]; try discriminate. tests. of_crate. }
    destruct p as [|x [|y p]]; [destruct args; discriminate|destruct args; of_crate|].
    destruct args as [|c args].
    + assert (G : (if String.eqb (last (x :: y :: p) "") "min" then
                     try (t, k, s) <- infer cx n env None a s; try (_, l, s) <- infer cx n env (Some t) b s; Fine (t, with2 (fun e e' => Prim Pmin [e; e']) k l, s)
                   else if String.eqb (last (x :: y :: p) "") "swap" then
                     try (t, k, s) <- infer cx n env None a s; try (_, l, s) <- infer cx n env (Some t) b s; Fine (TyUnit, with2 Swap k l, s)
                   else Unknown "") = Fine (t, k, s') -> sat s /\ ex_ok env (SCall (x :: y :: p) tas [a; b]) t k).
      { clear H F. intros H. destruct (String.eqb_spec (last (x :: y :: p) "") "min") as [E|E]; [go n IH; eapply reads_min; eassumption|].
        destruct (String.eqb_spec (last (x :: y :: p) "") "swap") as [E'|E']; [go n IH; eapply reads_swap; eassumption|discriminate]. }
      destruct p as [|z [|w p]]; (match type of H with (if ?q then _ else _) = _ => destruct q end; [exact (G H)|]); (match type of H with (if ?q then _ else _) = _ => destruct q end; [exact (G H)|]); [exact (F H)|discriminate|discriminate].
    + destruct p as [|z p]; [exact (F H)|destruct p; discriminate].
Qed.

Lemma copies_sound m r args p lo hi src : copies m r args = Some (p, lo, hi, src) ->
  m = "copy_from_slice" /\ r = SIndex p (SRange (Some lo) (Some hi)) /\ args = [src].
Proof.
  unfold copies. destruct r; try discriminate. do 1 match goal with |- match ?o with _ => _ end = _ -> _ => destruct o; try discriminate end.
  repeat match goal with |- match ?o with Some _ => _ | None => _ end = _ -> _ => destruct o; try discriminate end.
  destruct args as [|a [|b args]]; try discriminate. destruct (String.eqb_spec m "copy_from_slice"); [|discriminate]. intros [= <- <- <- <-]. now subst.
Qed.

Lemma crate_method env r m args s b t0 k0 t k s' :
  (try (ps, u, s) <- method_sig cx m b s;
   if Nat.eqb (length ps) (length args) then try (_, ks, s) <- infer_list cx n env ps args s; Fine (u, with_list (Method m) (k0 :: ks), s)
   else Unknown "arguments") = Fine (t, k, s') -> sat s' -> sat s /\ (ex_ok env r t0 k0 -> ex_ok env (SMethod r m args) t k).
Proof.
  intros H S. destruct (method_sig cx m b s) as [[[ps u] s1]|] eqn:E; [|discriminate]. destruct (method_sig_sound _ _ _ _ _ _ E) as (F1 & F2).
  destruct (Nat.eqb_spec (length ps) (length args)); [|discriminate]. destruct (infer_list cx n env ps args s1) as [[[ts ks] s2]|] eqn:L; [|discriminate]. injection H as <- <- <-.
  know n IH. split; [eapply sat_same; eassumption|]. intros R x K. unfold with_list in K. cbn [with_all] in K. opens. close.
  eapply reads_method; [eassumption|exact F2|eassumption|]. apply wanted_all; [assumption|congruence].
Qed.

Lemma step_method env r m args s t k s' : infer_method cx (S n) env r m args s = Fine (t, k, s') -> sat s' -> sat s /\ ex_ok env (SMethod r m args) t k.
Proof.
  intros H S. cbn [infer_method] in H. refold H. destruct (copies m r args) as [[[[p lo] hi] src]|] eqn:C.
  { apply copies_sound in C as (-> & -> & ->). go n IH. eapply reads_copy; eassumption. }
  clear C. destruct (infer cx n env None r s) as [[[t0 k0] s0]|] eqn:E0; [|discriminate].
  assert (G : sat s0 -> sat s /\ ex_ok env r t0 k0) by (intros S0; know n IH; now split). clear E0.
  enough (sat s0 /\ (ex_ok env r t0 k0 -> ex_ok env (SMethod r m args) t k)) as [X1 X2] by (destruct (G X1) as [G1 G2]; split; [exact G1|exact (X2 G2)]). clear G.
  assert (M : (try (ps, u, s) <- method_sig cx m (strip cx s0 t0) s0;
     if Nat.eqb (length ps) (length args) then try (_, ks, s) <- infer_list cx n env ps args s; Fine (u, with_list (Method m) (k0 :: ks), s) else Unknown "arguments") = Fine (t, k, s') ->
     sat s0 /\ (ex_ok env r t0 k0 -> ex_ok env (SMethod r m args) t k)) by (intros Q; eapply crate_method; eassumption).
  assert (V : sat s0 -> views cx (I t0) (I (strip cx s0 t0))) by apply strip_sound.
  destruct args as [|a [|a2 args]]; [| |exact (M H)].
  - destruct (String.eqb_spec m "into").
    { subst m. clear M. gom n IH. apply from_sound in K as (c & e & K & Q & ->). close. eapply reads_into; eassumption. }
    destruct (String.eqb_spec m "clone").
    { subst m. clear M. injection H as <- <- <-. split; [exact S|]. intros R x K. written. close. eapply reads_clone; [eassumption|].
      pose proof (res_sound s0 t0 S) as Q. destruct (res cx s0 t0); try (apply behind_same; exact Q). now apply behind_ref. }
    destruct (String.eqb_spec m "into_boxed_slice"); [subst m; clear M; gom n IH; eapply reads_boxed; eassumption|].
    destruct (String.eqb_spec m "leading_zeros"); [subst m; clear M; gom n IH; eapply reads_leading_zeros; eassumption|].
    destruct (String.eqb_spec m "try_into").
    { subst m. clear M. gom n IH. match goal with E : int_type _ _ _ = _ |- _ => apply int_type_sound in E end. eapply reads_try_into; eassumption. }
    destruct (String.eqb_spec m "unwrap").
    { subst m. clear M. destruct (strip cx s0 t0) as [i| | |u|u|u|x|c [|u us]|x|u|v|]; try discriminate. injection H as <- <- <-. split; [exact S|]. intros R x K. written. close.
      specialize (V S). eapply reads_unwrap; eassumption. }
    destruct (mem ["start_bound"; "end_bound"] m) eqn:B.
    { clear M. apply mem_in in B. match type of H with (let (_, _) := ?q in _) = _ => destruct q as [u s1] eqn:Q end. injection H as <- <- <-.
      assert (S1 : sat s0) by (destruct (strip cx s0 t0) as [i| | |w|w|w|x|c [|w us]|x|w|v|]; injection Q as <- <-; exact S). split; [exact S1|].
      intros R x K. destruct B as [<-|[<-|[]]]; written; close; [eapply reads_start|eapply reads_end]; eassumption. }
    assert (L : match strip cx s0 t0 with TyList _ => False | _ => True end -> sat s0 /\ (ex_ok env r t0 k0 -> ex_ok env (SMethod r m []) t k)).
    { intros L. apply M. destruct (strip cx s0 t0); try exact H. contradiction. }
    destruct (strip cx s0 t0) as [i| | |u|u|u|x|c us|x|u|v|]; try exact (L Logic.I). clear L.
    destruct (String.eqb_spec m "len"); [subst m; clear M; gom n IH; specialize (V S); eapply reads_len; eassumption|].
    destruct (String.eqb_spec m "is_empty"); [subst m; clear M; gom n IH; specialize (V S); eapply reads_is_empty; eassumption|].
    destruct (String.eqb_spec m "pop_front"); [subst m; clear M; gom n IH; specialize (V S); eapply reads_pop_front; eassumption|].
    destruct (String.eqb_spec m "clear"); [subst m; clear M; gom n IH; specialize (V S); eapply reads_clear; eassumption|].
    exact (M H).
  - Ltac arg V n IH rule := clear V; match goal with M : _ -> _ /\ _ |- _ => clear M end; gom n IH; eapply rule; [eassumption|now apply strip_sound|eassumption|eassumption].
    destruct (String.eqb_spec m "saturating_sub"); [subst m; arg V n IH reads_saturating_sub|].
    destruct (String.eqb_spec m "rotate_left"); [subst m; arg V n IH reads_rotate_left|].
    destruct (String.eqb_spec m "wrapping_pow"); [subst m; arg V n IH reads_wrapping_pow|].
    destruct (String.eqb_spec m "split_at"); [subst m; arg V n IH reads_split_at|].
    destruct (String.eqb_spec m "fill_bytes"); [subst m; clear M; gom n IH; eapply reads_fill_bytes; eassumption|].
    assert (L : match strip cx s0 t0 with TyList _ => False | TyCon _ (_ :: _) => False | _ => True end -> sat s0 /\ (ex_ok env r t0 k0 -> ex_ok env (SMethod r m [a]) t k)).
    { intros L. apply M. destruct (strip cx s0 t0) as [i| | |u|u|u|x|c [|u us]|x|u|v|]; try exact H; contradiction. }
    destruct (strip cx s0 t0) as [i| | |u|u|u|x|c [|u us]|x|u|v|]; try exact (L Logic.I); clear L.
    + destruct (mem ["push"; "push_back"] m) eqn:B; [|exact (M H)]. clear M. apply mem_in in B. revert B. gom n IH. eapply reads_push; try eassumption. now apply V.
    + destruct (String.eqb_spec m "unwrap_or"). { subst m. clear M. gom n IH. eapply reads_unwrap_or; try eassumption. now apply V. }
      destruct (String.eqb_spec m "map"); [|exact (M H)]. destruct (String.eqb_spec c "Option"); [|exact (M H)]. cbn [andb] in H. subst m c. clear M.
      destruct a; try discriminate. destruct p as [v|?|? ?]; try discriminate. destruct a; try discriminate. destruct a; try discriminate. destruct p as [|y [|? ?]]; try discriminate.
      gom n IH. eapply reads_map; [exact R|now apply V|exact H1].
Qed.

Lemma for_sound env p it body s t k s' :
  (let (adaptors, over) := iterator it in
   try (t, k, s) <- infer cx n env None over s;
   match strip cx s t with
   | TyList u =>
       match p, mem adaptors "enumerate" with
       | PTuple [PVar i; PVar v], true =>
           try (_, b, s) <- infer cx n ((v, u) :: (i, usize) :: env) None body s; Fine (TyUnit, with2 (ForEnum i v) k b, s)
       | PVar v, false => try (_, b, s) <- infer cx n ((v, u) :: env) None body s; Fine (TyUnit, with2 (ForIn v) k b, s)
       | _, _ => Unknown "for"
       end
   | _ => Unknown "for"
   end) = Fine (t, k, s') -> sat s' -> sat s /\ ex_ok env (SFor p it body) t k.
Proof.
  intros H S. destruct (iterator it) as [l o] eqn:E. apply iterator_sound in E. destruct (mem l "enumerate").
  - destruct p as [x|[|[x| |] [|[y| |] [|]]]|]; go n IH. eapply reads_for_enumerate; eassumption.
  - destruct p as [x|[|[x| |] [|[y| |] [|]]]|]; go n IH. eapply reads_for; eassumption.
Qed.

Lemma bin_sound env o a b s t k s' :
  (try (ta, k, s) <- infer cx n env None a s;
   if (String.eqb o "==" && is_none b)%bool then
     Fine (TyBool, with1 (fun e => Match e [(PCon "None" [], BoolLit true); (PWild, BoolLit false)]) k, s)
   else
     try (tb, l, s) <- infer cx n env None b s;
     match find ops o with
     | None => Unknown "operator"
     | Some op =>
         if mem ["<<"; ">>"] o then
           try s <- match strip cx s tb with
                    | TyVar _ => unify cx tb (match strip cx s ta with TyWrap _ => usize | _ => TyInt U32 end) s
                    | _ => Fine s
                    end;
           Fine (ta, with2 (Bin op) k l, s)
         else
           try s <- unify cx (strip cx s ta) (strip cx s tb) s;
           Fine (if compares o then TyBool else strip cx s ta, with2 (Bin op) k l, s)
     end) = Fine (t, k, s') -> sat s' -> sat s /\ ex_ok env (SBin o a b) t k.
Proof.
  intros H S. destruct (infer cx n env None a s) as [[[ta ka] s1]|] eqn:Ea; [|discriminate]. destruct (String.eqb o "==" && is_none b)%bool eqn:N.
  { apply andb_prop in N as [N1 N2]. apply String.eqb_eq in N1. subst o.
    assert (b = SPath ["None"]) as ->.
    { unfold is_none in N2. destruct b; try discriminate. repeat match type of N2 with match ?q with _ => _ end = _ => destruct q; try discriminate end. apply String.eqb_eq in N2. now subst. }
    go n IH. eapply reads_is_none. eassumption. }
  destruct (infer cx n env None b s1) as [[[tb kb] s2]|] eqn:Eb; [|discriminate]. destruct (find ops o) as [op|] eqn:O; [|discriminate].
  pose proof (op_find _ _ O) as P. pose proof (op_shift _ _ O) as Sh. pose proof (op_compares _ _ O) as Co. destruct (mem ["<<"; ">>"] o).
  - match type of H with match ?q with _ => _ end = _ => destruct q as [s3|] eqn:Q; [|discriminate] end. injection H as <- <- <-.
    assert (S2 : sat s2) by (destruct (strip cx s2 tb); try (injection Q as ->; exact S); destruct (unify_sound _ _ _ _ _ Q S) as [S2 _]; exact S2).
    clear Q. know n IH. split; [assumption|]. intros x K. written. close. eapply reads_shift; eassumption.
  - destruct (unify cx (strip cx s2 ta) (strip cx s2 tb) s2) as [s3|] eqn:Q; [|discriminate]. injection H as <- <- <-.
    destruct (unify_sound _ _ _ _ _ Q S) as [S2 A]. clear Q. know n IH. split; [assumption|]. intros x K. written. close.
    assert (A' : agree cx (I ta) (I tb)) by (eapply agree_left; [apply (strip_sound s2 ta S2)|]; eapply agree_right; [apply (strip_sound s2 tb S2)|exact A]).
    destruct (compares o).
    + cbn [inst]. eapply reads_compare; try eassumption. intros -> ->. discriminate N.
    + eapply reads_arith; try eassumption. now apply strip_sound.
Qed.

Lemma step_any env want e s t k s' : infer_any cx (S n) env want e s = Fine (t, k, s') -> sat s' -> sat s /\ ex_ok env e t k.
Proof.
  intros H S. cbn [infer_any] in H. refold H. destruct e.
  all: try exact (s_call n IH _ _ _ _ _ _ _ _ H S).
  all: try exact (s_method n IH _ _ _ _ _ _ _ _ H S).
  all: try exact (s_macro n IH _ _ _ _ _ _ _ H S).
  all: try exact (bin_sound _ _ _ _ _ _ _ _ H S).
  all: try discriminate H.
  - (* SLit *)
    destruct t0 as [i|]; go n IH; match goal with E : int_type _ _ _ = _ |- _ => rename E into Q end.
    + unfold int_type in Q. rewrite strip_int in Q. injection Q as <-. constructor.
    + apply int_type_sound in Q. eapply reads_literal. eassumption.
  - (* SBool *) go n IH. constructor.
  - (* SUnit *) go n IH. constructor.
  - (* SPath *)
    match type of H with match ?q with _ => _ end = _ => destruct q as [u|] eqn:E end.
    + injection H as <- <- <-. split; [exact S|]. intros x [= <-]. destruct p as [|y [|z p]]; try discriminate. cbn [hd]. constructor. now apply bound_inst.
    + apply unbound_inst in E. destruct (mem ["None"; "Unbounded"] (last p "")) eqn:M.
      * apply mem_in in M. cbn [fresh] in H. injection H as <- <- <-. split; [exact S|]. intros x [= <-]. destruct M as [M|[M|[]]]; rewrite <- M; cbn; [apply reads_none|apply reads_unbounded]; try assumption; now symmetry.
      * destruct (find (ci_consts (cx_items cx)) (last p "")) as [u|] eqn:F; [|discriminate]. injection H as <- <- <-. split; [exact S|]. intros x [= <-].
        eapply reads_const; [exact E|apply find_in; exact F|apply fits_inst].
  - (* SRef *) go n IH. now apply reads_ref.
  - (* SDeref *)
    destruct (infer cx n env None e s) as [[[t1 k1] s1]|] eqn:E; [|discriminate]. injection H as <- <- <-. know n IH. split; [assumption|]. intros x K. close.
    eapply reads_deref; [eassumption|]. pose proof (res_sound s1 t1 S) as Q. destruct (res cx s1 t1); try (apply behind_same; exact Q). now apply behind_ref.
  - (* SNot *) go n IH. eapply reads_not; eassumption.
  - (* SField *)
    go n IH.
    + eapply reads_wrapped; eassumption.
    + match goal with E1 : find (ci_structs _) _ = _, E2 : find _ f = _ |- _ => apply find_in in E1; apply find_in in E2 end. eapply reads_field; try eassumption. apply fits_inst.
    + eapply reads_first; eassumption.
  - (* SIndex *)
    destruct (infer cx n env None e1 s) as [[[t1 k1] s1]|] eqn:E; [|discriminate]. destruct (strip cx s1 t1) as [| | | | |u| | | | | |] eqn:V; try discriminate.
    assert (X : (try (_, l, s) <- infer cx n env (Some usize) e2 s1; Fine (u, with2 Index k1 l, s)) = Fine (t, k, s') -> sat s /\ ex_ok env (SIndex e1 e2) t k).
    { clear H. intros H. go n IH. eapply reads_index; eassumption. }
    destruct e2; try exact (X H). clear X. destruct lo as [lo|], hi as [hi|]; go n IH.
    + eapply reads_slice; eassumption.
    + eapply reads_slice_from; eassumption.
    + eapply reads_slice_to; eassumption.
    + eapply reads_whole; eassumption.
  - (* SRange *) destruct lo as [lo|], hi as [hi|]; go n IH. eapply reads_range; eassumption.
  - (* SCast *) go n IH; eapply reads_cast; eassumption.
  - (* SBin *)
    destruct (String.eqb_spec op "&&"); [subst op; go n IH; eapply reads_and; eassumption|].
    destruct (String.eqb_spec op "||"); [subst op; go n IH; eapply reads_or; eassumption|]. exact (bin_sound _ _ _ _ _ _ _ _ H S).
  - (* STuple *) go n IH. eapply reads_tuple; eassumption.
  - (* SArray *) go n IH. eapply reads_array; [eassumption|]. eapply (wanted_each (TyVar (unused s))); eassumption.
  - (* SRepeat *) go n IH. eapply reads_repeat; eassumption.
  - (* SStruct *)
    destruct (struct_name cx p) as [x|] eqn:N; [|discriminate]. apply struct_name_sound in N. go n IH. match goal with E : find _ x = _ |- _ => apply find_in in E end.
    eapply reads_struct; eassumption.
  - (* SAssign *) go n IH. eapply reads_assign; try eassumption. eapply agree_left; [|eassumption]. now apply strip_sound.
  - (* SOpAssign *) go n IH. eapply reads_op_assign; try eassumption; [apply op_find; assumption|]. eapply agree_left; [|eassumption]. now apply strip_sound.
  - (* SReturn *) go n IH. eapply reads_return; try eassumption. apply fits_inst.
  - (* SBreak *) go n IH. constructor.
  - (* SBlock *) go n IH. now apply reads_block.
  - (* SIf *)
    destruct e3 as [e3|]; [|go n IH; eapply reads_if; eassumption].
    destruct (infer cx n env (Some TyBool) e1 s) as [[[t1 k1] s1]|] eqn:E1; [|discriminate]. destruct (infer cx n env want e2 s1) as [[[t2 k2] s2]|] eqn:E2; [|discriminate].
    destruct (infer cx n env want e3 s2) as [[[t3 k3] s3]|] eqn:E3; [|discriminate]. destruct (unify cx t2 t3 s3) as [s4|] eqn:E4; [|discriminate].
    injection H as <- <- <-. pose proof (res_sound s4 t2 S) as Q. know n IH. split; [assumption|]. intros x K. written. close.
    destruct (res cx s4 t2); try (eapply reads_if_else; eassumption). eapply reads_if_never; eassumption.
  - (* SMatch *)
    destruct (infer cx n env None e s) as [[[t1 k1] s1]|] eqn:E1; [|discriminate].
    match type of H with (let (_, _) := ?q in _) = _ => destruct q as [r s2] eqn:Q end.
    assert (Q1 : solved s2 = solved s1) by (destruct want; injection Q as <- <-; reflexivity).
    destruct (infer_arms cx n env (strip cx s2 t1) r arms s2) as [[l s3]|] eqn:E2; [|discriminate]. injection H as <- <- <-. know n IH.
    match goal with S2 : TypingSound.sat sg s2 |- _ => pose proof (strip_sound s2 t1 S2) as V; pose proof (sat_same _ _ Q1 S2) as S1 end. know n IH. split; [assumption|]. intros x K. clear Q. opens. close. eapply reads_match; eassumption.
  - (* SFor *)
    Ltac iterates s k H S := match goal with |- _ /\ ex_ok ?env (SFor ?p ?i ?b) ?t _ => exact (for_sound env p i b s t k _ H S) end.
    destruct p as [x|ps|c ps]; try iterates s k H S. destruct e1; try iterates s k H S. destruct lo as [lo|], hi as [hi|]; try iterates s k H S.
    go n IH. eapply reads_for_range; eassumption.
  - (* SLoop *)
    destruct (leaves e) eqn:L; go n IH; [eapply reads_loop; [eassumption|now apply leaves_breaks]|].
    eapply reads_forever; [eassumption|]. intros B. apply breaks_leaves in B. congruence.
Qed.
End Step.

Theorem infer_sound : forall n, sound_at n.
Proof.
  induction n as [|n IH]; [constructor; discriminate|].
  constructor; intros *; [apply step_infer|apply step_list|apply step_block|apply step_fields|apply step_arms|apply step_call|apply step_method|apply step_macro|apply step_any]; exact IH.
Qed.

Lemma parameters_sound : forall ps l env pre, parameters cx start_state ps = Fine (l, env, pre) -> reads_params cx ps l (IE env) pre.
Proof.
  assert (S0 : sat start_state) by (intros v t []).
  induction ps as [|[[p t] m] ps IH]; intros l env pre H; cbn [parameters] in H; [injection H as <- <- <-; constructor|].
  destruct (parameters cx start_state ps) as [[[l1 env1] pre1]|]; [|discriminate]. specialize (IH _ _ _ eq_refl).
  pose proof (res_sound start_state t S0) as R. destruct p as [x|[|[x| |] [|[y| |] [|]]]|]; try discriminate.
  - injection H as <- <- <-. eapply params_name; [apply (fits_inst sg)|exact R|exact IH].
  - destruct (res cx start_state t) as [| | | | | | |c [|a [|b [|]]]| | | |]; try discriminate. injection H as <- <- <-.
    eapply (params_pair cx x y t (I t) c (I a) (I b)); [apply (fits_inst sg)|exact R|exact IH].
Qed.

End Sound.

(** ** Functions *)

(** The equations left at the end. *)
Definition final_state (cx : context) : inferred state :=
  try (ps, env, pre) <- parameters cx start_state (sfn_params (cx_fn cx));
  try (_, k, s) <- infer cx depth env (Some (sfn_ret (cx_fn cx))) (sfn_body (cx_fn cx)) start_state;
  Fine s.

Theorem elaborate_sound : forall cx sg s f, elaborate_fn cx = Fine f -> final_state cx = Fine s -> sat sg s ->
  (cx_i32 cx = true -> forall v, solution (solved s) v = None -> sg v = TyInt U32) -> reads_fn cx f.
Proof.
  intros cx sg s f. unfold elaborate_fn, final_state. generalize depth. intros d H E S D.
  destruct (parameters cx start_state (sfn_params (cx_fn cx))) as [[[ps env] pre]|] eqn:P; [|discriminate].
  destruct (infer cx d env _ _ start_state) as [[[t k] s1]|] eqn:F; [|discriminate]. injection E as ->. destruct (k s) as [b|] eqn:K; [|discriminate]. injection H as <-.
  destruct (s_infer _ _ _ _ (infer_sound cx sg s S D d) _ _ _ _ _ _ _ F S) as (_ & W & R).
  eapply reads_fn_intro; [apply (parameters_sound cx sg); exact P|apply (fits_inst sg)|apply R; exact K|now apply W].
Qed.

Theorem name_sound : forall cx x, elaborate_name cx = Fine x -> reads_name cx x.
Proof.
  intros cx x. unfold elaborate_name. destruct (sfn_impl (cx_fn cx)) as [[[tr t] d]|] eqn:E.
  - assert (F : (forall y, t <> TyStruct y) -> sfn_name (cx_fn cx) = x -> reads_name cx x).
    { intros N <-. apply name_free. intros tr' y d' Q. rewrite E in Q. injection Q as _ -> _. now apply (N y). }
    destruct t as [| | | | | |y| | | | |]; try (destruct tr as [[]|]; intros [= Q]; (apply F; [intros ?; discriminate|exact Q])).
    assert (M : (forall u, tr <> Some (TyFrom u)) -> (y ++ "::" ++ sfn_name (cx_fn cx))%string = x -> reads_name cx x) by (intros N <-; eapply name_member; eassumption).
    destruct tr as [[]|]; try (intros [= Q]; (apply M; [intros ?; discriminate|exact Q])).
    destruct (type_name cx _ start_state t) as [z|] eqn:T; [|discriminate]. intros [= <-]. eapply name_from; [exact E|apply (fits_inst (fun v => TyUnit))|].
    eapply type_name_sound; [|exact T]. intros v u [].
  - intros [= <-]. apply name_free. rewrite E. discriminate.
Qed.

(** ** The equations can be solved

    [put n s v] follows the equations of [s] from [v], at most [n] times; what is left open becomes [u32]. *)
Fixpoint put (n : nat) (l : list (N * ty)) (v : N) : ty :=
  match n with
  | O => TyVar v
  | S n' => match solution l v with Some t => inst (put n' l) t | None => TyInt U32 end
  end.
Definition solves (sg : N -> ty) (s : state) : bool := forallb (fun p => ty_eqb (sg (fst p)) (inst sg (snd p))) (solved s).
Definition solvable (cx : context) : bool :=
  match final_state cx with Fine s => solves (put (cx_chain cx) (solved s)) s | Unknown _ => true end.

Lemma solves_sat sg s : solves sg s = true -> sat sg s.
Proof.
  intros H v t I. unfold solves in H. rewrite forallb_forall in H. specialize (H (v, t) I). now apply ty_eqb_eq.
Qed.

Theorem solvable_sound : forall cx f, (0 < cx_chain cx)%nat -> solvable cx = true -> elaborate_fn cx = Fine f -> reads_fn cx f.
Proof.
  intros cx f C H E. unfold solvable in H. destruct (final_state cx) as [s|] eqn:F.
  - eapply elaborate_sound; [exact E|exact F|apply solves_sat; exact H|]. intros _ v N. destruct (cx_chain cx); [inversion C|]. cbn [put]. now rewrite N.
  - exfalso. unfold elaborate_fn, final_state in *. destruct (parameters cx start_state (sfn_params (cx_fn cx))) as [[[ps env] pre]|]; [|discriminate].
    destruct (infer cx depth env _ _ start_state) as [[[t k] s1]|]; discriminate.
Qed.
