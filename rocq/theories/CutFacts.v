(** * CutFacts: what follows from being the cuts of an input. *)

From Verif Require Import Base Api Spec Lists Contract.

(** ** Order *)
Lemma cuts_of_increasing : forall first, first_laws first -> progressive first ->
  forall h d cs, cuts_of first h d cs -> strictly_above (length h) cs /\ Forall (fun p => p <= length h + length d)%nat cs.
Proof.
  intros first L P h d cs H. induction H as [h d N|h d n cs F H IH]; [split; [exact I|constructor]|].
  assert (Hn := fl_len _ L _ _ _ F). assert (Hp := P _ _ _ F). destruct IH as [I1 I2].
  rewrite app_length, firstn_length, skipn_length in *. replace (Nat.min n (length d)) with n in * by lia.
  split; [split; [lia|exact I1]|]. constructor; [lia|]. eapply Forall_impl; [|exact I2]. cbn beta. intros; lia.
Qed.

Lemma strictly_above_app : forall a b lo, strictly_above lo (a ++ b) -> strictly_above lo a.
Proof. induction a as [|p a IH]; intros b lo H; [exact I|]. destruct H as [H1 H2]. split; eauto. Qed.

Lemma strictly_above_lt : forall cs lo p, strictly_above lo cs -> In p cs -> (lo < p)%nat.
Proof.
  induction cs as [|q cs IH]; intros lo p H Hp; [destruct Hp|]. destruct H as [H1 H2].
  destruct Hp as [<-|Hp]; [exact H1|]. apply (IH _ _ H2) in Hp. lia.
Qed.

Lemma strictly_above_app_lt : forall a b lo p q, strictly_above lo (a ++ b) -> In p a -> In q b -> (p < q)%nat.
Proof.
  induction a as [|x a IH]; intros b lo p q H Hp Hq; [destruct Hp|]. destruct H as [H1 H2].
  destruct Hp as [<-|Hp]; [|eapply IH; eauto].
  eapply strictly_above_lt; [exact H2|]. apply in_or_app. now right.
Qed.

(** ** Sizes *)
Lemma cuts_of_sizes : forall (first : first_rel) (P : nat -> Prop), (forall h d n, first h d n -> P n) -> first_laws first ->
  forall h d cs, cuts_of first h d cs -> Forall P (sizes (length h) cs).
Proof.
  intros first P HP L h d cs H. induction H as [h d N|h d n cs F H IH]; cbn [sizes]; constructor.
  - replace (length h + n - length h)%nat with n by lia. eapply HP; eauto.
  - assert (Hn := fl_len _ L _ _ _ F). rewrite app_length, firstn_length, Nat.min_l in IH by lia. exact IH.
Qed.

Lemma cut_path_sizes : forall (first : first_rel) (P : nat -> Prop), (forall h d n, first h d n -> P n) -> first_laws first ->
  forall h d cs h' d', cut_path first h d cs h' d' -> Forall P (sizes (length h) cs).
Proof.
  intros first P HP L h d cs h' d' H. induction H as [h d|h d n cs h' d' F H IH]; cbn [sizes]; constructor.
  - replace (length h + n - length h)%nat with n by lia. eapply HP; eauto.
  - assert (Hn := fl_len _ L _ _ _ F). rewrite app_length, firstn_length, Nat.min_l in IH by lia. exact IH.
Qed.

Lemma cut_path_increasing : forall first, first_laws first -> progressive first ->
  forall h d cs h' d', cut_path first h d cs h' d' ->
  strictly_above (length h) cs /\ Forall (fun p => p <= length h + length d)%nat cs.
Proof.
  intros first L P h d cs h' d' H. induction H as [h d|h d n cs h' d' F H IH]; [split; [exact I|constructor]|].
  assert (Hn := fl_len _ L _ _ _ F). assert (Hp := P _ _ _ F). destruct IH as [I1 I2].
  rewrite app_length, firstn_length, skipn_length in *. replace (Nat.min n (length d)) with n in * by lia.
  split; [split; [lia|exact I1]|]. constructor; [lia|]. eapply Forall_impl; [|exact I2]. cbn beta. intros; lia.
Qed.

Lemma sizes_app : forall a b base, exists x, sizes base (a ++ b) = sizes base a ++ x.
Proof.
  induction a as [|p a IH]; intros b base; [now exists (sizes base b)|]. destruct (IH b p) as [x E].
  exists x. cbn [app sizes]. now rewrite E.
Qed.

(** ** What callers see: order and sizes *)
Section Conform.
  Variable first : first_rel.
  Variable lim : nat -> Prop.
  Hypothesis L : first_laws first.
  Hypothesis P : progressive first.

  Lemma incr_cuts_prefix : forall adj C data sched r, incr_conforms adj C first lim -> lim (length data) ->
    run_incr adj C data sched = Ok r -> exists later, cuts_of first [] data (r_cuts r ++ later).
  Proof.
    intros adj C data sched r H Hl E. destruct (H data Hl) as (cs & Hc & K). destruct (K sched) as ((r' & later & E' & _ & Ecs & _) & _).
    rewrite E in E'. inversion E'; subst r'. exists later. now rewrite <- Ecs.
  Qed.

  Lemma chunk_cuts_prefix : forall shrink C keep data sched r, chunk_conforms shrink C first lim keep -> lim (length data) ->
    run_chunk shrink C data sched = Ok r -> exists later, cuts_of first [] data (r_cuts r ++ later).
  Proof.
    intros shrink C keep data sched r H Hl E. destruct (H data Hl) as (cs & Hc & K).
    destruct (K sched) as ((r' & E' & _ & (later & Ecs) & _) & _).
    rewrite E in E'. inversion E'; subst r'. exists later. now rewrite <- Ecs.
  Qed.

  Lemma prefix_increasing : forall data cs later, cuts_of first [] data (cs ++ later) ->
    strictly_above 0 cs /\ Forall (fun p => p <= length data)%nat cs.
  Proof.
    intros data cs later H. apply (cuts_of_increasing first L P) in H. destruct H as [H1 H2]. split.
    - eapply strictly_above_app; eauto.
    - apply Forall_app in H2. apply H2.
  Qed.

  Lemma prefix_sizes : forall (Q : nat -> Prop) data cs later, (forall h d n, first h d n -> Q n) ->
    cuts_of first [] data (cs ++ later) -> Forall Q (sizes 0 cs).
  Proof.
    intros Q data cs later HQ H. apply (cuts_of_sizes first Q HQ L) in H. cbn [length] in H.
    destruct (sizes_app cs later 0) as [x E]. rewrite E in H. apply Forall_app in H. apply H.
  Qed.

  Lemma incr_increasing : forall adj C, incr_conforms adj C first lim -> forall data sched r, lim (length data) ->
    run_incr adj C data sched = Ok r -> strictly_above 0 (r_cuts r) /\ Forall (fun p => p <= length data)%nat (r_cuts r).
  Proof. intros adj C H data sched r Hl E. destruct (incr_cuts_prefix _ _ _ _ _ H Hl E) as [l Hc]. eapply prefix_increasing; eauto. Qed.

  Lemma chunk_increasing : forall shrink C keep, chunk_conforms shrink C first lim keep -> forall data sched r, lim (length data) ->
    run_chunk shrink C data sched = Ok r -> strictly_above 0 (r_cuts r) /\ Forall (fun p => p <= length data)%nat (r_cuts r).
  Proof. intros shrink C keep H data sched r Hl E. destruct (chunk_cuts_prefix _ _ _ _ _ _ H Hl E) as [l Hc]. eapply prefix_increasing; eauto. Qed.

  Lemma incr_sizes : forall (Q : nat -> Prop) adj C, incr_conforms adj C first lim -> (forall h d n, first h d n -> Q n) ->
    forall data sched r, lim (length data) -> run_incr adj C data sched = Ok r -> Forall Q (sizes 0 (r_cuts r)).
  Proof. intros Q adj C H HQ data sched r Hl E. destruct (incr_cuts_prefix _ _ _ _ _ H Hl E) as [l Hc]. eapply prefix_sizes; eauto. Qed.

  Lemma chunk_sizes : forall (Q : nat -> Prop) shrink C keep, chunk_conforms shrink C first lim keep -> (forall h d n, first h d n -> Q n) ->
    forall data sched r, lim (length data) -> run_chunk shrink C data sched = Ok r -> Forall Q (sizes 0 (r_cuts r)).
  Proof. intros Q shrink C keep H HQ data sched r Hl E. destruct (chunk_cuts_prefix _ _ _ _ _ _ H Hl E) as [l Hc]. eapply prefix_sizes; eauto. Qed.

  (** Two runs to the end, of two chunkers with the same rule, report the same cuts. *)
  Lemma incr_final : forall adj C, incr_conforms adj C first lim -> forall data sched r, lim (length data) ->
    run_incr adj C data (sched ++ drain data) = Ok r -> cuts_of first [] data (r_cuts r).
  Proof.
    intros adj C H data sched r Hl E. destruct (H data Hl) as (cs & Hc & K). destruct (K sched) as (_ & (r' & E' & Ecs & _)).
    rewrite E in E'. inversion E'; subst r'. now rewrite Ecs.
  Qed.

  Lemma chunk_final : forall shrink C keep, chunk_conforms shrink C first lim keep -> forall data sched r, lim (length data) ->
    run_chunk shrink C data (sched ++ drain data) = Ok r -> cuts_of first [] data (r_cuts r).
  Proof.
    intros shrink C keep H data sched r Hl E. destruct (H data Hl) as (cs & Hc & K). destruct (K sched) as (_ & (r' & E' & Ecs & _)).
    rewrite E in E'. inversion E'; subst r'. now rewrite Ecs.
  Qed.
End Conform.

(** ** Local characterisation of a cut *)
Lemma cuts_of_at : forall r h d cs, cuts_of (ends_at r) h d cs -> forall p q,
  p = length h \/ In p cs -> (p < q <= length h + length d)%nat -> no_cut_between p q cs ->
  (In q cs <-> r (firstn p (h ++ d)) (firstn (q - p) (skipn p (h ++ d)))).
Proof.
  intros r h d cs H. induction H as [h d N|h d n cs F H IH]; intros p q Hp Hq HB.
  - destruct Hp as [->|[]]. split; [intros []|]. intros Hr. exfalso.
    rewrite firstn_app_le, firstn_all, skipn_app_ge, Nat.sub_diag in Hr by lia. cbn [skipn] in Hr.
    assert (X : forall m, (m <= length d)%nat -> forall j, (1 <= j <= m)%nat -> ~ r h (firstn j d)).
    { induction m as [|m IHm]; intros Hm j Hj; [lia|]. intros Rj.
      apply (N j). split; [lia|]. split; [exact Rj|]. intros i Hi. apply (IHm ltac:(lia)). lia. }
    apply (X (length d) ltac:(lia) (q - length h)%nat); [lia|exact Hr].
  - assert (L := ends_at_laws r). assert (Hn := fl_len _ L _ _ _ F). assert (Hp1 := ends_at_progressive _ _ _ _ F).
    assert (Eh : length (h ++ firstn n d) = (length h + n)%nat) by (rewrite app_length, firstn_length; lia).
    assert (Ed : (h ++ firstn n d) ++ skipn n d = h ++ d) by (now rewrite <- app_assoc, firstn_skipn).
    destruct (cuts_of_increasing _ L (ends_at_progressive r) _ _ _ H) as [I1 _]. rewrite Eh in I1.
    rewrite Eh, Ed, skipn_length in IH.
    assert (Hc : p = length h \/ (length h < p)%nat).
    { destruct Hp as [->|[<-|Hp]]; [now left| |].
      - right. lia.
      - right. apply (strictly_above_lt _ _ _ I1) in Hp. lia. }
    destruct Hc as [->|Hgt].
    + rewrite firstn_app_le, firstn_all, skipn_app_ge, Nat.sub_diag by lia. cbn [skipn].
      destruct (Nat.lt_trichotomy q (length h + n)) as [C|[C|C]].
      * split.
        -- intros [E|Hin]; [lia|]. apply (strictly_above_lt _ _ _ I1) in Hin. lia.
        -- intros Hr. exfalso. destruct F as (_ & _ & F). apply (F (q - length h)%nat); [lia|exact Hr].
      * split; [|intros _; left; lia]. intros _. replace (q - length h)%nat with n by lia. apply F.
      * exfalso. apply (HB (length h + n)%nat); [now left|lia].
    + assert (Hp' : p = (length h + n)%nat \/ In p cs).
      { destruct Hp as [->|[<-|Hp]]; [lia|now left|now right]. }
      assert (HB' : no_cut_between p q cs) by (intros x Hx; apply HB; now right).
      rewrite <- (IH p q Hp' ltac:(lia) HB').
      assert (Hp2 : (length h + n <= p)%nat).
      { destruct Hp' as [->|Hp']; [lia|]. apply (strictly_above_lt _ _ _ I1) in Hp'. lia. }
      split; [intros [E|Hin]; [lia|exact Hin]|intros Hin; now right].
Qed.

(** The last cut before [q], or the start. *)
Lemma last_cut : forall cs q, (0 < q)%nat -> exists p, (p = 0%nat \/ In p cs) /\ (p < q)%nat /\ no_cut_between p q cs.
Proof.
  induction cs as [|x cs IH]; intros q Hq.
  - exists 0%nat. split; [now left|]. split; [exact Hq|]. intros x [].
  - destruct (IH q Hq) as (p & Hp & Hpq & HB).
    destruct (Nat.lt_ge_cases p x) as [G|G]; [destruct (Nat.lt_ge_cases x q) as [G2|G2]|].
    + exists x. split; [right; now left|]. split; [exact G2|]. intros y [<-|Hy]; [lia|]. specialize (HB y Hy). lia.
    + exists p. split; [destruct Hp; auto; right; now right|]. split; [exact Hpq|].
      intros y [<-|Hy]; [lia|]. now apply HB.
    + exists p. split; [destruct Hp; auto; right; now right|]. split; [exact Hpq|].
      intros y [<-|Hy]; [lia|]. now apply HB.
Qed.

(** ** Forgetting the past at a cut *)
Definition forgets (first : first_rel) : Prop :=
  forall h h' d n, h <> [] -> h' <> [] -> first h d n -> first h' d n.

Lemma forgets_per_chunk : forall r, forgets (ends_at (per_chunk r)).
Proof. intros r h h' d n _ _ F. exact F. Qed.
Lemma forgets_per_chunk_before : forall r, forgets (ends_before (per_chunk r)).
Proof. intros r h h' d n _ _ F. exact F. Qed.

Lemma cuts_of_forget : forall first, first_laws first -> forgets first -> forall h d cs, cuts_of first h d cs -> h <> [] ->
  forall h', h' <> [] -> cuts_of first h' d (map (fun q => length h' + (q - length h))%nat cs).
Proof.
  intros first L Fo h d cs H. induction H as [h d N|h d n cs F H IH]; intros Hh h' Hh'.
  - constructor. intros n Fn. apply (N n). exact (Fo h' h d n Hh' Hh Fn).
  - assert (Hn := fl_len _ L _ _ _ F). cbn [map].
    replace (length h' + (length h + n - length h))%nat with (length h' + n)%nat by lia. constructor; [exact (Fo _ _ _ _ Hh Hh' F)|].
    assert (NE : forall x : list byte, x <> [] -> x ++ firstn n d <> []) by (intros [|? ?] X; [now destruct X|discriminate]).
    assert (Hge := cuts_of_ge _ _ _ _ H).
    specialize (IH (NE _ Hh) (h' ++ firstn n d) (NE _ Hh')).
    rewrite !app_length, firstn_length, Nat.min_l in * by lia.
    erewrite map_ext_in; [exact IH|]. intros q Hq. cbn beta. apply Hge in Hq. lia.
Qed.

(** The cuts after a cut are those of what follows it. *)
Lemma cuts_of_split : forall first, first_laws first -> progressive first -> forall h d cs, cuts_of first h d cs ->
  forall p, In p cs -> exists cs1 cs2, cs = cs1 ++ p :: cs2 /\ (length h < p <= length h + length d)%nat /\
    cuts_of first (firstn p (h ++ d)) (skipn p (h ++ d)) cs2 /\ (forall q, In q (cs1 ++ [p]) -> (q <= p)%nat) /\
    (forall q, In q cs2 -> (p < q)%nat).
Proof.
  intros first L P h d cs H. induction H as [h d N|h d n cs F H IH]; intros p Hp; [destruct Hp|].
  assert (Hn := fl_len _ L _ _ _ F). assert (Hp1 := P _ _ _ F).
  assert (Eh : length (h ++ firstn n d) = (length h + n)%nat) by (rewrite app_length, firstn_length; lia).
  assert (Ed : (h ++ firstn n d) ++ skipn n d = h ++ d) by (now rewrite <- app_assoc, firstn_skipn).
  destruct (cuts_of_increasing _ L P _ _ _ H) as [I1 _]. rewrite Eh in I1.
  destruct Hp as [<-|Hp].
  - exists [], cs. split; [reflexivity|]. split; [lia|]. split.
    + rewrite firstn_app_ge, skipn_app_ge by lia. replace (length h + n - length h)%nat with n by lia. exact H.
    + split; [intros q [<-|[]]; lia|]. intros q Hq. eapply strictly_above_lt; eauto.
  - destruct (IH p Hp) as (cs1 & cs2 & E & Hr & Hc & Hq1 & Hq2). rewrite Eh, Ed, skipn_length in *.
    exists ((length h + n)%nat :: cs1), cs2. rewrite E. split; [reflexivity|]. split; [lia|]. split; [exact Hc|].
    split; [|exact Hq2]. intros q [<-|Hq]; [lia|]. now apply Hq1.
Qed.

Lemma cuts_after_split : forall cs1 p cs2, (forall q, In q (cs1 ++ [p]) -> (q <= p)%nat) -> (forall q, In q cs2 -> (p < q)%nat) ->
  cuts_after p (cs1 ++ p :: cs2) = map (fun q => q - p)%nat cs2.
Proof.
  intros cs1 p cs2 H1 H2. unfold cuts_after. f_equal.
  replace (cs1 ++ p :: cs2) with ((cs1 ++ [p]) ++ cs2) by (rewrite <- app_assoc; reflexivity).
  rewrite filter_app. 
  assert (E1 : filter (fun q => Nat.ltb p q) (cs1 ++ [p]) = []).
  { induction (cs1 ++ [p]) as [|x l IH]; [reflexivity|]. cbn [filter].
    replace (Nat.ltb p x) with false by (symmetry; apply Nat.ltb_ge; apply H1; now left).
    apply IH. intros q Hq. apply H1. now right. }
  assert (E2 : filter (fun q => Nat.ltb p q) cs2 = cs2).
  { clear E1 H1. induction cs2 as [|x l IH]; [reflexivity|]. cbn [filter].
    replace (Nat.ltb p x) with true by (symmetry; apply Nat.ltb_lt; apply H2; now left).
    f_equal. apply IH. intros q Hq. apply H2. now right. }
  now rewrite E1, E2.
Qed.

(** Two streams with a common tail [b] that both have a cut where it starts. *)
Lemma cuts_after_same : forall first, first_laws first -> progressive first -> forgets first ->
  forall a1 a2 b cs1 cs2, cuts_of first [] (a1 ++ b) cs1 -> cuts_of first [] (a2 ++ b) cs2 ->
  In (length a1) cs1 -> In (length a2) cs2 -> cuts_after (length a1) cs1 = cuts_after (length a2) cs2.
Proof.
  intros first L P Fo a1 a2 b cs1 cs2 H1 H2 I1 I2.
  destruct (cuts_of_split _ L P _ _ _ H1 _ I1) as (x1 & y1 & E1 & R1 & C1 & P1 & Q1).
  destruct (cuts_of_split _ L P _ _ _ H2 _ I2) as (x2 & y2 & E2 & R2 & C2 & P2 & Q2).
  cbn [app length] in *.
  rewrite firstn_app_le, firstn_all, skipn_app_ge, Nat.sub_diag in C1, C2 by lia. cbn [skipn] in C1, C2.
  assert (N1 : a1 <> []) by (intros ->; cbn [length] in R1; lia).
  assert (N2 : a2 <> []) by (intros ->; cbn [length] in R2; lia).
  rewrite E1, E2, !cuts_after_split by assumption.
  assert (C1' := cuts_of_forget _ L Fo _ _ _ C1 N1 _ N2).
  rewrite (cuts_of_fun _ L _ _ _ C2 _ C1'). rewrite map_map. apply map_ext_in. intros q Hq. cbn beta.
  apply Q1 in Hq. lia.
Qed.

(** The chunk starting at a cut is that of a fresh stream, for rules that look at the chunk only. *)
Lemma cuts_after_fresh : forall r a b cs, cuts_of (ends_at (per_chunk r)) [] (a ++ b) cs -> In (length a) cs ->
  cuts_of (ends_at (per_chunk r)) [] b (cuts_after (length a) cs).
Proof.
  intros r a b cs H I. assert (L := ends_at_laws (per_chunk r)). assert (P := ends_at_progressive (per_chunk r)).
  destruct (cuts_of_split _ L P _ _ _ H _ I) as (x1 & y1 & E1 & R1 & C1 & P1 & Q1).
  cbn [app length] in *. rewrite firstn_app_le, firstn_all, skipn_app_ge, Nat.sub_diag in C1 by lia. cbn [skipn] in C1.
  rewrite E1, cuts_after_split by assumption. clear - C1 L.
  assert (X : forall h d cs, cuts_of (ends_at (per_chunk r)) h d cs -> forall h', (length h' <= length h)%nat ->
    cuts_of (ends_at (per_chunk r)) h' d (map (fun q => q - (length h - length h'))%nat cs)).
  { intros h d cs H. induction H as [h d N|h d n cs F H IH]; intros h' Hh'; cbn [map]; [now constructor|].
    assert (Hn := fl_len _ L _ _ _ F).
    replace (length h + n - (length h - length h'))%nat with (length h' + n)%nat by lia. constructor; [exact F|].
    specialize (IH (h' ++ firstn n d)). rewrite !app_length in IH. specialize (IH ltac:(lia)).
    rewrite firstn_length, Nat.min_l in IH by lia.
    replace (length h + n - (length h' + n))%nat with (length h - length h')%nat in IH by lia. exact IH. }
  specialize (X _ _ _ C1 [] ltac:(cbn [length]; lia)). cbn [length] in X. rewrite Nat.sub_0_r in X. exact X.
Qed.

(** ** Resynchronisation *)
Lemma skipn_firstn_mid : forall A (l : list A) p q, (p <= q <= length l)%nat ->
  firstn (q - p) (skipn p l) = skipn p (firstn q l).
Proof. intros A l p q H. rewrite skipn_firstn_comm. reflexivity. Qed.

Lemma window_rule_tail : forall w r, window_rule w r -> forall x y z : list byte, (w <= length z)%nat ->
  (r (x ++ z) <-> r (y ++ z)).
Proof. intros w r H x y z Hz. rewrite (H x z Hz), (H y z Hz). reflexivity. Qed.

(** A window of [w] bytes inside the common tail decides. *)
Lemma resync_cut : forall w r, window_rule w r -> forall a1 a2 b cs1 cs2 q,
  cuts_of (ends_at (per_chunk r)) [] (a1 ++ b) cs1 -> cuts_of (ends_at (per_chunk r)) [] (a2 ++ b) cs2 ->
  (1 <= q <= length b)%nat -> (w <= q)%nat ->
  no_cut_between (length a1 + q - w) (length a1 + q) cs1 -> no_cut_between (length a2 + q - w) (length a2 + q) cs2 ->
  In (length a1 + q)%nat cs1 -> In (length a2 + q)%nat cs2.
Proof.
  intros w r Hw a1 a2 b cs1 cs2 q H1 H2 Hq Hwq B1 B2 I1.
  assert (X : forall a cs, cuts_of (ends_at (per_chunk r)) [] (a ++ b) cs -> no_cut_between (length a + q - w) (length a + q) cs ->
            exists x, (In (length a + q)%nat cs <-> r (x ++ firstn w (skipn (q - w) b)))).
  { intros a cs H B. destruct (last_cut cs (length a + q) ltac:(lia)) as (p & Hp & Hpq & HB).
    assert (Hpw : (p <= length a + q - w)%nat).
    { destruct (Nat.le_gt_cases p (length a + q - w)) as [G|G]; [exact G|]. exfalso.
      destruct Hp as [->|Hp]; [lia|]. apply (B p Hp). lia. }
    exists (skipn p (firstn (length a + q - w) (a ++ b))).
    rewrite (cuts_of_at _ _ _ _ H p (length a + q)%nat); [| |rewrite app_length; cbn [length]; lia|exact HB].
    2:{ exact Hp. }
    unfold per_chunk. cbn [app]. rewrite skipn_firstn_mid by (rewrite app_length; lia).
    replace (firstn (length a + q) (a ++ b)) with (firstn (length a + q - w) (a ++ b) ++ firstn w (skipn (q - w) b)).
    - rewrite skipn_app_le by (rewrite firstn_length, app_length; lia). reflexivity.
    - rewrite (skipn_firstn_split _ (length a + q - w) (length a + q)) by lia. f_equal.
      rewrite skipn_app_ge by lia. f_equal; [lia|]. f_equal. lia. }
  destruct (X a1 cs1 H1 B1) as (x1 & E1). destruct (X a2 cs2 H2 B2) as (x2 & E2).
  apply E2. apply E1 in I1. eapply (window_rule_tail w r Hw); [|exact I1].
  rewrite firstn_length, skipn_length. lia.
Qed.

Theorem resync : forall w r, window_rule w r -> forall a1 a2 b cs1 cs2 q,
  cuts_of (ends_at (per_chunk r)) [] (a1 ++ b) cs1 -> cuts_of (ends_at (per_chunk r)) [] (a2 ++ b) cs2 ->
  (1 <= q <= length b)%nat -> (w <= q)%nat ->
  no_cut_between (length a1 + q - w) (length a1 + q) cs1 -> no_cut_between (length a2 + q - w) (length a2 + q) cs2 ->
  In (length a1 + q)%nat cs1 ->
  In (length a2 + q)%nat cs2 /\ cuts_after (length a1 + q) cs1 = cuts_after (length a2 + q) cs2.
Proof.
  intros w r Hw a1 a2 b cs1 cs2 q H1 H2 Hq Hwq B1 B2 I1.
  assert (I2 := resync_cut w r Hw a1 a2 b cs1 cs2 q H1 H2 Hq Hwq B1 B2 I1). split; [exact I2|].
  assert (E : forall a : list byte, length (a ++ firstn q b) = (length a + q)%nat) by (intros a; rewrite app_length, firstn_length; lia).
  rewrite <- (E a1) in *. rewrite <- (E a2) in *.
  apply (cuts_after_same (ends_at (per_chunk r)) (ends_at_laws _) (ends_at_progressive _) (forgets_per_chunk r)
           (a1 ++ firstn q b) (a2 ++ firstn q b) (skipn q b)); try assumption.
  - now rewrite <- app_assoc, firstn_skipn.
  - now rewrite <- app_assoc, firstn_skipn.
Qed.

(** Rules that look at the whole stream resynchronise at once. *)
Lemma stream_cut : forall r d cs, cuts_of (ends_at (per_stream r)) [] d cs -> forall q, (1 <= q <= length d)%nat ->
  (In q cs <-> r (firstn q d)).
Proof.
  intros r d cs H q Hq. destruct (last_cut cs q ltac:(lia)) as (p & Hp & Hpq & HB).
  rewrite (cuts_of_at _ _ _ _ H p q Hp ltac:(cbn [length]; lia) HB). cbn [app]. unfold per_stream.
  rewrite <- (skipn_firstn_split _ p q) by lia. reflexivity.
Qed.

Theorem resync_stream : forall w r, window_rule w r -> forall a1 a2 b cs1 cs2,
  cuts_of (ends_at (per_stream r)) [] (a1 ++ b) cs1 -> cuts_of (ends_at (per_stream r)) [] (a2 ++ b) cs2 ->
  forall q, (1 <= q <= length b)%nat -> (w <= q)%nat -> (In (length a1 + q)%nat cs1 <-> In (length a2 + q)%nat cs2).
Proof.
  intros w r Hw a1 a2 b cs1 cs2 H1 H2 q Hq Hwq.
  rewrite (stream_cut _ _ _ H1), (stream_cut _ _ _ H2) by (rewrite app_length; lia).
  rewrite !firstn_app_ge by lia. replace (length a1 + q - length a1)%nat with q by lia.
  replace (length a2 + q - length a2)%nat with q by lia. apply (window_rule_tail w r Hw). rewrite firstn_length. lia.
Qed.

(** ** The windows of the rules *)
Lemma window_firstn_rev : forall (P : list byte -> Prop) w, window_rule w (fun c => P (firstn w (rev c))).
Proof. intros P w a c Hc. rewrite rev_app_distr, firstn_app_le by (rewrite rev_length; lia). reflexivity. Qed.

Lemma gear_window : forall n, window_rule 32 (gear_rule n).
Proof. intros n. exact (window_firstn_rev (fun l => power_sum 2 (table_at Tables.GEAR_32) 0 l mod 2 ^ 32 < 2 ^ (32 - n)) 32). Qed.

Lemma gzip_window : forall w m, window_rule w (gzip_rule w m).
Proof. intros w m a c Hc. unfold gzip_rule. rewrite lastn_app by exact Hc. reflexivity. Qed.

Lemma bup_window : forall w, window_rule w (bup_rule w).
Proof.
  intros w. exact (window_firstn_rev (fun l => (31 * Z.of_nat w * (Z.of_nat w - 1) + aged_sum 0 l) mod 8192 = 8191) w).
Qed.

Lemma zstd_window : forall bits, window_rule 33 (zstd_rule bits).
Proof.
  intros bits a c Hc. unfold zstd_rule, zstd_hash. rewrite app_length, rev_app_distr, firstn_app_le by (rewrite rev_length; lia).
  intuition lia.
Qed.

Lemma mii_window : forall w, window_rule (Z.to_nat w + 1) (mii_rule w).
Proof.
  intros w a c Hc. unfold mii_rule. split.
  - intros (Hw & pre & tail & E & Ht & Hi). split; [exact Hw|].
    exists (firstn (length c - length tail) c), tail. split; [|auto].
    assert (Hl : (length tail <= length c)%nat) by lia.
    assert (El : length (pre ++ tail) = length (a ++ c)) by now rewrite E. rewrite !app_length in El.
    rewrite <- (firstn_skipn (length c - length tail) c) at 1. f_equal.
    assert (X : skipn (length pre) (a ++ c) = tail) by (rewrite E, skipn_app_ge, Nat.sub_diag by lia; reflexivity).
    rewrite skipn_app_ge in X by lia. rewrite <- X at 2. f_equal. lia.
  - intros (Hw & pre & tail & -> & Ht & Hi). split; [exact Hw|]. exists (a ++ pre), tail. now rewrite app_assoc.
Qed.
