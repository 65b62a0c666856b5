(** * Contract: from what one call does to what every caller sees. *)

From Verif Require Import Base Api Spec Lists.

Definition first_rel := list byte -> list byte -> nat -> Prop.

(** The laws of a "next chunk" relation. *)
Record first_laws (first : first_rel) : Prop := {
  fl_len : forall h d n, first h d n -> (n <= length d)%nat;
  fl_nil : forall h n, ~ first h [] n;
  fl_fun : forall h d n m, first h d n -> first h d m -> n = m;
  fl_ext : forall h d e n, first h d n -> first h (d ++ e) n;
  fl_mono : forall h d e n, first h (d ++ e) n -> (n < length d)%nat -> first h d n;
}.
Definition progressive (first : first_rel) : Prop := forall h d n, first h d n -> (1 <= n)%nat.
(** The decision only needs the bytes of the chunk itself. *)
Definition local_first (first : first_rel) : Prop := forall h d n, first h d n -> first h (firstn n d) n.

Definition down_closed (lim : nat -> Prop) : Prop := forall a b, (a <= b)%nat -> lim b -> lim a.

Lemma any_length_down : down_closed any_length.
Proof. intros a b _ _. exact I. Qed.
Lemma below_down : down_closed below_2_64.
Proof. intros a b H. unfold below_2_64. lia. Qed.

(** ** [ends_at] and [ends_before] satisfy the laws *)

Lemma ends_at_laws : forall r, first_laws (ends_at r).
Proof.
  intros r. constructor.
  - intros h d n [H _]. lia.
  - intros h n [H _]. simpl in H. lia.
  - intros h d n m (Hn & Rn & Mn) (Hm & Rm & Mm).
    destruct (Nat.lt_trichotomy n m) as [L|[L|L]]; [|exact L|].
    + exfalso. exact (Mm n ltac:(lia) Rn).
    + exfalso. exact (Mn m ltac:(lia) Rm).
  - intros h d e n (Hn & Rn & Mn). split; [rewrite app_length; lia|]. split.
    + now rewrite firstn_app_le by lia.
    + intros m Hm. rewrite firstn_app_le by lia. now apply Mn.
  - intros h d e n (Hn & Rn & Mn) Hl. rewrite firstn_app_le in Rn by lia. split; [lia|]. split; [exact Rn|].
    intros m Hm. specialize (Mn m Hm). now rewrite firstn_app_le in Mn by lia.
Qed.

Lemma ends_at_mono : forall r h d e n, ends_at r h (d ++ e) n -> (n <= length d)%nat -> ends_at r h d n.
Proof.
  intros r h d e n (Hn & Rn & Mn) Hl. rewrite firstn_app_le in Rn by lia. split; [lia|]. split; [exact Rn|].
  intros m Hm. specialize (Mn m Hm). now rewrite firstn_app_le in Mn by lia.
Qed.

Lemma ends_at_progressive : forall r, progressive (ends_at r).
Proof. intros r h d n [H _]. lia. Qed.

Lemma ends_at_local : forall r, local_first (ends_at r).
Proof.
  intros r h d n (Hn & Rn & Mn). split; [rewrite firstn_length; lia|]. split.
  - now rewrite firstn_firstn, Nat.min_id.
  - intros m Hm. rewrite firstn_firstn, Nat.min_l by lia. now apply Mn.
Qed.

Lemma ends_before_at : forall r h d n, ends_before r h d n <-> ends_at r h d (S n).
Proof.
  intros r h d n. unfold ends_before, ends_at. split; intros (A & B & C); repeat split; auto; lia.
Qed.

Lemma ends_before_laws : forall r, first_laws (ends_before r).
Proof.
  intros r. destruct (ends_at_laws r) as [L N F X _]. constructor; intros h d; intros; rewrite ?ends_before_at in *.
  - apply L in H. lia.
  - apply N.
  - assert (E := F _ _ _ _ H H0). lia.
  - now apply X.
  - eapply ends_at_mono; eauto.
Qed.

(** ** Uniqueness of cuts *)
Lemma cuts_of_fun : forall first, first_laws first ->
  forall h d cs, cuts_of first h d cs -> forall cs', cuts_of first h d cs' -> cs = cs'.
Proof.
  intros first L h d cs H. induction H as [h d N|h d n cs F H IH]; intros cs' H'; inversion H'; subst.
  - reflexivity.
  - exfalso. eapply N; eauto.
  - exfalso. eapply H0; eauto.
  - assert (n = n0) by (eapply (fl_fun _ L); eauto). subst n0. f_equal. now apply IH.
Qed.

Lemma cut_path_cuts : forall first h d cs h' d', cut_path first h d cs h' d' ->
  forall cs', cuts_of first h' d' cs' -> cuts_of first h d (cs ++ cs').
Proof.
  intros first h d cs h' d' P. induction P as [h d|h d n cs h' d' F P IH]; intros cs' H; [exact H|].
  simpl. econstructor; eauto.
Qed.

Lemma cut_path_app : forall first h d cs h' d', cut_path first h d cs h' d' -> h ++ d = h' ++ d'.
Proof.
  intros first h d cs h' d' P. induction P as [|h d n cs h' d' F P IH]; [reflexivity|].
  rewrite <- IH, <- app_assoc, firstn_skipn. reflexivity.
Qed.

(** Truncating the input after the point the path has reached. *)
Lemma cut_path_trunc : forall first, first_laws first -> local_first first ->
  forall h d cs h' d', cut_path first h d cs h' d' ->
  forall e t, d' = e ++ t -> exists d0, d = d0 ++ t /\ cut_path first h d0 cs h' e.
Proof.
  intros first L T h d cs h' d' P. induction P as [h d|h d n cs h' d' F P IH]; intros e t E.
  - exists e. split; [exact E|constructor].
  - destruct (IH e t E) as (d0 & E0 & P0). exists (firstn n d ++ d0). split.
    + rewrite <- app_assoc, <- E0. symmetry. apply firstn_skipn.
    + assert (Hn := fl_len _ L _ _ _ F).
      assert (En : length (firstn n d) = n) by (rewrite firstn_length; lia).
      constructor.
      * apply (fl_ext _ L). now apply T.
      * rewrite firstn_app_ge by lia. rewrite skipn_app_ge by lia. rewrite En, Nat.sub_diag. simpl.
        now rewrite app_nil_r.
Qed.

(** Cuts of what follows are at or after its start. *)
Lemma cuts_of_ge : forall first h d cs, cuts_of first h d cs -> forall p, In p cs -> (length h <= p)%nat.
Proof.
  intros first h d cs H. induction H as [h d N|h d n cs F H IH]; intros p Hp; [destruct Hp|].
  destruct Hp as [<-|Hp]; [lia|]. apply IH in Hp. rewrite app_length in Hp. lia.
Qed.

Lemma cuts_of_later : forall first, first_laws first -> forall h c t cs p,
  (forall n, ~ first h c n) -> cuts_of first h (c ++ t) cs -> In p cs -> (length h + length c <= p)%nat.
Proof.
  intros first L h c t cs p N H Hp. inversion H as [? ? ? E1 E2 E3|? ? n cs' F HC E1 E2 E3]; subst; [destruct Hp|].
  assert (Hn : (length c <= n)%nat).
  { destruct (Nat.le_gt_cases (length c) n) as [G|G]; [exact G|]. exfalso.
    apply (N n). eapply (fl_mono _ L); eauto. }
  destruct Hp as [<-|Hp]; [lia|].
  apply (cuts_of_ge _ _ _ _ HC) in Hp. rewrite app_length, firstn_length in Hp.
  assert (Hl := fl_len _ L _ _ _ F). lia.
Qed.

(** ** [push] *)
Section Push.
  Context {St : Type}.
  Variable adj : nat.
  Variable push : St -> list byte -> res (St * option nat).
  Variable first : first_rel.
  Variable lim : nat -> Prop.
  Variable R : St -> list byte -> list byte -> Prop.

  (** In state [s] the chunker has seen the bytes [c] of the chunk that started after [h]. *)
  Definition push_ok : Prop :=
    forall s h c d, R s h c -> (forall n, ~ first h c n) -> lim (length (h ++ c ++ d)) ->
    (exists n k s', first h (c ++ d) n /\ n = (length c + k + adj)%nat /\ push s d = Ok (s', Some k) /\
       R s' (h ++ firstn n (c ++ d)) []) \/
    (exists s', (forall n, ~ first h (c ++ d) n) /\ push s d = Ok (s', None) /\ R s' h (c ++ d)).

  Hypothesis L : first_laws first.
  Hypothesis D : down_closed lim.
  Hypothesis K : push_ok.

  Lemma drive_push_ok : forall data, lim (length data) -> forall sched s h c base seen none,
    R s h c -> (forall n, ~ first h c n) -> firstn base data = h ++ c -> base = length (h ++ c) ->
    exists r h' c', drive_push adj push data sched s base seen none = Ok r /\
      cut_path first h (skipn (length h) data) (r_cuts r) h' (skipn (length h') data) /\
      firstn (r_base r) data = h' ++ c' /\ r_base r = length (h' ++ c') /\
      (forall n, ~ first h' c' n) /\ R (r_state r) h' c' /\
      (sched = [] -> r_none r = none) .
  Proof.
    intros data Hlim sched. induction sched as [|g sched IH]; intros s h c base seen none HR HN HE HB.
    - simpl. eexists _, h, c. split; [reflexivity|]. simpl. repeat split; auto. constructor.
    - cbn [drive_push]. set (d := firstn g (skipn base data)).
      assert (Hcd : skipn (length h) data = (c ++ d) ++ skipn (base + length d) data).
      { assert (X : data = (h ++ c) ++ skipn base data) by (rewrite <- HE; symmetry; apply firstn_skipn).
        rewrite X at 1. rewrite <- app_assoc, skipn_app_ge, Nat.sub_diag by lia. simpl.
        rewrite <- app_assoc. f_equal. rewrite <- (firstn_skipn g (skipn base data)) at 1. f_equal.
        unfold d. rewrite firstn_length, !skipn_skipn'.
        destruct (Nat.le_gt_cases g (length (skipn base data))) as [G|G].
        - now rewrite Nat.min_l by lia.
        - rewrite Nat.min_r by lia. rewrite skipn_length in *. now rewrite !skipn_all2 by lia. }
      assert (Hpre : exists t, data = h ++ (c ++ d) ++ t).
      { exists (skipn (base + length d) data). rewrite <- Hcd.
        assert (X : firstn (length h) data = h).
        { apply (f_equal (firstn (length h))) in HE. rewrite firstn_firstn in HE.
          rewrite app_length in HB. rewrite Nat.min_l in HE by lia.
          rewrite firstn_app_le, firstn_all in HE by lia. exact HE. }
        rewrite <- X at 1. symmetry. apply firstn_skipn. }
      destruct Hpre as [t Ht].
      assert (Hl : lim (length (h ++ c ++ d))).
      { eapply D; [|exact Hlim]. rewrite Ht, !app_length. lia. }
      destruct (K s h c d HR HN Hl) as [(n & k & s' & Fn & En & Ep & HR')|(s' & Nn & Ep & HR')];
        rewrite Ep; cbn [bind].
      + assert (Hn := fl_len _ L _ _ _ Fn). rewrite app_length in Hn.
        replace (Nat.ltb (length d) (k + adj)) with false by (symmetry; apply Nat.ltb_ge; lia).
        assert (Fn' : first h (skipn (length h) data) n) by (rewrite Hcd; now apply (fl_ext _ L)).
        assert (Hbase : (base + k + adj)%nat = length (h ++ firstn n (c ++ d))).
        { rewrite HB, !app_length, firstn_length, app_length. lia. }
        edestruct (IH s' (h ++ firstn n (c ++ d)) [] (base + k + adj)%nat (base + length d)%nat false)
          as (r & h' & c' & Er & P & X1 & X2 & X3 & X4 & _); eauto using fl_nil.
        { rewrite app_nil_r. rewrite Hbase. rewrite Ht at 1.
          rewrite <- (firstn_skipn n (c ++ d)) at 2. rewrite <- app_assoc, app_assoc.
          rewrite firstn_app_le by lia. apply firstn_all2. lia. }
        { now rewrite app_nil_r. }
        rewrite Er. cbn [bind]. exists (add_cut (base + k + adj) r), h', c'. unfold add_cut; simpl.
        split; [reflexivity|]. split; [|repeat split; auto; discriminate].
        assert (Hp : (base + k + adj)%nat = (length h + n)%nat) by (rewrite HB, app_length; lia).
        rewrite Hp in *.
        econstructor; [exact Fn'|].
        replace (firstn n (skipn (length h) data)) with (firstn n (c ++ d)).
        2:{ rewrite Hcd. symmetry. apply firstn_app_le. rewrite app_length. lia. }
        rewrite skipn_skipn', Hbase. exact P.
      + edestruct (IH s' h (c ++ d) (base + length d)%nat (base + length d)%nat true)
          as (r & h' & c' & Er & P & X1 & X2 & X3 & X4 & X5); eauto.
        { assert (Hb : (base + length d)%nat = length (h ++ c ++ d)) by (rewrite HB, !app_length; lia).
          rewrite Hb. rewrite Ht at 1. rewrite (app_assoc h (c ++ d) t), firstn_app_le by lia. apply firstn_all2. lia. }
        { rewrite HB, !app_length. lia. }
        exists r, h', c'. rewrite Er. repeat split; auto. discriminate.
  Qed.

  (** A run of "no cut" answers at the end: once everything is consumed. *)
  Lemma drive_push_app : forall data sched1 sched2 s base seen none,
    drive_push adj push data (sched1 ++ sched2) s base seen none =
    (r1 <- drive_push adj push data sched1 s base seen none ;;
     r2 <- drive_push adj push data sched2 (r_state r1) (r_base r1) (r_seen r1) (r_none r1) ;;
     Ok {| r_cuts := r_cuts r1 ++ r_cuts r2; r_state := r_state r2; r_base := r_base r2; r_seen := r_seen r2;
           r_none := r_none r2 |}).
  Proof.
    intros data sched1. induction sched1 as [|g sched1 IH]; intros sched2 s base seen none.
    - cbn [app drive_push bind r_state r_base r_seen r_none r_cuts].
      destruct (drive_push _ _ _ sched2 _ _ _ _) as [[]| |]; reflexivity.
    - cbn [app drive_push]. destruct (push s _) as [[s' [k|]]| |]; cbn [bind]; try reflexivity.
      + destruct (Nat.ltb _ _); [reflexivity|]. rewrite IH.
        destruct (drive_push _ _ _ sched1 _ _ _ _) as [r1| |]; cbn [bind]; try reflexivity.
        cbn [add_cut r_cuts r_state r_base r_seen r_none].
        destruct (drive_push _ _ _ sched2 _ _ _ _) as [r2| |]; reflexivity.
      + now rewrite IH.
  Qed.

  Hypothesis Pr : progressive first.

  Lemma drive_push_drain : forall data, lim (length data) -> forall n s h c base seen none,
    R s h c -> (forall m, ~ first h c m) -> firstn base data = h ++ c -> base = length (h ++ c) ->
    (length data - length h < n)%nat ->
    exists r, drive_push adj push data (repeat (length data) n) s base seen none = Ok r /\
      r_base r = length data /\ cuts_of first h (skipn (length h) data) (r_cuts r).
  Proof.
    intros data Hlim n. induction n as [|n IH]; intros s h c base seen none HR HN HE HB Hm; [lia|].
    cbn [repeat drive_push].
    assert (X : data = (h ++ c) ++ skipn base data) by (rewrite <- HE; symmetry; apply firstn_skipn).
    set (d := firstn (length data) (skipn base data)).
    assert (Ed : d = skipn base data) by (apply firstn_all2; rewrite skipn_length; lia).
    assert (Hcd : skipn (length h) data = c ++ d).
    { rewrite X at 1. rewrite <- app_assoc, skipn_app_ge, Nat.sub_diag by lia. simpl. now rewrite Ed. }
    assert (Hdata : data = h ++ c ++ d) by (rewrite Ed, app_assoc; exact X).
    assert (Hl : lim (length (h ++ c ++ d))) by (now rewrite <- Hdata).
    destruct (K s h c d HR HN Hl) as [(m & k & s' & Fn & En & Ep & HR')|(s' & Nn & Ep & HR')];
      rewrite Ep; cbn [bind].
    - assert (Hm' := fl_len _ L _ _ _ Fn). rewrite app_length in Hm'. assert (Hp := Pr _ _ _ Fn).
      replace (Nat.ltb (length d) (k + adj)) with false by (symmetry; apply Nat.ltb_ge; lia).
      assert (Hbase : (base + k + adj)%nat = length (h ++ firstn m (c ++ d))).
      { rewrite HB, !app_length, firstn_length, app_length. lia. }
      assert (Hh : length (h ++ firstn m (c ++ d)) = (length h + m)%nat).
      { rewrite <- Hbase, HB, app_length. lia. }
      edestruct (IH s' (h ++ firstn m (c ++ d)) [] (base + k + adj)%nat (base + length d)%nat false)
        as (r & Er & X1 & X2); eauto using fl_nil.
      { rewrite app_nil_r, Hbase. rewrite Hdata at 1. rewrite <- (firstn_skipn m (c ++ d)) at 2.
        rewrite app_assoc. rewrite firstn_app_le by lia. apply firstn_all2. lia. }
      { now rewrite app_nil_r. }
      { rewrite Hh. rewrite Hdata, !app_length. rewrite Hdata, !app_length in Hm. lia. }
      rewrite Er. cbn [bind]. exists (add_cut (base + k + adj) r). unfold add_cut; simpl. split; [reflexivity|].
      split; [exact X1|].
      replace (base + k + adj)%nat with (length h + m)%nat by lia.
      rewrite Hcd. econstructor; [exact Fn|].
      rewrite Hh in X2. rewrite <- skipn_skipn', Hcd in X2. exact X2.
    - clear IH.
      assert (Hb : (base + length d = length data)%nat) by (rewrite Hdata, HB, !app_length; lia).
      rewrite Hb.
      assert (HN2 : forall m, ~ first h (skipn (length h) data) m) by (rewrite Hcd; exact Nn).
      (* every further call pushes nothing and answers None *)
      assert (Hs : forall k, exists s2, drive_push adj push data (repeat (length data) k) s' (length data) (length data) true
                   = Ok {| r_cuts := []; r_state := s2; r_base := length data; r_seen := length data; r_none := true |}).
      { clear - K HR' Nn Hdata Hlim. intros k. revert s' HR'.
        induction k as [|k IHk]; intros s' HR'; [now exists s'|].
        cbn [repeat drive_push]. rewrite skipn_all, firstn_nil. simpl length. rewrite Nat.add_0_r.
        destruct (K s' h (c ++ d) [] HR' Nn) as [(m & kk & s2 & F & _)|(s2 & _ & Ep & HR2)].
        - rewrite app_nil_r. now rewrite <- Hdata.
        - exfalso. rewrite app_nil_r in F. eapply Nn; eauto.
        - rewrite Ep. cbn [bind]. rewrite app_nil_r in HR2. apply IHk; auto. }
      destruct (Hs n) as [s2 E2]. rewrite E2.
      exists {| r_cuts := []; r_state := s2; r_base := length data; r_seen := length data; r_none := true |}.
      repeat split; auto. now constructor.
  Qed.

End Push.

(** What all callers of [push] see, for an incremental chunker whose [push] satisfies its contract. *)
Theorem incr_conforms_of : forall adj C first lim R,
  first_laws first -> progressive first -> down_closed lim -> push_ok adj (incr_push C) first lim R ->
  R (incr_new C) [] [] -> incr_conforms adj C first lim.
Proof.
  intros adj C first lim R L P D K R0 data Hlim.
  destruct (drive_push_drain adj (incr_push C) first lim R L K P data Hlim (S (length data)) (incr_new C) [] [] 0 0 false)
    as (r0 & E0 & B0 & C0); auto using fl_nil; [simpl; lia|].
  simpl in C0. exists (r_cuts r0). split; [exact C0|]. intros sched. unfold run_incr.
  destruct (drive_push_ok adj (incr_push C) first lim R L D K data Hlim sched (incr_new C) [] [] 0 0 false)
    as (r & h & c & Er & Pa & X1 & X2 & X3 & X4 & _); auto using fl_nil.
  simpl in Pa.
  destruct (drive_push_drain adj (incr_push C) first lim R L K P data Hlim (S (length data)) (r_state r) h c (r_base r)
              (r_seen r) (r_none r)) as (r2 & E2 & B2 & C2); auto; [lia|].
  assert (EC : r_cuts r0 = r_cuts r ++ r_cuts r2).
  { eapply cuts_of_fun; eauto. eapply cut_path_cuts; eauto. }
  split.
  - exists r, (r_cuts r2). split; [exact Er|]. split; [|split; [exact EC|]].
    + rewrite X2, <- X1, firstn_length. lia.
    + intros p Hp. rewrite X2, app_length. eapply (cuts_of_later first L); [exact X3| |exact Hp].
      assert (Y : skipn (length h) data = c ++ skipn (r_base r) data).
      { rewrite <- (firstn_skipn (r_base r) data) at 1. rewrite X1, <- app_assoc.
        rewrite skipn_app_ge, Nat.sub_diag by lia. reflexivity. }
      rewrite Y in C2. exact C2.
  - unfold drain. rewrite drive_push_app, Er. cbn [bind]. rewrite E2. cbn [bind].
    eexists. split; [reflexivity|]. simpl. auto.
Qed.

Theorem incr_prompt_of : forall adj C first lim R,
  first_laws first -> local_first first -> down_closed lim -> push_ok adj (incr_push C) first lim R ->
  R (incr_new C) [] [] -> incr_prompt adj C first lim.
Proof.
  intros adj C first lim R L T D K R0 data sched r Hlim Er.
  destruct (drive_push_ok adj (incr_push C) first lim R L D K data Hlim sched (incr_new C) [] [] 0 0 false)
    as (r' & h & c & Er' & Pa & X1 & X2 & X3 & X4 & _); auto using fl_nil.
  unfold run_incr in Er. rewrite Er in Er'. inversion Er'. subst r'. clear Er'.
  assert (Y : skipn (length h) data = c ++ skipn (r_base r) data).
  { rewrite <- (firstn_skipn (r_base r) data) at 1. rewrite X1, <- app_assoc.
    rewrite skipn_app_ge, Nat.sub_diag by lia. reflexivity. }
  destruct (cut_path_trunc _ L T _ _ _ _ _ Pa c (skipn (r_base r) data) Y) as (d0 & E0 & P0).
  simpl in E0. assert (d0 = firstn (r_base r) data) as <-.
  { apply (app_inv_tail (skipn (r_base r) data)). rewrite firstn_skipn. now symmetry. }
  rewrite <- (app_nil_r (r_cuts r)). eapply cut_path_cuts; [exact P0|]. now constructor.
Qed.

(** Without progress (an empty chunk is possible) the run is still safe and its cuts are right. *)
Theorem incr_path_of : forall adj C first lim R,
  first_laws first -> down_closed lim -> push_ok adj (incr_push C) first lim R ->
  R (incr_new C) [] [] -> forall data sched, lim (length data) ->
  exists r h c, run_incr adj C data sched = Ok r /\
    cut_path first [] data (r_cuts r) h (skipn (length h) data) /\ firstn (r_base r) data = h ++ c /\
    (forall n, ~ first h c n).
Proof.
  intros adj C first lim R L D K R0 data sched Hlim.
  destruct (drive_push_ok adj (incr_push C) first lim R L D K data Hlim sched (incr_new C) [] [] 0 0 false)
    as (r' & h & c & Er' & Pa & X1 & X2 & X3 & X4 & _); auto using fl_nil.
  exists r', h, c. auto.
Qed.

(** ** [find_chunk_edge] *)
Section FindEdge.
  Context {St : Type}.
  Variable shrink : bool.
  Variable find : St -> list byte -> res (St * (option nat * nat)).
  Variable first : first_rel.
  Variable lim : nat -> Prop.
  Variable keep : nat.
  Variable R : St -> list byte -> list byte -> nat -> Prop.

  (** In state [s] the chunker has seen the bytes [c] of the chunk that started after [h], and the last [k] of them
      are still at the head of the caller's buffer. *)
  Definition find_ok : Prop :=
    forall s h c k d, R s h c k -> (k <= length c)%nat -> (forall n, ~ first h c n) -> lim (length (h ++ c ++ d)) ->
    let buf := lastn k c ++ d in
    (exists n m s', first h (c ++ d) n /\ (m + length c = k + n)%nat /\ (m <= length buf)%nat /\
       find s buf = Ok (s', (Some m, m)) /\ R s' (h ++ firstn n (c ++ d)) [] 0%nat) \/
    (exists s' dd, (forall n, ~ first h (c ++ d) n) /\ (dd <= length buf)%nat /\ (length buf - dd <= keep)%nat /\
       find s buf = Ok (s', (None, dd)) /\ R s' h (c ++ d) (length buf - dd)%nat).

  Hypothesis L : first_laws first.
  Hypothesis D : down_closed lim.
  Hypothesis K : find_ok.

  Lemma buf_split : forall (data h c : list byte) k base hi, (k <= length c)%nat ->
    firstn (base + k) data = h ++ c -> (base + k)%nat = length (h ++ c) -> (base + k <= hi <= length data)%nat ->
    exists d, firstn (hi - base) (skipn base data) = lastn k c ++ d /\ length d = (hi - base - k)%nat /\
      d = firstn (hi - (base + k)) (skipn (base + k) data) /\
      firstn hi data = h ++ c ++ d /\ skipn (length h) data = (c ++ d) ++ skipn hi data.
  Proof.
    intros data h c k base hi Hk HE HB Hh. exists (firstn (hi - (base + k)) (skipn (base + k) data)).
    assert (X : data = (h ++ c) ++ skipn (base + k) data) by (rewrite <- HE; symmetry; apply firstn_skipn).
    assert (Hhi : firstn hi data = h ++ c ++ firstn (hi - (base + k)) (skipn (base + k) data)).
    { rewrite (skipn_firstn_split _ (base + k) hi) by lia. now rewrite HE, <- app_assoc. }
    split; [|split; [|split; [|split]]].
    - rewrite (skipn_firstn_split _ k (hi - base)) by lia. rewrite skipn_skipn'.
      replace (hi - base - k)%nat with (hi - (base + k))%nat by lia. f_equal.
      assert (Y : firstn k (skipn base data) = skipn base (firstn (base + k) data)).
      { rewrite skipn_firstn_comm. f_equal. lia. }
      rewrite Y, HE. unfold lastn. rewrite app_length in HB.
      rewrite skipn_app_ge by lia. f_equal. lia.
    - rewrite firstn_length, skipn_length. lia.
    - reflexivity.
    - exact Hhi.
    - rewrite <- (firstn_skipn hi data) at 1. rewrite Hhi, <- app_assoc.
      rewrite skipn_app_ge, Nat.sub_diag by lia. now rewrite <- app_assoc.
  Qed.

  Lemma drive_chunk_ok : forall data, lim (length data) -> forall sched s h c k base lo seen none,
    R s h c k -> (k <= length c)%nat -> (forall n, ~ first h c n) ->
    firstn (base + k) data = h ++ c -> (base + k)%nat = length (h ++ c) -> (base + k <= lo <= length data)%nat ->
    (base <= seen <= length data)%nat -> (none = true -> (seen = base + k /\ k <= keep)%nat) ->
    exists r h' c' k' lo', drive_chunk shrink find data sched s base lo seen none = Ok r /\
      cut_path first h (skipn (length h) data) (r_cuts r) h' (skipn (length h') data) /\
      (k' <= length c')%nat /\
      firstn (r_base r + k') data = h' ++ c' /\ (r_base r + k')%nat = length (h' ++ c') /\
      (r_base r + k' <= lo' <= length data)%nat /\
      (r_base r <= r_seen r <= length data)%nat /\
      (r_none r = true -> (r_seen r = r_base r + k')%nat /\ (k' <= keep)%nat) /\
      (forall n, ~ first h' c' n) /\ R (r_state r) h' c' k' /\
      forall sched2, drive_chunk shrink find data (sched ++ sched2) s base lo seen none =
        (r2 <- drive_chunk shrink find data sched2 (r_state r) (r_base r) lo' (r_seen r) (r_none r) ;;
         Ok {| r_cuts := r_cuts r ++ r_cuts r2; r_state := r_state r2; r_base := r_base r2; r_seen := r_seen r2;
               r_none := r_none r2 |}).
  Proof.
    intros data Hlim sched. induction sched as [|g sched IH]; intros s h c k base lo seen none HR Hk HN HE HB HLO HS HNO.
    - exists {| r_cuts := []; r_state := s; r_base := base; r_seen := seen; r_none := none |}, h, c, k, lo.
      cbn [drive_chunk app r_cuts r_state r_base r_seen r_none].
      split; [reflexivity|]. split; [constructor|]. split; [exact Hk|]. split; [exact HE|]. split; [exact HB|].
      split; [exact HLO|]. split; [exact HS|]. split; [exact HNO|]. split; [exact HN|]. split; [exact HR|].
      intros sched2. now destruct (drive_chunk _ _ _ sched2 _ _ _ _ _) as [[]| |].
    - cbn [drive_chunk app].
      set (hi := Nat.min (length data) (Nat.max lo (base + g))).
      assert (Hhi : (base + k <= hi <= length data)%nat) by (unfold hi; lia).
      destruct (buf_split data h c k base hi Hk HE HB Hhi) as (d & Eb & Ld & _ & Ehi & Esk).
      rewrite Eb.
      assert (Lb : length (lastn k c ++ d) = (hi - base)%nat) by (rewrite app_length, lastn_length; lia).
      assert (Hl : lim (length (h ++ c ++ d))).
      { rewrite <- Ehi. eapply D; [|exact Hlim]. rewrite firstn_length. lia. }
      destruct (K s h c k d HR Hk HN Hl) as [(n & m & s' & Fn & En & Hm & Ef & HR')|(s' & dd & Nn & Hd & Hkp & Ef & HR')];
        rewrite Ef; cbn [bind].
      + replace (Nat.ltb (length (lastn k c ++ d)) m) with false by (symmetry; apply Nat.ltb_ge; lia).
        assert (Hn := fl_len _ L _ _ _ Fn). rewrite app_length in Hn.
        rewrite app_length in HB.
        assert (Hp : (base + m)%nat = (length h + n)%nat) by lia.
        assert (Hh' : length (h ++ firstn n (c ++ d)) = (length h + n)%nat) by (rewrite app_length, firstn_length, app_length; lia).
        edestruct (IH s' (h ++ firstn n (c ++ d)) [] 0%nat (base + m)%nat (if shrink then (base + m)%nat else hi) hi false)
          as (r & h' & c' & k' & lo' & Er & P & X); eauto using fl_nil.
        { rewrite Nat.add_0_r, app_nil_r, Hp, <- Hh'.
          assert (Y : firstn (length (h ++ firstn n (c ++ d))) data = firstn (length (h ++ firstn n (c ++ d))) (firstn hi data)).
          { rewrite firstn_firstn, Nat.min_l; [reflexivity|]. rewrite Hh'. lia. }
          rewrite Y, Ehi. rewrite <- (firstn_skipn n (c ++ d)) at 2. rewrite app_assoc.
          rewrite firstn_app_le by lia. apply firstn_all2. lia. }
        { rewrite app_nil_r. lia. }
        { destruct shrink; lia. }
        { lia. }
        { discriminate. }
        rewrite Er. cbn [bind]. exists (add_cut (base + m) r), h', c', k', lo'.
        unfold add_cut at 1 2. cbn [r_cuts].
        split; [reflexivity|]. split.
        * rewrite Hp. assert (Fn' : first h (skipn (length h) data) n) by (rewrite Esk; now apply (fl_ext _ L)).
          econstructor; [exact Fn'|].
          replace (firstn n (skipn (length h) data)) with (firstn n (c ++ d)).
          2:{ rewrite Esk. symmetry. apply firstn_app_le. rewrite app_length. lia. }
          rewrite skipn_skipn', <- Hh'. exact P.
        * cbn [add_cut r_base r_seen r_none r_state r_cuts].
          destruct X as (X1 & X2 & X3 & X4 & X5 & X6 & X7 & X8 & X9). repeat (split; [assumption|]).
          intros sched2. rewrite X9. now destruct (drive_chunk _ _ _ sched2 _ _ _ _ _) as [r2| |].
      + replace (Nat.ltb (length (lastn k c ++ d)) dd) with false by (symmetry; apply Nat.ltb_ge; lia).
        rewrite Lb in *.
        edestruct (IH s' h (c ++ d) (hi - base - dd)%nat (base + dd)%nat hi hi true)
          as (r & h' & c' & k' & lo' & Er & P & X); eauto.
        { rewrite app_length. rewrite app_length, lastn_length in Lb. lia. }
        { replace (base + dd + (hi - base - dd))%nat with hi by lia. exact Ehi. }
        { rewrite <- Ehi, firstn_length. lia. }
        { lia. }
        { lia. }
        { lia. }
        rewrite Er. exists r, h', c', k', lo'. split; [reflexivity|]. split; [exact P|].
        destruct X as (X1 & X2 & X3 & X4 & X5 & X6 & X7 & X8 & X9). repeat (split; [assumption|]). exact X9.
  Qed.

  Hypothesis Pr : progressive first.

  Lemma drive_chunk_drain : forall data, lim (length data) -> forall n s h c k base lo seen none,
    R s h c k -> (k <= length c)%nat -> (forall m, ~ first h c m) ->
    firstn (base + k) data = h ++ c -> (base + k)%nat = length (h ++ c) -> (base + k <= lo <= length data)%nat ->
    (length data - length h < n)%nat ->
    exists r, drive_chunk shrink find data (repeat (length data) n) s base lo seen none = Ok r /\
      r_seen r = length data /\ cuts_of first h (skipn (length h) data) (r_cuts r).
  Proof.
    intros data Hlim n. induction n as [|n IH]; intros s h c k base lo seen none HR Hk HN HE HB HLO Hm; [lia|].
    cbn [repeat drive_chunk].
    replace (Nat.min (length data) (Nat.max lo (base + length data))) with (length data) by lia.
    destruct (buf_split data h c k base (length data) Hk HE HB ltac:(lia)) as (d & Eb & Ld & _ & Ehi & Esk).
    rewrite Eb. rewrite firstn_all in Ehi. rewrite skipn_all, app_nil_r in Esk.
    assert (Lb : length (lastn k c ++ d) = (length data - base)%nat) by (rewrite app_length, lastn_length; lia).
    assert (Hl : lim (length (h ++ c ++ d))) by (now rewrite <- Ehi).
    destruct (K s h c k d HR Hk HN Hl) as [(n' & m & s' & Fn & En & Hm' & Ef & HR')|(s' & dd & Nn & Hd & Hkp & Ef & HR')];
      rewrite Ef; cbn [bind].
    - replace (Nat.ltb (length (lastn k c ++ d)) m) with false by (symmetry; apply Nat.ltb_ge; lia).
      assert (Hn := fl_len _ L _ _ _ Fn). rewrite app_length in Hn. assert (Hpr := Pr _ _ _ Fn).
      rewrite app_length in HB.
      assert (Hp : (base + m)%nat = (length h + n')%nat) by lia.
      assert (Hh' : length (h ++ firstn n' (c ++ d)) = (length h + n')%nat) by (rewrite app_length, firstn_length, app_length; lia).
      edestruct (IH s' (h ++ firstn n' (c ++ d)) [] 0%nat (base + m)%nat (if shrink then (base + m)%nat else length data)
                   (length data) false) as (r & Er & X1 & X2); eauto using fl_nil.
      { rewrite Nat.add_0_r, app_nil_r, Hp, <- Hh'. rewrite Ehi at 1.
        rewrite <- (firstn_skipn n' (c ++ d)) at 2. rewrite app_assoc.
        rewrite firstn_app_le by lia. apply firstn_all2. lia. }
      { rewrite app_nil_r. lia. }
      { destruct shrink; lia. }
      { lia. }
      rewrite Er. cbn [bind]. exists (add_cut (base + m) r). split; [reflexivity|].
      cbn [add_cut r_seen r_cuts]. split; [exact X1|]. rewrite Hp, Esk. econstructor; [exact Fn|].
      rewrite Hh' in X2. rewrite <- skipn_skipn', Esk in X2. exact X2.
    - clear IH.
      replace (Nat.ltb (length (lastn k c ++ d)) dd) with false by (symmetry; apply Nat.ltb_ge; lia).
      rewrite Lb in *.
      assert (Hs : forall j s' dd, R s' h (c ++ d) (length data - base - dd)%nat -> (dd <= length data - base)%nat ->
                (length data - base - dd <= length (c ++ d))%nat ->
                exists r, drive_chunk shrink find data (repeat (length data) j) s' (base + dd) (length data) (length data) true
                   = Ok r /\ r_cuts r = [] /\ r_seen r = length data).
      { clear s' dd Hd Hkp Ef HR'. intros j. induction j as [|j IHj]; intros s' dd HR' Hd Hk2.
        - eexists. cbn [repeat drive_chunk]. split; [reflexivity|]. auto.
        - cbn [repeat drive_chunk].
          replace (Nat.min (length data) (Nat.max (length data) (base + dd + length data))) with (length data) by lia.
          assert (Eb2 : firstn (length data - (base + dd)) (skipn (base + dd) data) = lastn (length data - base - dd) (c ++ d)).
          { rewrite firstn_all2 by (rewrite skipn_length; lia).
            rewrite <- (lastn_app _ _ h) by (exact Hk2). rewrite <- Ehi. unfold lastn. f_equal. lia. }
          rewrite Eb2.
          destruct (K s' h (c ++ d) (length data - base - dd)%nat [] HR' Hk2 Nn)
            as [(n' & m & s2 & Fn & _)|(s2 & dd2 & _ & Hd2 & _ & Ef2 & HR2)].
          + rewrite app_nil_r. now rewrite <- Ehi.
          + exfalso. rewrite app_nil_r in Fn. eapply Nn; eauto.
          + rewrite !app_nil_r in *. rewrite Ef2. cbn [bind].
            rewrite lastn_length, Nat.min_l in * by lia.
            replace (Nat.ltb (length data - base - dd) dd2) with false by (symmetry; apply Nat.ltb_ge; lia).
            rewrite <- Nat.add_assoc. apply IHj; [|lia|lia].
            replace (length data - base - (dd + dd2))%nat with (length data - base - dd - dd2)%nat by lia. exact HR2. }
      destruct (Hs n s' dd HR' Hd) as (r & Er & C2 & S2).
      { rewrite app_length. rewrite app_length, lastn_length in Lb. lia. }
      rewrite Er. exists r. split; [reflexivity|]. split; [exact S2|]. rewrite C2, Esk. now constructor.
  Qed.
End FindEdge.

Theorem chunk_conforms_of : forall shrink C first lim keep R,
  first_laws first -> progressive first -> local_first first -> down_closed lim ->
  find_ok (find_chunk_edge C) first lim keep R -> R (to_search_state C) [] [] 0%nat ->
  chunk_conforms shrink C first lim keep.
Proof.
  intros shrink C first lim keep R L P T D K R0 data Hlim.
  destruct (drive_chunk_drain shrink (find_chunk_edge C) first lim keep R L K P data Hlim (S (length data))
              (to_search_state C) [] [] 0 0 0 0 false) as (r0 & E0 & B0 & C0); auto using fl_nil; try (simpl; lia).
  simpl in C0. exists (r_cuts r0). split; [exact C0|]. intros sched. unfold run_chunk.
  destruct (drive_chunk_ok shrink (find_chunk_edge C) first lim keep R L D K data Hlim sched (to_search_state C) [] [] 0 0 0 0 false)
    as (r & h & c & k & lo & Er & Pa & Hk & X1 & X2 & X3 & X4 & X5 & X6 & X7 & X8);
    auto using fl_nil; try (simpl; lia); try discriminate.
  simpl in Pa.
  destruct (drive_chunk_drain shrink (find_chunk_edge C) first lim keep R L K P data Hlim (S (length data))
              (r_state r) h c k (r_base r) lo (r_seen r) (r_none r)) as (r2 & E2 & B2 & C2); auto; try lia.
  assert (EC : r_cuts r0 = r_cuts r ++ r_cuts r2).
  { eapply cuts_of_fun; eauto. eapply cut_path_cuts; eauto. }
  split.
  - exists r. split; [exact Er|]. split; [exact X4|]. split; [now exists (r_cuts r2)|].
    intros Hnone. destruct (X5 Hnone) as [Es Hkeep]. split; [|lia].
    rewrite Es.
    assert (Y : skipn (length h) data = c ++ skipn (r_base r + k) data).
    { rewrite <- (firstn_skipn (r_base r + k) data) at 1. rewrite X1, <- app_assoc.
      rewrite skipn_app_ge, Nat.sub_diag by lia. reflexivity. }
    destruct (cut_path_trunc _ L T _ _ _ _ _ Pa c (skipn (r_base r + k) data) Y) as (d0 & F0 & P0).
    simpl in F0. assert (d0 = firstn (r_base r + k) data) as <-.
    { apply (app_inv_tail (skipn (r_base r + k) data)). rewrite firstn_skipn. now symmetry. }
    rewrite <- (app_nil_r (r_cuts r)). eapply cut_path_cuts; [exact P0|]. now constructor.
  - unfold drain. rewrite X8, E2. cbn [bind]. eexists. split; [reflexivity|]. simpl. auto.
Qed.
