(** * Agree: when [push] and [find_chunk_edge] report the same cuts. *)

From Verif Require Import Base Api Tables Range Spec Lists Contract Step Words Rot CutFacts IterProofs.
From Verif Require Import Mii Ram Gear Pigz Gzip FastCdc Bup BuzHash Zpaq Zstd.
From Verif Require Import MiiProofs RamProofs GearProofs PigzProofs GzipProofs FastCdcProofs BupProofs BupAny BuzProofs ZpaqProofs ZpaqCtor ZstdProofs.
From Verif Require Import Builtin BuiltinProofs IterAll.

(** ** The remaining windows *)
Lemma pigz_window : forall b, 0 <= b -> window_rule (Z.to_nat b) (pigz_rule b).
Proof.
  intros b Hb a c Hc. unfold pigz_rule.
  change (pigz_hash b (a ++ c) = (2 ^ b - 1) / 2 <-> pigz_hash b c = (2 ^ b - 1) / 2).
  rewrite !pigz_hash_window by (rewrite ?app_length; lia).
  rewrite rev_app_distr, firstn_app_le by (rewrite rev_length; lia). reflexivity.
Qed.

Lemma buz_window : forall hv k mask, (forall b, word32 (hv b)) -> (k mod 32 < 8)%nat -> window_rule k (buz_rule hv k mask).
Proof.
  intros hv k mask Hw Hk a c Hc. unfold buz_rule. rewrite !buz_hash_window by assumption.
  rewrite rev_app_distr, firstn_app_le by (rewrite rev_length; lia). reflexivity.
Qed.

(** ** Two rules *)
Section TwoRules.
  Variables r1 r2 : list byte -> list byte -> Prop.
  Variable P : nat -> Prop.

  (** The rules agree on chunks of the sizes that occur. *)
  Lemma agree_on : (forall h c, P (length c) -> (r1 h c <-> r2 h c)) ->
    forall h d cs1, cuts_of (ends_at r1) h d cs1 -> forall cs2, cuts_of (ends_at r2) h d cs2 ->
    Forall P (sizes (length h) cs1) -> Forall P (sizes (length h) cs2) -> cs1 = cs2.
  Proof.
    intros A h d cs1 H. induction H as [h d N|h d n cs1 F H IH]; intros cs2 H2 F1 F2.
    - inversion H2 as [h' d' N2|h' d' m cs3 G H3]; subst; [reflexivity|]. exfalso.
      cbn [sizes] in F2. replace (length h + m - length h)%nat with m in F2 by lia. inversion F2 as [|x y P1 _]; subst.
      destruct G as (G1 & G2 & G3).
      assert (Q : forall j, (j <= length d)%nat -> (1 <= j)%nat -> ~ r1 h (firstn j d)).
      { intros j. induction j as [j IHj] using lt_wf_ind. intros Hj H1 X. apply (N j). split; [lia|]. split; [exact X|].
        intros i Hi. apply IHj; lia. }
      apply (Q m); [lia|lia|]. apply A; [|exact G2]. rewrite firstn_length, Nat.min_l by lia. exact P1.
    - destruct F as (Fa & Fb & Fc).
      cbn [sizes] in F1. replace (length h + n - length h)%nat with n in F1 by lia. inversion F1 as [|x y P1 P1']; subst.
      assert (Ln : length (firstn n d) = n) by (rewrite firstn_length; lia).
      assert (Rn : r2 h (firstn n d)) by (apply A; [now rewrite Ln|exact Fb]).
      inversion H2 as [h' d' N2|h' d' m cs3 G H3]; subst.
      + exfalso.
        assert (Q : forall j, (j <= length d)%nat -> (1 <= j)%nat -> ~ r2 h (firstn j d)).
        { intros j. induction j as [j IHj] using lt_wf_ind. intros Hj H1 X. apply (N2 j). split; [lia|]. split; [exact X|].
          intros i Hi. apply IHj; lia. }
        apply (Q n); [lia|lia|exact Rn].
      + destruct G as (G1 & G2 & G3).
        cbn [sizes] in F2. replace (length h + m - length h)%nat with m in F2 by lia. inversion F2 as [|x y P2 P2']; subst.
        assert (Lm : length (firstn m d) = m) by (rewrite firstn_length; lia).
        assert (Rm : r1 h (firstn m d)) by (apply A; [now rewrite Lm|exact G2]).
        assert (n = m).
        { destruct (Nat.lt_trichotomy n m) as [X|[X|X]]; [|exact X|]; exfalso; [apply (G3 n)|apply (Fc m)]; auto; lia. }
        subst m. f_equal. apply IH; [exact H3| |]; rewrite app_length, Ln; assumption.
  Qed.

  (** One rule implies the other, and conversely on the sizes that occur. *)
  Lemma agree_imp : (forall h c, r1 h c -> r2 h c) -> (forall h c, P (length c) -> r2 h c -> r1 h c) ->
    forall h d cs1, cuts_of (ends_at r1) h d cs1 -> forall cs2, cuts_of (ends_at r2) h d cs2 ->
    Forall P (sizes (length h) cs2) -> cs1 = cs2.
  Proof.
    intros I A h d cs1 H cs2 H2. revert cs1 H. induction H2 as [h d N|h d m cs2 G H2 IH]; intros cs1 H F2.
    - inversion H as [h' d' N1|h' d' n cs3 F H3]; subst; [reflexivity|]. exfalso.
      destruct F as (Fa & Fb & Fc).
      assert (Q : forall j, (j <= length d)%nat -> (1 <= j)%nat -> ~ r2 h (firstn j d)).
      { intros j. induction j as [j IHj] using lt_wf_ind. intros Hj H1 X. apply (N j). split; [lia|]. split; [exact X|].
        intros i Hi. apply IHj; lia. }
      apply (Q n); [lia|lia|auto].
    - destruct G as (G1 & G2 & G3).
      cbn [sizes] in F2. replace (length h + m - length h)%nat with m in F2 by lia. inversion F2 as [|x y P2 P2']; subst.
      assert (Lm : length (firstn m d) = m) by (rewrite firstn_length; lia).
      assert (Rm : r1 h (firstn m d)) by (apply A; [now rewrite Lm|exact G2]).
      inversion H as [h' d' N1|h' d' n cs3 F H3]; subst.
      + exfalso.
        apply (N1 m). split; [lia|]. split; [exact Rm|]. intros j Hj X. apply (G3 j Hj). auto.
      + destruct F as (Fa & Fb & Fc).
        assert (n = m).
        { destruct (Nat.lt_trichotomy n m) as [X|[X|X]]; [|exact X|]; exfalso; [apply (G3 n)|apply (Fc m)]; auto; lia. }
        subst n. f_equal. apply IH; [exact H3|]. rewrite app_length, Lm. assumption.
  Qed.
End TwoRules.

Lemma sizes_mono_P : forall (P Q : nat -> Prop) base cs, (forall n, P n -> Q n) -> Forall P (sizes base cs) -> Forall Q (sizes base cs).
Proof. intros P Q base cs I H. eapply Forall_impl; eauto. Qed.

(** ** Every algorithm with a rule for [find_chunk_edge] *)
Lemma zpaq_extra : forall r mh c, zpaq_rule r mh 0 c -> zpaq_rule r mh 1 c.
Proof.
  intros r mh c. unfold zpaq_rule. rewrite Z.add_0_r. intros [[X Y]|X].
  - left. split; [exact X|]. revert Y. unfold below_range. destruct (start_bound r); lia.
  - right. revert X. unfold above_range. destruct (end_bound r); lia.
Qed.

Lemma mii_rule_cons : forall w a c, mii_rule w c -> mii_rule w (a :: c).
Proof. intros w a c (H & pre & tail & E & X). split; [exact H|]. exists (a :: pre), tail. now rewrite E. Qed.

Lemma mii_rule_uncons : forall w a c, w + 1 <= Z.of_nat (length c) -> mii_rule w (a :: c) -> mii_rule w c.
Proof.
  intros w a c Hl H. assert (1 <= w) by apply H. apply (mii_window w [a] c); [lia|exact H].
Qed.

Lemma cuts_agree : forall c rule d cs1 cs2, typed c -> incr_sound c -> chunk_rule c = Some rule ->
  cuts_of (incr_first c) [] d cs1 -> cuts_of (ends_at (per_chunk rule)) [] d cs2 -> agree_when c cs1 cs2 -> cs1 = cs2.
Proof.
  intros c rule d cs1 cs2 T S E H1 H2 A.
  destruct c; cbn [incr_first chunk_rule agree_when incr_sound typed] in *; try discriminate; inversion E; subst rule; clear E.
  - symmetry. refine (agree_imp _ _ (fun n => w + 1 <= Z.of_nat n) _ _ _ _ _ H2 _ H1 A).
    + intros h c X. unfold per_chunk in X. destruct h; [exact X|]. now apply mii_rule_cons.
    + intros h c P X. unfold per_chunk. destruct h; [exact X|]. now apply mii_rule_uncons in X.
  - exact (cuts_of_fun _ (ends_at_laws _) _ _ _ H1 _ H2).
  - exact (cuts_of_fun _ (ends_at_laws _) _ _ _ H1 _ H2).
  - exact (cuts_of_fun _ (ends_at_laws _) _ _ _ H1 _ H2).
  - exact (cuts_of_fun _ (ends_at_laws _) _ _ _ H1 _ H2).
  - destruct A as [[k Ek] [A1 A2]].
    refine (agree_on _ _ (fun n => window <= n)%nat _ _ _ _ H1 _ H2 A1 A2).
    intros h c P. unfold per_stream, per_chunk. rewrite <- (bup_window window h c P). rewrite Ek. apply bup_incr_rule_pow2.
  - symmetry. refine (agree_imp _ _ (fun n => Z.of_nat n <= max) _ _ _ _ _ H2 _ H1 A).
    + intros h c X. unfold per_chunk in *. now left.
    + intros h c P [X|X]; [exact X|]. lia.
  - refine (agree_imp _ _ _ _ _ _ _ _ H1 _ H2 A).
    + intros h c X. unfold per_chunk in *. now apply zpaq_extra.
    + intros h c [P1 P2] X. unfold per_chunk, zpaq_rule in *. rewrite Z.add_0_r. rewrite P1, P2. exact X.
Qed.

Theorem agree_all : forall c CI CC rule sh data sched1 sched2 r1 r2, typed c -> incr_sound c -> chunk_rule c = Some rule ->
  incr_of c = Ok CI -> chunk_of c = Ok CC -> stream_len (length data) ->
  run_incr (incr_adj c) CI data (sched1 ++ drain data) = Ok r1 -> run_chunk sh CC data (sched2 ++ drain data) = Ok r2 ->
  agree_when c (r_cuts r1) (r_cuts r2) -> r_cuts r1 = r_cuts r2.
Proof.
  intros c CI CC rule sh data sched1 sched2 r1 r2 T S Er EI EC Hl E1 E2 A.
  assert (S2 : chunk_sound c).
  { destruct c; cbn in *; auto; tauto. }
  eapply cuts_agree; eauto.
  - eapply incr_final; eauto using incr_all.
  - eapply (chunk_final _ stream_len); [|exact Hl|exact E2]. eapply chunk_all; eauto.
Qed.

(** The slices of [iter_slices] and the chunks of [find_chunk_edge]. *)
Theorem iter_agree : forall c CI CC rule sh data sched r it out, typed c -> incr_sound c -> chunk_rule c = Some rule ->
  match c with CfgRam _ | CfgGear _ => False | _ => True end ->
  incr_of c = Ok CI -> chunk_of c = Ok CC -> stream_len (length data) ->
  collect iter_slices_next (2 + length data) (iter_slices CI (incr_new CI) data) = Ok (out, it) ->
  run_chunk sh CC data (sched ++ drain data) = Ok r ->
  (forall cs, cuts_of (incr_first c) [] data cs -> agree_when c cs (r_cuts r)) -> out = pieces 0 (r_cuts r) data.
Proof.
  intros c CI CC rule sh data sched r it out T S Er NG EI EC Hl E1 E2 A.
  assert (S2 : chunk_sound c) by (destruct c; cbn in *; auto; tauto).
  assert (IS : iter_sound c) by (destruct c; cbn in *; auto; try tauto; discriminate).
  destruct (iter_all c CI T EI IS data Hl) as (cs & it' & Hc & Ec). rewrite E1 in Ec. inversion Ec; subst out it'.
  assert (IF : iter_first c = incr_first c) by (destruct c; try reflexivity; destruct NG). rewrite IF in Hc.
  f_equal. eapply cuts_agree; eauto. eapply (chunk_final _ stream_len); [|exact Hl|exact E2]. eapply chunk_all; eauto.
Qed.
