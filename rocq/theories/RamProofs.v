(** * RamProofs *)

From Verif Require Import Base Api Spec Lists Contract Step Ram.

(** [m] is the largest byte of [c] (0 if there is none). *)
Definition max_of (m : byte) (c : list byte) : Prop :=
  (forall x, In x c -> b2z x <= b2z m) /\ (m = x00 \/ In m c).

Lemma max_of_nil : max_of x00 [].
Proof. split; [intros x []|now left]. Qed.

Lemma ram_rule_max : forall w m c b, max_of m c ->
  (ram_rule w (c ++ [b]) <-> b2z m <= b2z b /\ w < Z.of_nat (length c)).
Proof.
  intros w m c b [Hm Hin]. split.
  - intros (pre & x & E & Hl & Ha). apply app_snoc_inv in E. destruct E as [<- <-].
    split; [|exact Hl]. destruct Hin as [->|Hin]; [|now apply Ha].
    replace (b2z x00) with 0 by reflexivity. assert (X := b2z_range b). lia.
  - intros [Hb Hl]. exists c, b. split; [reflexivity|]. split; [exact Hl|]. intros x Hx. specialize (Hm x Hx). lia.
Qed.

Lemma max_of_snoc_ge : forall m c b, max_of m c -> b2z m <= b2z b -> max_of b (c ++ [b]).
Proof.
  intros m c b [Hm _] H. split.
  - intros x Hx. apply in_app_or in Hx. destruct Hx as [Hx|[<-|[]]]; [|lia]. specialize (Hm x Hx). lia.
  - right. apply in_or_app. right. now left.
Qed.

Lemma max_of_snoc_lt : forall m c b, max_of m c -> b2z b < b2z m -> max_of m (c ++ [b]).
Proof.
  intros m c b [Hm Hi] H. split.
  - intros x Hx. apply in_app_or in Hx. destruct Hx as [Hx|[<-|[]]]; [now apply Hm|lia].
  - destruct Hi as [->|Hi]; [now left|]. right. apply in_or_app. now left.
Qed.

(** State between calls, and inside the loop of a call that began with [ram_i = i0]. *)
Definition ram_rel (s : RamState) (c : list byte) : Prop := ram_i s = Z.of_nat (length c) /\ max_of (ram_max_val s) c.
Definition ram_loop_rel (i0 : Z) (i : nat) (s : RamState) (c : list byte) : Prop :=
  ram_i s = i0 /\ Z.of_nat i + i0 = Z.of_nat (length c) /\ max_of (ram_max_val s) c.

Lemma ram_step : forall w i0 (Q : RamState -> list byte -> list byte -> Prop),
  (forall s h c, s = ram_state_default -> Q s h c) ->
  step_ok (ram_push_body w i0) 0 (per_chunk (ram_rule w)) below_2_64 (fun i s h c => ram_loop_rel i0 i s c) Q.
Proof.
  intros w i0 Q HQ i s h c b (E0 & Ei & HM) Hlim. unfold per_chunk.
  assert (Hr := ram_rule_max w _ c b HM). unfold ram_push_body, byte_geb.
  unfold below_2_64 in Hlim. rewrite !app_length in Hlim. cbn [length] in Hlim.
  destruct (Z.leb_spec (b2z (ram_max_val s)) (b2z b)) as [G|G].
  - unfold add_u64. replace (Z.of_nat i + i0 <? two64) with true by (symmetry; apply Z.ltb_lt; unfold two64; lia).
    cbn [bind]. rewrite Ei. destruct (Z.ltb_spec w (Z.of_nat (length c))) as [G2|G2].
    + left. split; [rewrite Hr; lia|]. eexists. split; [rewrite Nat.add_0_r; reflexivity|]. now apply HQ.
    + right. split; [rewrite Hr; lia|]. eexists. split; [reflexivity|]. split; [exact E0|]. split.
      * rewrite app_length. cbn [length]. lia.
      * now apply max_of_snoc_ge with (m := ram_max_val s).
  - right. split; [rewrite Hr; lia|]. eexists. split; [reflexivity|]. split; [exact E0|]. split.
    + rewrite app_length. cbn [length]. lia.
    + now apply max_of_snoc_lt.
Qed.

Lemma ram_default_rel : ram_rel ram_state_default [].
Proof. split; [reflexivity|apply max_of_nil]. Qed.

Lemma ram_push_at : forall w, push_ok 1 (ram_state_push w) (ends_at (per_chunk (ram_rule w))) below_2_64
  (fun s h c => ram_rel s c).
Proof.
  intros w s h c d [Ei HM] HN Hlim. unfold ram_state_push.
  assert (K := ram_step w (ram_i s) (fun s h c => s = ram_state_default) (fun s h c E => E)).
  assert (HR : ram_loop_rel (ram_i s) 0 s c) by (split; [reflexivity|]; split; [lia|exact HM]).
  destruct (for_enum_scan _ 0 _ below_2_64 _ _ K below_down d 0 s h c HR HN Hlim)
    as [(n & j & s' & F & En & Ef & ->)|(N & s' & Ef & (E0 & E1 & E2))]; rewrite Ef; cbn [bind].
  - left. exists n, (0 + j + 0)%nat, ram_state_default. split; [exact F|]. split; [lia|]. split; [reflexivity|].
    apply ram_default_rel.
  - right. unfold below_2_64 in Hlim. unfold add_u64. rewrite E0.
    rewrite !app_length in *.
    replace (ram_i s + Z.of_nat (length d) <? two64) with true by (symmetry; apply Z.ltb_lt; unfold two64; lia).
    cbn [bind]. eexists. split; [exact N|]. split; [reflexivity|].
    split; [simpl; rewrite app_length; lia|exact E2].
Qed.

Lemma ram_push_before : forall w, push_ok 0 (ram_state_push w) (ends_before (per_chunk (ram_rule w))) below_2_64
  (fun s h c => ram_rel s c).
Proof.
  intros w s h c d HR HN Hlim.
  destruct (ram_push_at w s h c d HR (ends_before_none _ _ _ HN) Hlim)
    as [(n & k & s' & F & En & Ep & HR')|(s' & N & Ep & HR')].
  - left. exists (length c + k)%nat, k, s'. split.
    + apply ends_before_at. now replace (S (length c + k)) with n by lia.
    + split; [lia|]. split; [exact Ep|exact HR'].
  - right. exists s'. split; [|auto]. now apply no_ends_before.
Qed.

Lemma ram_rule_len : forall w c, ram_rule w c -> w + 1 < Z.of_nat (length c).
Proof. intros w c (pre & b & -> & H & _). rewrite app_length. cbn [length]. lia. Qed.

Lemma ram_before_progressive : forall w, 0 <= w -> progressive (ends_before (per_chunk (ram_rule w))).
Proof.
  intros w Hw h d n (Hn & Hr & _). apply ram_rule_len in Hr. rewrite firstn_length in Hr. lia.
Qed.

Lemma ram_incr_conforms_at : forall w, incr_conforms 1 (ram_incr w) (ends_at (per_chunk (ram_rule w))) below_2_64.
Proof.
  intros w. exact (incr_conforms_of 1 (ram_incr w) _ _ _ (ends_at_laws _) (ends_at_progressive _) below_down
    (ram_push_at w) ram_default_rel).
Qed.
Lemma ram_incr_prompt_at : forall w, incr_prompt 1 (ram_incr w) (ends_at (per_chunk (ram_rule w))) below_2_64.
Proof.
  intros w. exact (incr_prompt_of 1 (ram_incr w) _ _ _ (ends_at_laws _) (ends_at_local _) below_down
    (ram_push_at w) ram_default_rel).
Qed.
Lemma ram_incr_conforms_before : forall w, 0 <= w ->
  incr_conforms 0 (ram_incr w) (ends_before (per_chunk (ram_rule w))) below_2_64.
Proof.
  intros w Hw. exact (incr_conforms_of 0 (ram_incr w) _ _ _ (ends_before_laws _) (ram_before_progressive w Hw) below_down
    (ram_push_before w) ram_default_rel).
Qed.

Lemma ram_find_ok : forall w, find_ok (ram_find_chunk_edge w) (ends_at (per_chunk (ram_rule w))) below_2_64 0
  (no_lookback (fun s h c => ram_rel s c)).
Proof. intros w. eapply push_find_ok; [apply ram_push_at|reflexivity]. Qed.

Lemma ram_chunk_conforms : forall w shrink,
  chunk_conforms shrink (ram_chunk w) (ends_at (per_chunk (ram_rule w))) below_2_64 0.
Proof.
  intros w shrink.
  exact (chunk_conforms_of shrink (ram_chunk w) _ _ _ _ (ends_at_laws _) (ends_at_progressive _) (ends_at_local _)
    below_down (ram_find_ok w) (conj ram_default_rel eq_refl)).
Qed.
