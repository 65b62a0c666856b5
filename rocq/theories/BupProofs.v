(** * BupProofs *)

From Verif Require Import Base Api Spec Lists Contract Step Window Words Ring Bup.

(** ** The two sums *)
Definition rs_of (W : nat) (c : list byte) : RollSumState :=
  {| rs_s1 := bup_s1 W c mod 2 ^ 32; rs_s2 := bup_s2 W c mod 2 ^ 32 |}.

Lemma bup_slide_short : forall W c b, (length c < W)%nat ->
  bup_s1 W (c ++ [b]) = bup_s1 W c + b2z b - b2z x00 /\
  bup_s2 W (c ++ [b]) = bup_s2 W c + bup_s1 W (c ++ [b]) - Z.of_nat W * (b2z x00 + 31).
Proof.
  intros W c b H. unfold bup_s1, bup_s2. destruct (firstn_rev_slide_short _ W c b H) as [-> ->].
  cbn [byte_sum aged_sum]. rewrite aged_sum_S. replace (b2z x00) with 0 by reflexivity.
  change (Z.of_nat 0) with 0. split; ring.
Qed.

Lemma bup_slide_full : forall W c b o, (W <= length c)%nat -> nth_error (c ++ [b]) (length c - W) = Some o ->
  bup_s1 W (c ++ [b]) = bup_s1 W c + b2z b - b2z o /\
  bup_s2 W (c ++ [b]) = bup_s2 W c + bup_s1 W (c ++ [b]) - Z.of_nat W * (b2z o + 31).
Proof.
  intros W c b o H Ho. destruct W as [|W].
  - rewrite Nat.sub_0_r, nth_error_snoc in Ho. inversion Ho. subst o. unfold bup_s1, bup_s2.
    cbn [firstn byte_sum aged_sum]. change (Z.of_nat 0) with 0. split; ring.
  - unfold bup_s1, bup_s2. destruct (firstn_rev_slide_full _ (S W) c b o ltac:(lia) Ho) as (-> & -> & L).
    replace (S W - 1)%nat with W in * by lia.
    cbn [byte_sum aged_sum]. rewrite aged_sum_S, byte_sum_app, aged_sum_app, L. cbn [byte_sum aged_sum].
    replace (Z.of_nat (0 + W) + 1) with (Z.of_nat (S W)) by lia. change (Z.of_nat 0) with 0. split; ring.
Qed.

Lemma rollsum_add_spec : forall W c b o,
  bup_s1 W (c ++ [b]) = bup_s1 W c + b2z b - b2z o ->
  bup_s2 W (c ++ [b]) = bup_s2 W c + bup_s1 W (c ++ [b]) - Z.of_nat W * (b2z o + 31) ->
  rollsum_add W o b (rs_of W c) = rs_of W (c ++ [b]).
Proof.
  intros W c b o E1 E2. unfold rollsum_add, rs_of, ROLLSUM_CHAR_OFFSET. cbn [rs_s1 rs_s2]. unfold wrap32, two32.
  rewrite E2, E1. f_equal; solve_mod.
Qed.

Lemma rollsum_new_spec : forall W, rollsum_state_new W = rs_of W [].
Proof.
  intros W. unfold rollsum_state_new, rs_of, bup_s1, bup_s2, ROLLSUM_CHAR_OFFSET, wrap32, two32. cbn [rev].
  rewrite firstn_nil. cbn [byte_sum aged_sum]. f_equal; solve_mod.
Qed.

(** ** Digest and split decision *)
Lemma digest_spec : forall W c, rollsum_digest (rs_of W c) = bup_digest W c.
Proof.
  intros W c. unfold rollsum_digest, bup_digest, rs_of. cbn [rs_s1 rs_s2]. unfold wrap32, two32.
  change 0xffff with (2 ^ 16 - 1). rewrite land_mask, mod_mod_pow2 by lia.
  set (x := bup_s1 W c). set (y := bup_s2 W c mod 2 ^ 16).
  assert (E : Z.shiftl (x mod 2 ^ 32) 16 mod 2 ^ 32 = x mod 2 ^ 16 * 2 ^ 16).
  { rewrite Z.shiftl_mul_pow2 by lia. replace (2 ^ 32) with (2 ^ 16 * 2 ^ 16) at 2 by reflexivity.
    rewrite Zmult_mod_distr_r. now rewrite mod_mod_pow2 by lia. }
  rewrite E. assert (Hy : 0 <= y < 2 ^ 16) by (apply Z.mod_pos_bound; reflexivity).
  generalize (x mod 2 ^ 16) as a. intros a.
  rewrite <- Z.shiftl_mul_pow2 by lia.
  rewrite <- Z.lxor_lor, <- Z.add_nocarry_lxor; auto.
  all: apply Z.bits_inj'; intros i Hi; rewrite Z.land_spec, Z.bits_0;
    destruct (Z.lt_ge_cases i 16) as [G|G];
    [rewrite Z.shiftl_spec_low by lia; reflexivity|];
    replace y with (y mod 2 ^ 16) by (now apply Z.mod_small);
    rewrite Z.mod_pow2_bits_high by lia; apply andb_false_r.
Qed.

Lemma at_split_spec : forall W c, rollsum_at_split (rs_of W c) = (bup_s2 W c mod 8192 =? 8191).
Proof.
  intros W c. unfold rollsum_at_split. rewrite digest_spec. change (BLOBSIZE - 1) with (2 ^ 13 - 1).
  rewrite land_mask by lia. change 8191 with (2 ^ 13 - 1). f_equal.
  unfold bup_digest. change 8192 with (2 ^ 13).
  replace (bup_s1 W c mod 2 ^ 16 * 2 ^ 16) with ((bup_s1 W c mod 2 ^ 16 * 2 ^ 3) * 2 ^ 13) by ring.
  rewrite Z.add_comm, Z_mod_plus_full. now apply mod_mod_pow2.
Qed.

(** ** All at once *)
Definition bup_rel (W : nat) (s : RollSumSearchState) (h c : list byte) : Prop := rss_state s = rs_of W c.

Lemma bup_window_step : forall W,
  window_step_ok (rollsum_fce_body W) rss_offset W (per_chunk (bup_rule W)) any_length (bup_rel W).
Proof.
  intros W buf i s h c b HR Hb _ Hi Hn. unfold per_chunk, bup_rule, rollsum_fce_body.
  rewrite (index_ok _ _ _ _ Hb). cbn [bind].
  assert (E : exists o, (if Nat.leb W i then index buf (i - W) else Ok x00) = Ok o /\
              rollsum_add W o b (rs_of W c) = rs_of W (c ++ [b])).
  { destruct (Nat.leb_spec W i) as [G|G].
    - assert (Gc : (W <= length c)%nat) by (now apply Hi). specialize (Hn G).
      destruct (nth_error (c ++ [b]) (length c - W)) as [o|] eqn:Eo.
      + exists o. split; [now apply index_ok|]. destruct (bup_slide_full W c b o Gc Eo). now apply rollsum_add_spec.
      + apply nth_error_None in Eo. rewrite app_length in Eo. cbn [length] in Eo. lia.
    - exists x00. split; [reflexivity|]. assert (Gc : (length c < W)%nat) by (apply Nat.nle_gt; intros X; apply Hi in X; lia).
      destruct (bup_slide_short W c b Gc). now apply rollsum_add_spec. }
  destruct E as (o & -> & Ea). cbn [bind rss_state]. rewrite HR, Ea, at_split_spec.
  destruct (Z.eqb_spec (bup_s2 W (c ++ [b]) mod 8192) 8191) as [G|G].
  - left. split; [exact G|]. eexists. split; [reflexivity|]. split; [apply rollsum_new_spec|reflexivity].
  - right. split; [exact G|]. eexists. split; [reflexivity|]. reflexivity.
Qed.

Lemma bup_find_ok : forall W, find_ok (rollsum_find_chunk_edge W) (ends_at (per_chunk (bup_rule W))) any_length W
  (window_rel rss_offset W (bup_rel W)).
Proof.
  intros W. exact (window_find_ok (rollsum_fce_body W) rss_offset
    (fun n s => {| rss_state := rss_state s; rss_offset := n |}) W _ any_length (bup_rel W)
    (bup_window_step W) any_length_down (fun n s => eq_refl) (fun n s h c H => H)).
Qed.

Lemma bup_search_rel : forall W, window_rel rss_offset W (bup_rel W) (rollsum_search_new W) [] [] 0.
Proof. intros W. split; [apply rollsum_new_spec|]. split; reflexivity. Qed.

Lemma bup_chunk_conforms : forall W shrink,
  chunk_conforms shrink (rollsum_chunk W) (ends_at (per_chunk (bup_rule W))) any_length W.
Proof.
  intros W shrink.
  exact (chunk_conforms_of shrink (rollsum_chunk W) _ _ _ _ (ends_at_laws _) (ends_at_progressive _) (ends_at_local _)
    any_length_down (bup_find_ok W) (bup_search_rel W)).
Qed.

(** ** Incremental, power-of-two windows *)

(** The window as if the stream had been preceded by zeros. *)
Definition padded (W : nat) (t : list byte) : list byte := lastn W (repeat x00 W ++ t).

Lemma padded_nil : forall W, padded W [] = repeat x00 W.
Proof. intros W. unfold padded. rewrite app_nil_r. apply lastn_all. rewrite repeat_length. lia. Qed.

Lemma padded_snoc : forall W t b o r, (1 <= W)%nat -> padded W t = o :: r -> padded W (t ++ [b]) = r ++ [b].
Proof.
  intros W t b o r HW H. unfold padded in *. rewrite app_assoc.
  destruct (lastn_snoc_full _ W (repeat x00 W ++ t) b) as (o' & E1 & E2 & E3).
  - rewrite app_length, repeat_length. lia.
  - rewrite E3. rewrite H in E2. inversion E2. reflexivity.
Qed.

(** The byte dropped by the ring is the one leaving the window, or a zero. *)
Lemma padded_head : forall W t o r, (1 <= W)%nat -> padded W t = o :: r ->
  ((length t < W)%nat /\ o = x00) \/ ((W <= length t)%nat /\ forall b, nth_error (t ++ [b]) (length t - W) = Some o).
Proof.
  intros W t o r HW H. unfold padded in H.
  destruct (lastn_snoc_full _ W (repeat x00 W ++ t) x00) as (o' & E1 & E2 & E3).
  - rewrite app_length, repeat_length. lia.
  - rewrite H in E2. inversion E2. subst o'. clear E2 E3.
    rewrite app_length, repeat_length in E1. replace (W + length t - W)%nat with (length t) in E1 by lia.
    destruct (Nat.lt_ge_cases (length t) W) as [G|G].
    + left. split; [exact G|]. rewrite nth_error_app1 in E1 by (now rewrite repeat_length).
      now apply nth_error_In, repeat_spec in E1.
    + right. split; [exact G|]. intros b. rewrite nth_error_app2 in E1 by (now rewrite repeat_length).
      rewrite repeat_length in E1. rewrite nth_error_app1 by lia. exact E1.
Qed.

Definition bup_incr_rel (W : nat) (s : RollSumIncr) (t : list byte) : Prop :=
  rsi_state s = rs_of W t /\ length (rsi_window s) = W /\ ring_ok (rsi_window s) (rsi_wofs s) (padded W t).

Lemma land_pow2_next : forall k o, (o < 2 ^ k)%nat ->
  Nat.land (o + 1) (2 ^ k - 1) = if Nat.eqb (o + 1) (2 ^ k) then 0%nat else (o + 1)%nat.
Proof.
  intros k o H. rewrite <- next_mod by exact H. rewrite <- Nat.land_ones. f_equal.
  rewrite Nat.ones_equiv. lia.
Qed.

Lemma roll_byte_spec : forall k s t b, bup_incr_rel (2 ^ k) s t ->
  exists s', roll_byte s b = Ok s' /\ bup_incr_rel (2 ^ k) s' (t ++ [b]).
Proof.
  intros k s t b (Es & Lw & Hr). set (W := (2 ^ k)%nat) in *.
  assert (HW : (1 <= W)%nat) by (apply Nat.neq_0_lt_0, Nat.pow_nonzero; lia).
  destruct (ring_step _ _ _ _ b Hr) as (o & r & win' & Ev & Ei & Est & Lw' & Hr').
  unfold roll_byte. rewrite Ei, Est. cbn [bind]. unfold sub_usize.
  replace (Nat.leb 1 (length win')) with true by (symmetry; apply Nat.leb_le; lia). cbn [bind].
  eexists. split; [reflexivity|]. split; [|split].
  - cbn [rsi_state]. rewrite Lw, Es. destruct (padded_head W t o r HW Ev) as [[G ->]|[G Hn]].
    + destruct (bup_slide_short W t b G). now apply rollsum_add_spec.
    + destruct (bup_slide_full W t b o G (Hn b)). now apply rollsum_add_spec.
  - cbn [rsi_window]. lia.
  - cbn [rsi_window rsi_wofs]. rewrite (padded_snoc W t b o r HW Ev).
    rewrite Lw', Lw. unfold W at 1. rewrite land_pow2_next.
    + fold W. rewrite Lw in Hr'. exact Hr'.
    + fold W. destruct Hr as [Ho _]. lia.
Qed.

Lemma bup_new_rel : forall k, bup_incr_rel (2 ^ k) (rollsum_incr_new (2 ^ k)) [].
Proof.
  intros k. split; [apply rollsum_new_spec|]. cbn [rollsum_incr_new rsi_window rsi_wofs].
  split; [apply repeat_length|]. split.
  - rewrite repeat_length. apply Nat.neq_0_lt_0, Nat.pow_nonzero. lia.
  - cbn [skipn firstn]. rewrite app_nil_r. symmetry. apply padded_nil.
Qed.

Lemma bup_incr_step : forall k, step_ok rollsum_push_body 1 (per_stream (bup_rule (2 ^ k))) any_length
  (fun _ s h c => bup_incr_rel (2 ^ k) s (h ++ c)) (fun s h c => bup_incr_rel (2 ^ k) s ((h ++ c) ++ [])).
Proof.
  intros k i s h c b HR _. unfold per_stream, bup_rule, rollsum_push_body.
  destruct (roll_byte_spec k s (h ++ c) b HR) as (s' & E & HR'). rewrite E. cbn [bind].
  rewrite <- app_assoc in HR'. assert (Es := proj1 HR'). unfold rollsum_incr_at_split. rewrite Es, at_split_spec.
  destruct (Z.eqb_spec (bup_s2 (2 ^ k) (h ++ c ++ [b]) mod 8192) 8191) as [G|G].
  - left. split; [exact G|]. eexists. split; [reflexivity|]. now rewrite app_nil_r.
  - right. split; [exact G|]. eexists. split; [reflexivity|]. exact HR'.
Qed.

Lemma bup_push_ok : forall k, push_ok 0 rollsum_push (ends_at (per_stream (bup_rule (2 ^ k)))) any_length
  (fun s h c => bup_incr_rel (2 ^ k) s (h ++ c)).
Proof.
  intros k. apply (scan_push_at _ rollsum_push_body 1); [lia|apply any_length_down|]. apply bup_incr_step.
Qed.

Lemma bup_incr_conforms : forall k, incr_conforms 0 (rollsum_incr (2 ^ k)) (ends_at (per_stream (bup_rule (2 ^ k)))) any_length.
Proof.
  intros k. exact (incr_conforms_of 0 (rollsum_incr (2 ^ k)) _ _ _ (ends_at_laws _) (ends_at_progressive _) any_length_down
    (bup_push_ok k) (bup_new_rel k)).
Qed.
Lemma bup_incr_prompt : forall k, incr_prompt 0 (rollsum_incr (2 ^ k)) (ends_at (per_stream (bup_rule (2 ^ k)))) any_length.
Proof.
  intros k. exact (incr_prompt_of 0 (rollsum_incr (2 ^ k)) _ _ _ (ends_at_laws _) (ends_at_local _) any_length_down
    (bup_push_ok k) (bup_new_rel k)).
Qed.

(** [roll_byte] from a fresh value: the digest is that of the last [W] bytes. *)
Lemma roll_bytes_rel : forall k data s t, bup_incr_rel (2 ^ k) s t ->
  exists s', roll_bytes s data = Ok s' /\ bup_incr_rel (2 ^ k) s' (t ++ data).
Proof.
  intros k data. induction data as [|b data IH]; intros s t HR.
  - exists s. rewrite app_nil_r. now split.
  - cbn [roll_bytes]. destruct (roll_byte_spec k s t b HR) as (s' & -> & HR'). cbn [bind].
    destruct (IH s' _ HR') as (s2 & -> & HR2). exists s2. rewrite <- app_assoc in HR2. now split.
Qed.
