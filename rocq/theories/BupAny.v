(** * BupAny: RollSumIncr with any window of at least one byte. *)

From Coq Require Import Pnat NArith Nnat.
From Verif Require Import Base Api Spec Lists Contract Step Window Words Ring Bup BupProofs.

(** ** [low_bit] *)
Lemma low_bit_pos_spec : forall p, exists k m, Pos.to_nat p = (2 ^ k * (2 * m + 1))%nat /\ Pos.to_nat (low_bit_pos p) = (2 ^ k)%nat.
Proof.
  induction p as [p IH|p IH|].
  - exists 0%nat, (Pos.to_nat p). rewrite Pos2Nat.inj_xI. cbn [Nat.pow low_bit_pos]. split; [lia|reflexivity].
  - destruct IH as (k & m & E1 & E2). exists (S k), m. cbn [low_bit_pos]. rewrite !Pos2Nat.inj_xO, E1, E2. rewrite Nat.pow_succ_r'. split; lia.
  - exists 0%nat, 0%nat. split; reflexivity.
Qed.

Lemma low_bit_spec : forall w, (1 <= w)%nat -> exists k m, w = (2 ^ k * (2 * m + 1))%nat /\ low_bit w = (2 ^ k)%nat.
Proof.
  intros w H. unfold low_bit. destruct (N.of_nat w) as [|p] eqn:E; [apply (f_equal N.to_nat) in E; rewrite Nat2N.id in E; cbn in E; lia|].
  destruct (low_bit_pos_spec p) as (k & m & E1 & E2). exists k, m. split; [|exact E2].
  rewrite <- E1. apply (f_equal N.to_nat) in E. rewrite Nat2N.id in E. exact E.
Qed.

Lemma low_bit_pow2 : forall k, low_bit (2 ^ k) = (2 ^ k)%nat.
Proof.
  intros k. assert (H : (1 <= 2 ^ k)%nat) by (apply Nat.neq_0_lt_0, Nat.pow_nonzero; lia).
  destruct (low_bit_spec _ H) as (j & m & E1 & E2). rewrite E2.
  (* 2^k = 2^j * odd, so the odd factor is 1 *)
  assert (m = 0)%nat; [|subst m; lia].
  destruct (Nat.le_gt_cases k j) as [G|G].
  - assert (X := Nat.pow_le_mono_r 2 k j ltac:(lia) G). nia.
  - exfalso. replace k with (j + S (k - j - 1))%nat in E1 by lia. rewrite Nat.pow_add_r, Nat.pow_succ_r' in E1.
    assert (P : (2 ^ j <> 0)%nat) by (apply Nat.pow_nonzero; lia).
    apply Nat.mul_cancel_l in E1; [|exact P]. lia.
Qed.

Lemma low_bit_bounds : forall w, (1 <= w)%nat -> (1 <= low_bit w <= w)%nat.
Proof.
  intros w H. destruct (low_bit_spec w H) as (k & m & E1 & E2). rewrite E2. 
  assert (P : (2 ^ k <> 0)%nat) by (apply Nat.pow_nonzero; lia). rewrite E1. nia.
Qed.

(** The step of the write position. *)
Lemma land_low_bit : forall w o, (1 <= w)%nat -> (o < low_bit w)%nat ->
  Nat.land (o + 1) (w - 1) = if Nat.eqb (o + 1) (low_bit w) then 0%nat else (o + 1)%nat.
Proof.
  intros w o H Ho. destruct (low_bit_spec w H) as (k & m & E1 & E2). rewrite E2 in *. clear E2.
  assert (P : (2 ^ k <> 0)%nat) by (apply Nat.pow_nonzero; lia).
  rewrite <- next_mod by exact Ho. rewrite <- Nat.land_ones. 
  apply Nat.bits_inj. intros i. rewrite !Nat.land_spec.
  destruct (Nat.testbit (o + 1) i) eqn:T; [|reflexivity]. cbn [andb].
  (* a set bit of [o+1] is at most at position [k] *)
  assert (Hi : (i <= k)%nat).
  { destruct (Nat.le_gt_cases i k) as [G|G]; [exact G|]. exfalso. rewrite Nat.bits_above_log2 in T; [discriminate|].
    apply Nat.log2_lt_pow2; [lia|]. apply (Nat.le_lt_trans _ (2 ^ k)); [lia|]. apply Nat.pow_lt_mono_r; lia. }
  assert (Ew : (w - 1 = (2 ^ k - 1) + m * 2 ^ (S k))%nat) by (rewrite Nat.pow_succ_r'; nia).
  assert (T1 : Nat.testbit (w - 1) i = Nat.testbit (2 ^ k - 1) i).
  { assert (X : ((w - 1) mod 2 ^ (S k) = 2 ^ k - 1)%nat).
    { rewrite Ew, Nat.mod_add by (apply Nat.pow_nonzero; lia). apply Nat.mod_small. rewrite Nat.pow_succ_r'. lia. }
    rewrite <- X. rewrite Nat.mod_pow2_bits_low by lia. reflexivity. }
  rewrite T1. f_equal. rewrite Nat.ones_equiv. lia.
Qed.

(** ** The sums *)
Lemma byte_sum_older : forall L c, byte_sum (skipn L (rev c)) = byte_sum c - byte_sum (firstn L (rev c)).
Proof.
  intros L c. assert (X := f_equal byte_sum (firstn_skipn L (rev c))). rewrite byte_sum_app, byte_sum_rev in X. lia.
Qed.

Definition rsi_of (W : nat) (c : list byte) : RollSumState :=
  {| rs_s1 := bup_incr_s1 W c mod 2 ^ 32; rs_s2 := bup_incr_s2 W c mod 2 ^ 32 |}.

Lemma bup_incr_slide : forall W c b o, let L := low_bit W in
  bup_s1 L (c ++ [b]) = bup_s1 L c + b2z b - b2z o ->
  bup_s2 L (c ++ [b]) = bup_s2 L c + bup_s1 L (c ++ [b]) - Z.of_nat L * (b2z o + 31) ->
  rollsum_add W o b (rsi_of W c) = rsi_of W (c ++ [b]).
Proof.
  intros W c b o L E1 E2. unfold rollsum_add, rsi_of, ROLLSUM_CHAR_OFFSET. cbn [rs_s1 rs_s2]. unfold wrap32, two32.
  assert (F1 : bup_incr_s1 W (c ++ [b]) = bup_incr_s1 W c + b2z b - b2z o).
  { unfold bup_s1 in E1. unfold bup_incr_s1. fold L. lia. }
  assert (F2 : bup_incr_s2 W (c ++ [b]) = bup_incr_s2 W c + bup_incr_s1 W (c ++ [b]) - Z.of_nat W * (b2z o + 31)).
  { unfold bup_s1 in E1. unfold bup_s2, bup_s1 in E2. unfold bup_incr_s2, bup_incr_s1. fold L. rewrite !byte_sum_older, byte_sum_app.
    cbn [byte_sum].
    set (A := byte_sum (firstn L (rev c))) in *. set (A' := byte_sum (firstn L (rev (c ++ [b])))) in *.
    set (B := aged_sum 0 (firstn L (rev c))) in *. set (B' := aged_sum 0 (firstn L (rev (c ++ [b])))) in *.
    replace A' with (A + b2z b - b2z o) in * by lia.
    replace B' with (B + (A + b2z b - b2z o) - Z.of_nat L * b2z o) by lia. ring. }
  rewrite F2, F1. f_equal; solve_mod.
Qed.

Lemma rollsum_new_any : forall W, rollsum_state_new W = rsi_of W [].
Proof.
  intros W. unfold rollsum_state_new, rsi_of, bup_incr_s1, bup_incr_s2, ROLLSUM_CHAR_OFFSET, wrap32, two32. cbn [rev].
  rewrite firstn_nil, skipn_nil. cbn [byte_sum aged_sum]. f_equal; solve_mod.
Qed.

Lemma digest_any : forall W c, rollsum_digest (rsi_of W c) = bup_incr_digest W c.
Proof.
  intros W c. unfold rollsum_digest, bup_incr_digest, rsi_of. cbn [rs_s1 rs_s2]. unfold wrap32, two32.
  change 0xffff with (2 ^ 16 - 1). rewrite land_mask, mod_mod_pow2 by lia.
  set (x := bup_incr_s1 W c). set (y := bup_incr_s2 W c mod 2 ^ 16).
  assert (E : Z.shiftl (x mod 2 ^ 32) 16 mod 2 ^ 32 = x mod 2 ^ 16 * 2 ^ 16).
  { rewrite Z.shiftl_mul_pow2 by lia. replace (2 ^ 32) with (2 ^ 16 * 2 ^ 16) at 2 by reflexivity.
    rewrite Zmult_mod_distr_r. now rewrite mod_mod_pow2 by lia. }
  rewrite E. assert (Hy : 0 <= y < 2 ^ 16) by (apply Z.mod_pos_bound; reflexivity).
  generalize (x mod 2 ^ 16) as a. intros a.
  rewrite <- Z.shiftl_mul_pow2 by lia.
  rewrite <- Z.lxor_lor, <- Z.add_nocarry_lxor; auto.
  all: apply Z.bits_inj'; intros i Hi; rewrite Z.land_spec, Z.bits_0;
    destruct (Z.lt_ge_cases i 16) as [G|G];
    [rewrite Z.shiftl_spec_low by lia; reflexivity|];
    replace y with (y mod 2 ^ 16) by (now apply Z.mod_small);
    rewrite Z.mod_pow2_bits_high by lia; apply andb_false_r.
Qed.

Lemma at_split_any : forall W c, rollsum_at_split (rsi_of W c) = (bup_incr_s2 W c mod 8192 =? 8191).
Proof.
  intros W c. unfold rollsum_at_split. rewrite digest_any. change (BLOBSIZE - 1) with (2 ^ 13 - 1).
  rewrite land_mask by lia. change 8191 with (2 ^ 13 - 1). f_equal.
  unfold bup_incr_digest. change 8192 with (2 ^ 13).
  replace (bup_incr_s1 W c mod 2 ^ 16 * 2 ^ 16) with ((bup_incr_s1 W c mod 2 ^ 16 * 2 ^ 3) * 2 ^ 13) by ring.
  rewrite Z.add_comm, Z_mod_plus_full. now apply mod_mod_pow2.
Qed.

(** With a power-of-two window these are the sums of the window. *)
Lemma bup_incr_pow2 : forall k c, bup_incr_s1 (2 ^ k) c = bup_s1 (2 ^ k) c /\ bup_incr_s2 (2 ^ k) c = bup_s2 (2 ^ k) c.
Proof. intros k c. unfold bup_incr_s1, bup_incr_s2, bup_s1, bup_s2. rewrite low_bit_pow2. split; ring. Qed.

Lemma bup_incr_digest_pow2 : forall k c, bup_incr_digest (2 ^ k) c = bup_digest (2 ^ k) c.
Proof. intros k c. unfold bup_incr_digest, bup_digest. destruct (bup_incr_pow2 k c) as [-> ->]. reflexivity. Qed.

Lemma bup_incr_rule_pow2 : forall k c, bup_incr_rule (2 ^ k) c <-> bup_rule (2 ^ k) c.
Proof. intros k c. unfold bup_incr_rule, bup_rule. destruct (bup_incr_pow2 k c) as [_ ->]. reflexivity. Qed.

(** ** The ring: only the first [low_bit W] entries are ever used *)
Definition bup_any_rel (W : nat) (s : RollSumIncr) (t : list byte) : Prop :=
  rsi_state s = rsi_of W t /\ length (rsi_window s) = W /\
  ring_ok (firstn (low_bit W) (rsi_window s)) (rsi_wofs s) (padded (low_bit W) t).

Lemma store_firstn : forall A (l : list A) n i b l', store (firstn n l) i b = Ok l' -> exists l2, store l i b = Ok l2 /\ firstn n l2 = l' /\ length l2 = length l.
Proof.
  intros A l n i b l' E. unfold store in *. destruct (Nat.ltb_spec i (length (firstn n l))) as [G|G]; [|discriminate].
  rewrite firstn_length in G. inversion E; subst l'. replace (Nat.ltb i (length l)) with true by (symmetry; apply Nat.ltb_lt; lia).
  exists (set_nth l i b). split; [reflexivity|].
  assert (Hn : (i < n)%nat) by lia. assert (Hl : (i < length l)%nat) by lia. clear G E.
  revert i n Hn Hl. induction l as [|x l IH]; intros i n Hn Hl; [cbn in Hl; lia|].
  destruct n as [|n]; [lia|]. destruct i as [|i]; cbn [set_nth firstn length]; [auto|].
  cbn [length] in Hl. destruct (IH i n ltac:(lia) ltac:(lia)) as [-> ->]. auto.
Qed.

Lemma index_firstn : forall A (l : list A) n i a, index (firstn n l) i = Ok a -> index l i = Ok a.
Proof.
  intros A l n i a E. unfold index in *. destruct (nth_error (firstn n l) i) as [x|] eqn:X; [|discriminate].
  assert (G : (i < length (firstn n l))%nat) by (apply nth_error_Some; congruence). 
  rewrite <- (firstn_skipn n l). rewrite nth_error_app1 by exact G. now rewrite X.
Qed.

Lemma roll_byte_any : forall W s t b, (1 <= W)%nat -> bup_any_rel W s t ->
  exists s', roll_byte s b = Ok s' /\ bup_any_rel W s' (t ++ [b]).
Proof.
  intros W s t b HW (Es & Lw & Hr). assert (HL := low_bit_bounds W HW). set (L := low_bit W) in *.
  assert (Lf : length (firstn L (rsi_window s)) = L) by (rewrite firstn_length; lia).
  destruct (ring_step _ _ _ _ b Hr) as (o & r & win' & Ev & Ei & Est & Lw' & Hr').
  unfold roll_byte. apply index_firstn in Ei. apply store_firstn in Est. destruct Est as (w2 & Est & Ew2 & Lw2).
  rewrite Ei, Est. cbn [bind]. unfold sub_usize.
  replace (Nat.leb 1 (length w2)) with true by (symmetry; apply Nat.leb_le; lia). cbn [bind].
  eexists. split; [reflexivity|]. split; [|split].
  - cbn [rsi_state]. rewrite Lw, Es. destruct (padded_head L t o r ltac:(lia) Ev) as [[G ->]|[G Hn]].
    + destruct (bup_slide_short L t b G). now apply bup_incr_slide.
    + destruct (bup_slide_full L t b o G (Hn b)). now apply bup_incr_slide.
  - cbn [rsi_window]. lia.
  - cbn [rsi_window rsi_wofs]. fold L. rewrite (padded_snoc L t b o r ltac:(lia) Ev). rewrite Ew2.
    replace (length w2) with W by lia. rewrite land_low_bit.
    + fold L. rewrite Lf in Hr'. exact Hr'.
    + exact HW.
    + fold L. destruct Hr as [Ho _]. lia.
Qed.

Lemma bup_any_new : forall W, (1 <= W)%nat -> bup_any_rel W (rollsum_incr_new W) [].
Proof.
  intros W HW. assert (HL := low_bit_bounds W HW). split; [apply rollsum_new_any|]. cbn [rollsum_incr_new rsi_window rsi_wofs].
  split; [apply repeat_length|]. 
  assert (E : firstn (low_bit W) (repeat x00 W) = repeat x00 (low_bit W)).
  { replace W with (low_bit W + (W - low_bit W))%nat at 2 by lia. rewrite repeat_app, firstn_app_le by (rewrite repeat_length; lia).
    apply firstn_all2. rewrite repeat_length. lia. }
  rewrite E. split.
  - rewrite repeat_length. lia.
  - cbn [skipn firstn]. rewrite app_nil_r. symmetry. apply padded_nil.
Qed.

Lemma bup_any_step : forall W, (1 <= W)%nat -> step_ok rollsum_push_body 1 (per_stream (bup_incr_rule W)) any_length
  (fun _ s h c => bup_any_rel W s (h ++ c)) (fun s h c => bup_any_rel W s ((h ++ c) ++ [])).
Proof.
  intros W HW i s h c b HR _. unfold per_stream, bup_incr_rule, rollsum_push_body.
  destruct (roll_byte_any W s (h ++ c) b HW HR) as (s' & E & HR'). rewrite E. cbn [bind].
  rewrite <- app_assoc in HR'. assert (Es := proj1 HR'). unfold rollsum_incr_at_split. rewrite Es, at_split_any.
  destruct (Z.eqb_spec (bup_incr_s2 W (h ++ c ++ [b]) mod 8192) 8191) as [G|G].
  - left. split; [exact G|]. eexists. split; [reflexivity|]. now rewrite app_nil_r.
  - right. split; [exact G|]. eexists. split; [reflexivity|]. exact HR'.
Qed.

Lemma bup_any_push_ok : forall W, (1 <= W)%nat -> push_ok 0 rollsum_push (ends_at (per_stream (bup_incr_rule W))) any_length
  (fun s h c => bup_any_rel W s (h ++ c)).
Proof.
  intros W HW. apply (scan_push_at _ rollsum_push_body 1); [lia|apply any_length_down|]. now apply bup_any_step.
Qed.

Lemma bup_any_conforms : forall W, (1 <= W)%nat -> incr_conforms 0 (rollsum_incr W) (ends_at (per_stream (bup_incr_rule W))) any_length.
Proof.
  intros W HW. exact (incr_conforms_of 0 (rollsum_incr W) _ _ _ (ends_at_laws _) (ends_at_progressive _) any_length_down
    (bup_any_push_ok W HW) (bup_any_new W HW)).
Qed.
Lemma bup_any_prompt : forall W, (1 <= W)%nat -> incr_prompt 0 (rollsum_incr W) (ends_at (per_stream (bup_incr_rule W))) any_length.
Proof.
  intros W HW. exact (incr_prompt_of 0 (rollsum_incr W) _ _ _ (ends_at_laws _) (ends_at_local _) any_length_down
    (bup_any_push_ok W HW) (bup_any_new W HW)).
Qed.

(** ** The digest after any bytes *)
Lemma roll_bytes_any : forall W data s t, (1 <= W)%nat -> bup_any_rel W s t ->
  exists s', roll_bytes s data = Ok s' /\ bup_any_rel W s' (t ++ data).
Proof.
  intros W data. induction data as [|b data IH]; intros s t HW HR.
  - exists s. rewrite app_nil_r. now split.
  - cbn [roll_bytes]. destruct (roll_byte_any W s t b HW HR) as (s' & -> & HR'). cbn [bind].
    destruct (IH s' _ HW HR') as (s2 & -> & HR2). exists s2. rewrite <- app_assoc in HR2. now split.
Qed.

Theorem digest_of_any : forall W data, (1 <= W)%nat ->
  exists s, roll_bytes (rollsum_incr_new W) data = Ok s /\ rollsum_incr_digest s = bup_incr_digest W data.
Proof.
  intros W data HW. destruct (roll_bytes_any W data _ [] HW (bup_any_new W HW)) as (s & E & H). exists s. split; [exact E|].
  unfold rollsum_incr_digest. rewrite (proj1 H). apply digest_any.
Qed.

(** The digest is that of the last [W] bytes, for all histories, exactly for the powers of two. *)
Theorem digest_windowed_iff : forall W,
  (forall data, exists s, roll_bytes (rollsum_incr_new W) data = Ok s /\ rollsum_incr_digest s = bup_digest W data) <->
  exists k, W = (2 ^ k)%nat.
Proof.
  intros W. split.
  - intros H. destruct W as [|W0].
    + destruct (H [x00]) as (s & E & _). discriminate.
    + set (W := S W0) in *. assert (HW : (1 <= W)%nat) by (unfold W; lia).
      destruct (low_bit_spec W HW) as (k & m & E1 & E2). destruct m as [|m]; [exists k; lia|]. exfalso.
      assert (HL := low_bit_bounds W HW).
      (* a 1 followed by as many zeros as the ring holds: the 1 is gone from the ring, not from the window *)
      set (data := x01 :: repeat x00 (low_bit W)).
      destruct (H data) as (s & E & D). destruct (digest_of_any W data HW) as (s' & E' & D'). rewrite E in E'. inversion E'; subst s'.
      rewrite D in D'. assert (Rd : rev data = repeat x00 (low_bit W) ++ [x01]).
      { unfold data. cbn [rev]. f_equal. clear. induction (low_bit W) as [|n IH]; [reflexivity|]. cbn [repeat rev]. rewrite IH. now rewrite <- repeat_cons. }
      assert (Ld : (low_bit W < W)%nat). { assert (P : (2 ^ k <> 0)%nat) by (apply Nat.pow_nonzero; lia). nia. }
      assert (S0 : forall n, byte_sum (repeat x00 n) = 0) by (induction n as [|n IH]; [reflexivity|cbn [repeat byte_sum]; rewrite IH; reflexivity]).
      assert (Q1 : bup_s1 W data = 31 * Z.of_nat W + 1).
      { unfold bup_s1. rewrite Rd, firstn_all2 by (rewrite app_length, repeat_length; cbn [length]; lia).
        rewrite byte_sum_app, S0. reflexivity. }
      assert (Q2 : bup_incr_s1 W data = 31 * Z.of_nat W).
      { unfold bup_incr_s1. rewrite Rd, firstn_app_le by (rewrite repeat_length; lia). rewrite firstn_all2 by (rewrite repeat_length; lia). rewrite S0. ring. }
      unfold bup_digest, bup_incr_digest in D'. rewrite Q1, Q2 in D'.
      assert (B1 := Z.mod_pos_bound (bup_s2 W data) (2 ^ 16) ltac:(lia)). assert (B2 := Z.mod_pos_bound (bup_incr_s2 W data) (2 ^ 16) ltac:(lia)).
      assert (X : (31 * Z.of_nat W + 1) mod 2 ^ 16 = (31 * Z.of_nat W) mod 2 ^ 16) by nia.
      assert (Y : ((31 * Z.of_nat W + 1) - 31 * Z.of_nat W) mod 2 ^ 16 = 0) by (rewrite Zminus_mod, X, Z.sub_diag; reflexivity).
      replace (31 * Z.of_nat W + 1 - 31 * Z.of_nat W) with 1 in Y by ring. discriminate.
  - intros [k ->] data. destruct (digest_of_any (2 ^ k) data) as (s & E & D).
    + apply Nat.neq_0_lt_0, Nat.pow_nonzero. lia.
    + exists s. split; [exact E|]. rewrite D. apply bup_incr_digest_pow2.
Qed.
