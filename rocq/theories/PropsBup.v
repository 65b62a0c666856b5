(** * PropsBup: C28 - C32. *)

From Verif Require Import Base Api Spec Lists Contract CutFacts Bup BupProofs BupAny.
From Verif Require Import Builtin BuiltinProofs Agree CutProps Cases.

(** Nine bytes whose first eight have the digest condition with a window of eight, and so have the last eight. *)
Definition bup_demo : list byte := [xa7; xd2; xc0; xfa; x5f; x52; xbe; xf1; x4c].

(** ** C28 *)
Theorem C28_digest_windowed : forall k data,
  exists s, roll_bytes (rollsum_incr_new (2 ^ k)) data = Ok s /\ rollsum_incr_digest s = bup_digest (2 ^ k) data.
Proof. intros k. exact (proj2 (digest_windowed_iff (2 ^ k)) (ex_intro _ k eq_refl)). Qed.
Print Assumptions C28_digest_windowed.

(** So bytes older than the window have no influence. *)
Theorem C28_digest_forgets : forall k a1 a2 b s1 s2, (2 ^ k <= length b)%nat ->
  roll_bytes (rollsum_incr_new (2 ^ k)) (a1 ++ b) = Ok s1 -> roll_bytes (rollsum_incr_new (2 ^ k)) (a2 ++ b) = Ok s2 ->
  rollsum_incr_digest s1 = rollsum_incr_digest s2.
Proof.
  intros k a1 a2 b s1 s2 Hb E1 E2.
  destruct (C28_digest_windowed k (a1 ++ b)) as (t1 & F1 & D1). destruct (C28_digest_windowed k (a2 ++ b)) as (t2 & F2 & D2).
  assert (X1 : t1 = s1) by congruence. assert (X2 : t2 = s2) by congruence. subst t1 t2. rewrite D1, D2.
  unfold bup_digest, bup_s1, bup_s2. rewrite !rev_app_distr, !firstn_app.
  replace (2 ^ k - length (rev b))%nat with 0%nat by (rewrite rev_length; lia). reflexivity.
Qed.
Print Assumptions C28_digest_forgets.

Example C28_case : match roll_bytes (rollsum_incr_new (2 ^ 3)) bup_demo with Ok s => rollsum_incr_digest s | _ => 0 end = bup_digest 8 bup_demo /\
  bup_digest 8 bup_demo mod 2 ^ 16 <> 0 /\ bup_digest 8 bup_demo <> bup_digest 8 (removelast bup_demo).
Proof. repeat split; vm_compute; first [reflexivity | discriminate]. Qed.

(** ** C29: false for every window that is not a power of two *)
Theorem C29_digest_any_refuted : exists W data s, (1 <= W)%nat /\
  roll_bytes (rollsum_incr_new W) data = Ok s /\ rollsum_incr_digest s <> bup_digest W data.
Proof.
  exists 3%nat, [x01; x02]. destruct (roll_bytes (rollsum_incr_new 3) [x01; x02]) as [s| |] eqn:E; vm_compute in E; try discriminate E.
  exists s. split; [lia|]. split; [reflexivity|]. injection E as <-. vm_compute. discriminate.
Qed.
Print Assumptions C29_digest_any_refuted.

Theorem C29_no_window_refuted : roll_byte (rollsum_incr_new 0) x00 = Panic.
Proof. reflexivity. Qed.
Print Assumptions C29_no_window_refuted.

Theorem C29_digest_iff_partial : forall W,
  (forall data, exists s, roll_bytes (rollsum_incr_new W) data = Ok s /\ rollsum_incr_digest s = bup_digest W data) <->
  exists k, W = (2 ^ k)%nat.
Proof. exact digest_windowed_iff. Qed.
Print Assumptions C29_digest_iff_partial.

(** What the digest is for the other windows; in particular [roll_byte] never panics. *)
Theorem C29_digest_any_partial : forall W data, (1 <= W)%nat ->
  exists s, roll_bytes (rollsum_incr_new W) data = Ok s /\ rollsum_incr_digest s = bup_incr_digest W data.
Proof. exact digest_of_any. Qed.
Print Assumptions C29_digest_any_partial.

Example C29_case : match roll_bytes (rollsum_incr_new 6) bup_demo with Ok s => rollsum_incr_digest s | _ => 0 end = bup_incr_digest 6 bup_demo /\
  bup_incr_digest 6 bup_demo <> bup_digest 6 bup_demo.
Proof. split; vm_compute; first [reflexivity | discriminate]. Qed.

(** ** C30 *)
Theorem C30_rollsum_edges : forall W shrink,
  chunk_conforms shrink (rollsum_chunk (rollsum_with_window W)) (ends_at (per_chunk (bup_rule W))) any_length W.
Proof. exact bup_chunk_conforms. Qed.
Print Assumptions C30_rollsum_edges.

Example C30_case :
  cuts_seen (run_chunk false (rollsum_chunk 8) (bup_demo ++ bup_demo) (drain (bup_demo ++ bup_demo))) = Some [8; 17]%nat /\
  cuts_seen (run_chunk true (rollsum_chunk 8) (bup_demo ++ bup_demo) (repeat 9%nat 20)) = Some [8; 17]%nat.
Proof. split; vm_compute; reflexivity. Qed.

(** ** C31 *)
Theorem C31_rollsum_push : forall k,
  incr_conforms 0 (rollsum_incr (rollsum_with_window (2 ^ k))) (ends_at (per_stream (bup_rule (2 ^ k)))) any_length /\
  incr_prompt 0 (rollsum_incr (rollsum_with_window (2 ^ k))) (ends_at (per_stream (bup_rule (2 ^ k)))) any_length.
Proof. intros k. exact (conj (bup_incr_conforms k) (bup_incr_prompt k)). Qed.
Print Assumptions C31_rollsum_push.

(** Every window of at least one byte, with the condition of C29. *)
Theorem C31_rollsum_push_any : forall W, (1 <= W)%nat ->
  incr_conforms 0 (rollsum_incr (rollsum_with_window W)) (ends_at (per_stream (bup_incr_rule W))) any_length /\
  incr_prompt 0 (rollsum_incr (rollsum_with_window W)) (ends_at (per_stream (bup_incr_rule W))) any_length.
Proof. intros W HW. exact (conj (bup_any_conforms W HW) (bup_any_prompt W HW)). Qed.
Print Assumptions C31_rollsum_push_any.

Example C31_case :
  cuts_seen (run_incr 0 (rollsum_incr 8) (bup_demo ++ bup_demo) (drain (bup_demo ++ bup_demo))) = Some [8; 9; 17; 18]%nat /\
  cuts_seen (run_incr 0 (rollsum_incr 8) (bup_demo ++ bup_demo) (repeat 1%nat 18)) = Some [8; 9; 17; 18]%nat.
Proof. split; vm_compute; reflexivity. Qed.

(** ** C32: false when two cuts are closer together than the window *)
Theorem C32_rollsum_agree_refuted : exists k data r1 r2,
  run_incr 0 (rollsum_incr (2 ^ k)) data (drain data) = Ok r1 /\ run_chunk false (rollsum_chunk (2 ^ k)) data (drain data) = Ok r2 /\ r_cuts r1 <> r_cuts r2.
Proof.
  destruct (cuts_seen_inv _ (run_incr 0 (rollsum_incr (2 ^ 3)) bup_demo (drain bup_demo)) [8; 9]%nat ltac:(vm_compute; reflexivity)) as (r1 & E1 & H1).
  destruct (cuts_seen_inv _ (run_chunk false (rollsum_chunk (2 ^ 3)) bup_demo (drain bup_demo)) [8]%nat ltac:(vm_compute; reflexivity)) as (r2 & E2 & H2).
  exists 3%nat, bup_demo, r1, r2. rewrite H1, H2. repeat split; try assumption. discriminate.
Qed.
Print Assumptions C32_rollsum_agree_refuted.

(** They agree when no chunk of either is shorter than the window. *)
Theorem C32_rollsum_agree_partial : forall k sh data sched1 sched2 r1 r2, stream_len (length data) ->
  run_incr 0 (rollsum_incr (2 ^ k)) data (sched1 ++ drain data) = Ok r1 ->
  run_chunk sh (rollsum_chunk (2 ^ k)) data (sched2 ++ drain data) = Ok r2 ->
  Forall (fun n => 2 ^ k <= n)%nat (sizes 0 (r_cuts r1)) -> Forall (fun n => 2 ^ k <= n)%nat (sizes 0 (r_cuts r2)) -> r_cuts r1 = r_cuts r2.
Proof.
  intros k sh data sched1 sched2 r1 r2 Hl E1 E2 H1 H2.
  assert (Hk : (1 <= 2 ^ k)%nat) by (assert (X := Nat.pow_nonzero 2 k ltac:(lia)); lia).
  exact (agree_all (CfgRollSum (2 ^ k)) _ _ (bup_rule (2 ^ k)) sh data sched1 sched2 r1 r2 I Hk eq_refl eq_refl eq_refl Hl E1 E2
           (conj (ex_intro _ k eq_refl) (conj H1 H2))).
Qed.
Print Assumptions C32_rollsum_agree_partial.

Example C32_case : let data := removelast bup_demo ++ removelast bup_demo in
  cuts_seen (run_incr 0 (rollsum_incr 8) data (drain data)) = Some [8; 16]%nat /\
  cuts_seen (run_chunk true (rollsum_chunk 8) data (drain data)) = Some [8; 16]%nat /\ Forall (fun n => 2 ^ 3 <= n)%nat (sizes 0 [8; 16]%nat).
Proof. split; [vm_compute; reflexivity|]. split; [vm_compute; reflexivity|]. repeat constructor; cbn; lia. Qed.
