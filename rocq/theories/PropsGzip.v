(** * PropsGzip: C21 - C23. *)

From Verif Require Import Base Api Spec Lists Contract CutFacts Gzip GzipProofs.
From Verif Require Import Builtin BuiltinProofs StateFacts Agree CutProps Cases.

(** ** C21 *)
Theorem C21_gzip_edges : forall w m shrink, 0 < m ->
  chunk_conforms shrink (gzip_chunk (gzip_with_window_and_modulus w m)) (ends_at (per_chunk (gzip_rule w m))) any_length w.
Proof. intros w m shrink Hm. exact (gzip_chunk_conforms (gzip_with_window_and_modulus w m) shrink Hm). Qed.
Print Assumptions C21_gzip_edges.

(** Window 2, modulus 5.  A chunk longer than the window ends at 6, where 4 + 1 is the sum of the last two bytes. *)
Example C21_case : let data := [x01; x02; x01; x02; x04; x01; x03; x02; x09] in
  cuts_seen (run_chunk false (gzip_chunk (gzip_with_window_and_modulus 2 5)) data (drain data)) = Some [6; 8]%nat /\
  cuts_seen (run_chunk true (gzip_chunk (gzip_with_window_and_modulus 2 5)) data (repeat 3%nat 12)) = Some [6; 8]%nat.
Proof. split; vm_compute; reflexivity. Qed.

(** ** C22 *)
Theorem C22_gzip_push : forall w m, (1 <= w)%nat -> 0 < m ->
  incr_conforms 0 (gzip_incr (gzip_with_window_and_modulus w m)) (ends_at (per_chunk (gzip_rule w m))) any_length /\
  incr_prompt 0 (gzip_incr (gzip_with_window_and_modulus w m)) (ends_at (per_chunk (gzip_rule w m))) any_length.
Proof.
  intros w m Hw Hm.
  exact (conj (gzip_incr_conforms (gzip_with_window_and_modulus w m) Hm Hw) (gzip_incr_prompt (gzip_with_window_and_modulus w m) Hm Hw)).
Qed.
Print Assumptions C22_gzip_push.

Theorem C22_gzip_window : forall w m data sched r, (1 <= w)%nat -> 0 < m ->
  run_incr 0 (gzip_incr (gzip_with_window_and_modulus w m)) data sched = Ok r -> (length (gzi_window (r_state r)) <= w)%nat.
Proof. intros w m data sched r Hw Hm E. exact (gzip_window_bound (gzip_with_window_and_modulus w m) data sched r Hm Hw E). Qed.
Print Assumptions C22_gzip_window.

(** The two APIs, any two complete runs. *)
Theorem C22_gzip_agree : forall w m sh data sched1 sched2 r1 r2, (1 <= w)%nat -> 0 < m < 2 ^ 64 -> stream_len (length data) ->
  run_incr 0 (gzip_incr (gzip_with_window_and_modulus w m)) data (sched1 ++ drain data) = Ok r1 ->
  run_chunk sh (gzip_chunk (gzip_with_window_and_modulus w m)) data (sched2 ++ drain data) = Ok r2 -> r_cuts r1 = r_cuts r2.
Proof.
  intros w m sh data sched1 sched2 r1 r2 Hw Hm Hl E1 E2.
  exact (agree_all (CfgGzip w m) _ _ (gzip_rule w m) sh data sched1 sched2 r1 r2 (conj (Z.lt_le_incl _ _ (proj1 Hm)) (proj2 Hm)) (conj Hw (proj1 Hm))
           eq_refl eq_refl eq_refl Hl E1 E2 I).
Qed.
Print Assumptions C22_gzip_agree.

Example C22_case : let data := [x01; x02; x01; x02; x04; x01; x03; x02; x09] in
  cuts_seen (run_incr 0 (gzip_incr (gzip_with_window_and_modulus 2 5)) data (drain data)) = Some [6; 8]%nat /\
  cuts_seen (run_incr 0 (gzip_incr (gzip_with_window_and_modulus 2 5)) data ([4; 0; 1]%nat ++ drain data)) = Some [6; 8]%nat /\
  match run_incr 0 (gzip_incr (gzip_with_window_and_modulus 2 5)) data [5]%nat with Ok r => gzi_window (r_state r) = [x02; x04] | _ => False end.
Proof. repeat split; vm_compute; reflexivity. Qed.

(** ** C23: false for window 0 and for modulus 0, both accepted by the constructor *)
Theorem C23_gzip_no_panic_refuted :
  (exists m data, 0 < m /\ gzip_push (gzip_with_window_and_modulus 0 m) gzip_incr_new data = Panic) /\
  (exists w data, (1 <= w)%nat /\ gzip_push (gzip_with_window_and_modulus w 0) gzip_incr_new data = Panic) /\
  (exists w data, (1 <= w)%nat /\ gzip_find_chunk_edge (gzip_with_window_and_modulus w 0) gzip_search_default data = Panic).
Proof.
  split; [exists 1, [x01]|split; exists 1%nat, [x01]]; split; try lia; reflexivity.
Qed.
Print Assumptions C23_gzip_no_panic_refuted.

(** Exactly which configurations are safe for [push], and which for [find_chunk_edge], whoever the caller is. *)
Theorem C23_gzip_push_partial : forall w m, 0 <= m ->
  ((forall data sched, exists r, run_incr 0 (gzip_incr (gzip_with_window_and_modulus w m)) data sched = Ok r) <-> (1 <= w)%nat /\ 0 < m).
Proof.
  intros w m Hm. split.
  - intros H. destruct (H [x01] [1%nat]) as [r E]. destruct w as [|w]; [discriminate E|]. split; [lia|].
    destruct (Z.eq_dec m 0) as [->|]; [|lia]. discriminate E.
  - intros [Hw Hm'] data sched. destruct (proj1 (C22_gzip_push w m Hw Hm') data I) as (cs & _ & H).
    destruct (H sched) as [(r & later & E & _) _]. exists r. exact E.
Qed.
Print Assumptions C23_gzip_push_partial.

Theorem C23_gzip_edge_partial : forall w m, 0 <= m ->
  ((forall sh data sched, exists r, run_chunk sh (gzip_chunk (gzip_with_window_and_modulus w m)) data sched = Ok r) <-> 0 < m).
Proof.
  intros w m Hm. split.
  - intros H. destruct (H false [x01] [1%nat]) as [r E]. destruct (Z.eq_dec m 0) as [->|]; [|lia]. exfalso.
    destruct w; discriminate E.
  - intros Hm' sh data sched. destruct (C21_gzip_edges w m sh Hm' data I) as (cs & _ & H).
    destruct (H sched) as [(r & E & _) _]. exists r. exact E.
Qed.
Print Assumptions C23_gzip_edge_partial.
