(** * PropsFastCdc: C24 - C27. *)

From Verif Require Import Base Api Tables Spec Lists Contract CutFacts FastCdc FastCdcProofs FastCdcTotal.
From Verif Require Import Builtin BuiltinProofs Agree CutProps Cases.

(** ** C24 *)
Theorem C24_fastcdc_push : forall g min normal max, length g = 256%nat -> 1 <= min -> normal <= max ->
  incr_conforms 0 (fastcdc_incr (fastcdc_new g min normal max)) (fastcdc_first g min normal max) below_2_64.
Proof.
  intros g min normal max Hg Hm Hn. apply (fc_incr_conforms (fastcdc_new g min normal max)); [|exact Hm].
  split; [exact Hg|]. split; [cbn; lia|exact Hn].
Qed.
Print Assumptions C24_fastcdc_push.

(** Byte 117 has the bits of MASK_L clear, so it ends a chunk after [normal]; otherwise the maximum does. *)
Example C24_case : let p := fastcdc_new GEAR_64 3 3 7 in
  let data := [x00; x00; x00; x75; x00; x00; x00; x00; x00; x00; x00; x00; x00] in
  cuts_seen (run_incr 0 (fastcdc_incr p) data (drain data)) = Some [3; 10]%nat /\
  cuts_seen (run_incr 0 (fastcdc_incr p) data (repeat 1%nat 20)) = Some [3; 10]%nat.
Proof. split; vm_compute; reflexivity. Qed.

(** ** C25: false when [normal_size > max_size]; a slice boundary past [max_size] then ends the chunk *)
Theorem C25_fastcdc_buffering_refuted : exists g min normal max data sched1 sched2 r1 r2, typed (CfgFastCdc g min normal max) /\ 1 <= min /\
  run_incr 0 (fastcdc_incr (fastcdc_new g min normal max)) data (sched1 ++ drain data) = Ok r1 /\
  run_incr 0 (fastcdc_incr (fastcdc_new g min normal max)) data (sched2 ++ drain data) = Ok r2 /\ r_cuts r1 <> r_cuts r2.
Proof.
  set (data := repeat x00 10).
  destruct (cuts_seen_inv _ (run_incr 0 (fastcdc_incr (fastcdc_new GEAR_64 1 8 2)) data ([] ++ drain data)) [8; 10]%nat ltac:(vm_compute; reflexivity)) as (r1 & E1 & H1).
  destruct (cuts_seen_inv _ (run_incr 0 (fastcdc_incr (fastcdc_new GEAR_64 1 8 2)) data ([4]%nat ++ drain data)) [4; 10]%nat ltac:(vm_compute; reflexivity)) as (r2 & E2 & H2).
  exists GEAR_64, 1, 8, 2, data, [], [4]%nat, r1, r2. rewrite H1, H2.
  split; [apply typed_gear64; split; reflexivity || discriminate|]. split; [lia|]. split; [exact E1|]. split; [exact E2|]. discriminate.
Qed.
Print Assumptions C25_fastcdc_buffering_refuted.

(** True when the sizes are in order. *)
Theorem C25_fastcdc_buffering_partial : forall g min normal max data sched1 sched2, length g = 256%nat -> 1 <= min -> normal <= max ->
  below_2_64 (length data) -> exists r1 r2,
  run_incr 0 (fastcdc_incr (fastcdc_new g min normal max)) data (sched1 ++ drain data) = Ok r1 /\
  run_incr 0 (fastcdc_incr (fastcdc_new g min normal max)) data (sched2 ++ drain data) = Ok r2 /\ r_cuts r1 = r_cuts r2.
Proof.
  intros g min normal max data sched1 sched2 Hg Hm Hn Hl. destruct (C24_fastcdc_push g min normal max Hg Hm Hn data Hl) as (cs & _ & H).
  destruct (H sched1) as [_ (r1 & E1 & C1 & _)]. destruct (H sched2) as [_ (r2 & E2 & C2 & _)]. exists r1, r2. rewrite C1, C2. auto.
Qed.
Print Assumptions C25_fastcdc_buffering_partial.

(** ** C26: false for [find_chunk_edge], whose chunks are one byte longer *)
Theorem C26_fastcdc_sizes_refuted : exists g min normal max data sched sh r, typed (CfgFastCdc g min normal max) /\ min <= normal <= max /\
  run_chunk sh (fastcdc_chunk (fastcdc_new g min normal max)) data sched = Ok r /\
  exists n, In n (sizes 0 (r_cuts r)) /\ max < Z.of_nat n.
Proof.
  destruct (cuts_seen_inv _ (run_chunk false (fastcdc_chunk (fastcdc_new GEAR_64 1 2 4)) (repeat x00 5) [5]%nat) [5]%nat ltac:(vm_compute; reflexivity)) as (r & E & H).
  exists GEAR_64, 1, 2, 4, (repeat x00 5), [5]%nat, false, r. split; [apply typed_gear64; split; reflexivity || discriminate|]. split; [lia|]. split; [exact E|].
  exists 5%nat. rewrite H. split; [left; reflexivity|lia].
Qed.
Print Assumptions C26_fastcdc_sizes_refuted.

(** [push] (and so [iter_slices]): never a panic, and the documented bounds, for any slicing. *)
Theorem C26_fastcdc_push_sizes_partial : forall g min normal max data sched, length g = 256%nat -> 0 <= min <= normal -> normal <= max ->
  below_2_64 (length data) -> exists r,
  run_incr 0 (fastcdc_incr (fastcdc_new g min normal max)) data sched = Ok r /\
  Forall (fun n => min <= Z.of_nat n <= max) (sizes 0 (r_cuts r)).
Proof.
  intros g min normal max data sched Hg Hm Hn Hl.
  destruct (fastcdc_incr_total (fastcdc_new g min normal max) data sched Hg (proj1 Hm) Hl) as (r & E & _ & F & _). exists r. split; [exact E|].
  revert F. apply Forall_impl. intros n. unfold fc_cap. cbn. lia.
Qed.
Print Assumptions C26_fastcdc_push_sizes_partial.

(** [find_chunk_edge]: the documented bounds plus one, for every caller that is not made to panic. *)
Theorem C26_fastcdc_edge_sizes_partial : forall g min normal max sh data sched r, length g = 256%nat -> 0 <= min <= normal -> normal <= max ->
  below_2_64 (length data) -> run_chunk sh (fastcdc_chunk (fastcdc_new g min normal max)) data sched = Ok r ->
  Forall (fun n => min + 1 <= Z.of_nat n <= max + 1) (sizes 0 (r_cuts r)).
Proof.
  intros g min normal max sh data sched r Hg Hm Hn Hl E. apply (fc_chunk_sizes (fastcdc_new g min normal max) sh data sched); try assumption.
  - split; [exact Hg|]. split; [exact (proj1 Hm)|exact Hn].
  - cbn. lia.
Qed.
Print Assumptions C26_fastcdc_edge_sizes_partial.

(** Both ends of the range occur. *)
Example C26_case : let p := fastcdc_new GEAR_64 3 3 7 in let data := [x00; x00; x00; x75; x00; x00; x00; x00; x00; x00; x00; x00] in
  cuts_seen (run_incr 0 (fastcdc_incr p) data (drain data)) = Some [3; 10]%nat.
Proof. vm_compute. reflexivity. Qed.

(** ** C27: call by call it is true, from any state *)
Theorem C27_fastcdc_calls : forall p s data,
  fastcdc_find_chunk_edge p s data =
  match fastcdc_state_push p s data with
  | Ok (s', Some k) => Ok (s', (Some (k + 1), k + 1))%nat
  | Ok (s', None) => Ok (s', (None, length data))
  | Panic => Panic
  | Diverge => Diverge
  end.
Proof. intros p s data. unfold fastcdc_find_chunk_edge. destruct (fastcdc_state_push p s data) as [[s' [k|]]| |]; reflexivity. Qed.
Print Assumptions C27_fastcdc_calls.

(** For any buffering it is false: with exactly [max] bytes in the buffer the answer lies past its end. *)
Theorem C27_fastcdc_edges_refuted : exists g min normal max data sh, typed (CfgFastCdc g min normal max) /\ min <= normal <= max /\
  (exists sched r, run_chunk sh (fastcdc_chunk (fastcdc_new g min normal max)) data (sched ++ drain data) = Ok r /\ r_cuts r = [length data]) /\
  (exists sched, run_chunk sh (fastcdc_chunk (fastcdc_new g min normal max)) data (sched ++ drain data) = Panic) /\
  fastcdc_find_chunk_edge (fastcdc_new g min normal max) fastcdc_state_default (firstn 4 data) = Ok (fastcdc_state_default, (Some 5, 5)%nat).
Proof.
  destruct (cuts_seen_inv _ (run_chunk false (fastcdc_chunk (fastcdc_new GEAR_64 1 2 4)) (repeat x00 5) ([] ++ drain (repeat x00 5))) [5]%nat ltac:(vm_compute; reflexivity)) as (r & E & H).
  exists GEAR_64, 1, 2, 4, (repeat x00 5), false. split; [apply typed_gear64; split; reflexivity || discriminate|]. split; [lia|]. split; [|split].
  - exists [], r. auto.
  - exists [4]%nat. apply panics_inv. vm_compute. reflexivity.
  - vm_compute. reflexivity.
Qed.
Print Assumptions C27_fastcdc_edges_refuted.

(** Streams shorter than [max_size]: every caller gets the cuts one past the offsets of the rule of C24. *)
Theorem C27_fastcdc_edges_partial : forall g min normal max shrink, length g = 256%nat -> 0 <= min -> normal <= max ->
  chunk_conforms shrink (fastcdc_chunk (fastcdc_new g min normal max))
    (fun h d m => exists n, m = S n /\ (n < length d)%nat /\ fastcdc_first g min normal max h d n) (fun n => below_2_64 n /\ Z.of_nat n < max) 0.
Proof. intros g min normal max shrink Hg Hm Hn. apply (fc_chunk_conforms shrink (fastcdc_new g min normal max)). repeat split; assumption. Qed.
Print Assumptions C27_fastcdc_edges_partial.

(** Longer streams: as long as the caller does not panic its cuts are right. *)
Theorem C27_fastcdc_long_partial : forall g min normal max shrink data sched r, length g = 256%nat -> 0 <= min -> normal <= max ->
  below_2_64 (length data) -> run_chunk shrink (fastcdc_chunk (fastcdc_new g min normal max)) data sched = Ok r ->
  exists h, cut_path (fun h d m => exists n, m = S n /\ (n < length d)%nat /\ fastcdc_first g min normal max h d n) [] data (r_cuts r) h (skipn (length h) data).
Proof.
  intros g min normal max shrink data sched r Hg Hm Hn Hl E.
  apply (fc_chunk_partial (fastcdc_new g min normal max) shrink data sched r); try assumption. repeat split; assumption.
Qed.
Print Assumptions C27_fastcdc_long_partial.

Example C27_case : let p := fastcdc_new GEAR_64 3 3 20 in let data := [x00; x01; x02; x75; x00; x00; x01; x75; x05] in
  cuts_seen (run_chunk true (fastcdc_chunk p) data (drain data)) = Some [4; 8]%nat /\
  cuts_seen (run_chunk false (fastcdc_chunk p) data (repeat 2%nat 9)) = Some [4; 8]%nat.
Proof. split; vm_compute; reflexivity. Qed.
