(** * PropsIter: C01 - C05, the slice iterators.

    Every theorem is closed by a reference to a proof file; every theorem is followed by a concrete case. *)

From Verif Require Import Base Api Tables Range Spec Lists Contract IterProofs.
From Verif Require Import Mii Ram Gear Pigz Gzip FastCdc Bup BuzHash Zpaq Zstd.
From Verif Require Import Builtin BuiltinProofs IterAll Agree Totality Answers IterOps Cases.

(** ** C01 *)

(** Any implementation of [push], any state of it, any number of calls. *)
Theorem C01_iter_slices_lossless : forall (C : Incr) (chunker : incr_state C) data n out it,
  take_next iter_slices_next n (iter_slices C chunker data) = Ok (out, it) -> concat out ++ snd (into_parts it) = data.
Proof.
  intros C chunker data n out it E. refine (take_next_concat C _ _ n _ out it E).
  intros it1 it2 o E1. apply iter_next_inv in E1. destruct o; [apply E1|]. now destruct E1 as [_ ->].
Qed.
Print Assumptions C01_iter_slices_lossless.

(** The iteration that ended. *)
Theorem C01_iter_slices_complete : forall (C : Incr) (chunker : incr_state C) data fuel out it,
  collect iter_slices_next fuel (iter_slices C chunker data) = Ok (out, it) -> concat out = data /\ snd (into_parts it) = [].
Proof. intros C chunker data fuel out it E. exact (collect_concat C fuel _ _ _ E). Qed.
Print Assumptions C01_iter_slices_complete.

(** Mii with [w = 1] on five bytes, two and three calls; the iteration ends with an incomplete chunk. *)
Example C01_case : exists it2 it4,
  take_next iter_slices_next 2 (iter_slices (mii_incr 1) (mii_incr_new 1) [x05; x06; x01; x07; x00]) = Ok ([[x05; x06]; [x01]], it2) /\
  snd (into_parts it2) = [x07; x00] /\
  collect iter_slices_next 5 (iter_slices (mii_incr 1) (mii_incr_new 1) [x05; x06; x01; x07; x00]) = Ok ([[x05; x06]; [x01]; [x07]; [x00]], it4).
Proof. eexists. eexists. repeat split; reflexivity. Qed.

(** ** C02 *)

(** False as stated: the default Gear32 never finishes on the single byte 0xdf ([next] returns empty slices forever), and
    GzipRsyncable with an empty window panics. *)
Theorem C02_iter_ends_refuted :
  (exists C, incr_of (CfgGear 13) = Ok C /\ gear_with_average_size_log2 13 = gear_default /\
     forall fuel, collect iter_slices_next fuel (iter_slices C (incr_new C) [xdf]) = Diverge) /\
  (exists c C data, typed c /\ incr_of c = Ok C /\ forall fuel, collect iter_slices_next (S fuel) (iter_slices C (incr_new C) data) = Panic).
Proof.
  split.
  - destruct (gear_with_average_size_log2 13) as [p| |] eqn:Ep; try (vm_compute in Ep; discriminate).
    exists (gear_incr p). split; [cbn [incr_of]; now rewrite Ep|]. split; [unfold gear_default; now rewrite Ep|].
    intros fuel. exact (gear_stuck 13 p xdf Ep (gear_small_byte 13 ltac:(lia)) fuel []).
  - exists (CfgGzip 0 1), (gzip_incr (gzip_with_window_and_modulus 0 1)), [x00]. split; [cbn; unfold is_u64; lia|].
    split; [reflexivity|]. intros fuel. reflexivity.
Qed.
Print Assumptions C02_iter_ends_refuted.

(** Exactly the configurations with which every iteration ends without a panic ([iter_good], Builtin.v): all of Mii, Ram,
    PigzRsyncable, BuzHash, Zpaq and Zstd, Gear32 from 25 on, GzipRsyncable with a window and a modulus, RollSum with a
    window, FastCdc unless [min_size = 0] and some byte makes an empty chunk. *)
Theorem C02_iter_ends_partial : forall c C, typed c -> incr_of c = Ok C ->
  ((forall data, stream_len (length data) ->
      exists fuel out it, collect iter_slices_next fuel (iter_slices C (incr_new C) data) = Ok (out, it)) <-> iter_good c).
Proof. exact iter_ends_iff. Qed.
Print Assumptions C02_iter_ends_partial.

Example C02_case : typed (CfgFastCdc GEAR_64 0 8 64) /\ iter_good (CfgFastCdc GEAR_64 0 8 64) /\ ~ iter_good (CfgGear 13) /\ ~ iter_good (CfgRollSum 0).
Proof.
  split; [|split; [|split; cbn; lia]].
  - apply typed_gear64; unfold is_u64; lia.
  - right. split; [lia|]. intros b Hb. rewrite bits_clear_land in Hb. destruct b; vm_compute in Hb; discriminate.
Qed.

(** ** C03 *)

(** Any chunker, any state, any mixture of [next] and [take_rem]: nothing is lost or reordered. *)
Theorem C03_strict_lossless : forall (C : Incr) (chunker : incr_state C) data ops ev it,
  strict_calls ops (iter_slices_strict C chunker data) = Ok (ev, it) ->
  concat (map event_bytes ev) ++ snd (into_parts it) = data.
Proof. intros C chunker data ops ev it E. exact (strict_lossless C ops _ _ _ E). Qed.
Print Assumptions C03_strict_lossless.

(** [next]: a returned slice is exactly what [push] decided to be a chunk; [None] leaves the remainder untouched. *)
Theorem C03_strict_next : forall (C : Incr) (it it' : SliceIter C) o, iter_slices_strict_next it = Ok (it', o) ->
  match o with
  | Some v => it_rem it = v ++ it_rem it' /\ incr_push C (it_chunker it) (it_rem it) = Ok (it_chunker it', Some (length v))
  | None => it_rem it' = it_rem it /\ incr_push C (it_chunker it) (it_rem it) = Ok (it_chunker it', None)
  end.
Proof. exact strict_next_inv. Qed.
Print Assumptions C03_strict_next.

(** [take_rem] and [into_parts]. *)
Theorem C03_strict_remainder : forall (C : Incr) (it : SliceIter C),
  snd (take_rem it) = it_rem it /\ it_rem (fst (take_rem it)) = [] /\ it_chunker (fst (take_rem it)) = it_chunker it /\
  into_parts it = (it_chunker it, it_rem it).
Proof. intros C it. repeat split. Qed.
Print Assumptions C03_strict_remainder.

(** The built-in chunkers: the slices are the complete chunks, the remainder is what follows the last of them, and
    [iter_slices] gives the same slices and then that remainder. *)
Theorem C03_strict_complete_chunks : forall c C, typed c -> incr_of c = Ok C -> iter_sound c -> forall data, stream_len (length data) ->
  exists cs it, cuts_of (iter_first c) [] data cs /\
    collect iter_slices_strict_next (2 + length data) (iter_slices_strict C (incr_new C) data) = Ok (cut_slices 0 cs data, it) /\
    it_rem it = cut_rest 0 cs data.
Proof. exact strict_all. Qed.
Print Assumptions C03_strict_complete_chunks.

Theorem C03_strict_then_rest : forall c C, typed c -> incr_of c = Ok C -> iter_sound c -> forall data, stream_len (length data) ->
  exists full it1 out it2,
    collect iter_slices_strict_next (2 + length data) (iter_slices_strict C (incr_new C) data) = Ok (full, it1) /\
    collect iter_slices_next (2 + length data) (iter_slices C (incr_new C) data) = Ok (out, it2) /\
    out = full ++ match it_rem it1 with [] => [] | r => [r] end.
Proof. exact strict_then_rest. Qed.
Print Assumptions C03_strict_then_rest.

Example C03_case : exists it it',
  strict_calls [OpNext; OpNext; OpTakeRem; OpNext] (iter_slices_strict (mii_incr 2) (mii_incr_new 2) [x05; x06; x07; x01; x00]) =
    Ok ([Got [x05; x06; x07]; NotYet; Took [x01; x00]; NotYet], it) /\
  collect iter_slices_strict_next 7 (iter_slices_strict (mii_incr 2) (mii_incr_new 2) [x05; x06; x07; x01; x00]) = Ok ([[x05; x06; x07]], it') /\
  it_rem it' = [x01; x00] /\ iter_sound (CfgMii 2) /\ typed (CfgMii 2).
Proof. eexists. eexists. repeat split; try reflexivity. all: vm_compute; discriminate. Qed.

(** ** C04 *)

(** [iter_slices]: any chunker. *)
Theorem C04_iter_slices_fused : forall (C : Incr) (it it' : SliceIter C), iter_slices_next it = Ok (it', None) ->
  forall n, take_next iter_slices_next n it' = Ok ([], it').
Proof. intros C it it' E n. apply iter_next_inv in E. destruct E as [Hr ->]. exact (take_next_out C n it Hr). Qed.
Print Assumptions C04_iter_slices_fused.

(** [iter_slices_strict] is not fused: after [None] the next call shows the remainder to the chunker once more, which has
    already counted it. *)
Theorem C04_strict_fused_refuted : exists c C data it1 it2 v, typed c /\ incr_of c = Ok C /\
  iter_slices_strict_next (iter_slices_strict C (incr_new C) data) = Ok (it1, None) /\
  iter_slices_strict_next it1 = Ok (it2, Some v) /\ v <> [].
Proof.
  exists (CfgRam 3), (ram_incr 3), [x05; x05; x05]. eexists. eexists. eexists. split; [cbn; unfold is_u64; lia|]. split; [reflexivity|].
  split; [reflexivity|]. split; [reflexivity|]. discriminate.
Qed.
Print Assumptions C04_strict_fused_refuted.

(** It stays finished once the remainder has been taken (or used up): any configuration of any built-in chunker, any
    mixture of calls before and after. *)
Theorem C04_strict_fused_partial : forall c C, typed c -> incr_of c = Ok C -> forall data before after it1 ev1 it2 ev2,
  strict_calls before (iter_slices_strict C (incr_new C) data) = Ok (ev1, it1) -> it_rem it1 = [] ->
  strict_calls after it1 = Ok (ev2, it2) -> it_rem it2 = [] /\ Forall (fun e => e = NotYet \/ e = Took []) ev2.
Proof. exact strict_fused. Qed.
Print Assumptions C04_strict_fused_partial.

Example C04_case : exists it1 it2,
  strict_calls [OpNext; OpTakeRem] (iter_slices_strict (ram_incr 3) (incr_new (ram_incr 3)) [x05; x05; x05]) = Ok ([NotYet; Took [x05; x05; x05]], it1) /\
  it_rem it1 = [] /\ strict_calls [OpNext; OpTakeRem; OpNext] it1 = Ok ([NotYet; Took []; NotYet], it2).
Proof. eexists. eexists. repeat split; reflexivity. Qed.

(** ** C05 *)

(** False for Ram and Gear32 (the slice ends before the deciding byte, the chunk after it): Ram with [w = 0] on [1; 2; 3].
    [find_chunk_edge] cuts after the second byte, [iter_slices] after the first. *)
Theorem C05_iter_agree_refuted : exists c CI CC data out it r, typed c /\ incr_of c = Ok CI /\ chunk_of c = Ok CC /\
  collect iter_slices_next (2 + length data) (iter_slices CI (incr_new CI) data) = Ok (out, it) /\
  run_chunk false CC data (drain data) = Ok r /\ out <> pieces 0 (r_cuts r) data.
Proof.
  exists (CfgRam 0), (ram_incr 0), (ram_chunk 0), [x01; x02; x03]. eexists. eexists. eexists. split; [cbn; unfold is_u64; lia|].
  split; [reflexivity|]. split; [reflexivity|]. split; [reflexivity|]. split; [reflexivity|]. discriminate.
Qed.
Print Assumptions C05_iter_agree_refuted.

(** For the algorithms whose [push] returns the split position, whenever no chunk shows a difference between their two rules
    ([agree_when], Builtin.v; always true for PigzRsyncable and GzipRsyncable).  Missing: FastCdc and Zstd, for which
    [find_chunk_edge] has no rule of its own (see C26, C48). *)
Theorem C05_iter_agree_partial : forall c CI CC rule sh data sched r it out, typed c -> incr_sound c -> chunk_rule c = Some rule ->
  match c with CfgRam _ | CfgGear _ => False | _ => True end ->
  incr_of c = Ok CI -> chunk_of c = Ok CC -> stream_len (length data) ->
  collect iter_slices_next (2 + length data) (iter_slices CI (incr_new CI) data) = Ok (out, it) ->
  run_chunk sh CC data (sched ++ drain data) = Ok r ->
  (forall cs, cuts_of (incr_first c) [] data cs -> agree_when c cs (r_cuts r)) -> out = pieces 0 (r_cuts r) data.
Proof. exact iter_agree. Qed.
Print Assumptions C05_iter_agree_partial.

(** Ram and Gear32: the slices of [iter_slices] are the pieces cut one byte before each place where a chunk search ends. *)
Theorem C05_iter_before : forall c C, typed c -> incr_of c = Ok C -> iter_sound c -> forall data, stream_len (length data) ->
  exists cs it, cuts_of (iter_first c) [] data cs /\
    collect iter_slices_next (2 + length data) (iter_slices C (incr_new C) data) = Ok (pieces 0 cs data, it).
Proof. exact iter_all. Qed.
Print Assumptions C05_iter_before.

Example C05_case :
  slices_seen (collect iter_slices_next 8 (iter_slices (gzip_incr (gzip_with_window_and_modulus 2 4)) gzip_incr_new [x01; x02; x02; x03; x01; x09])) =
    Some [[x01; x02; x02]; [x03; x01]; [x09]] /\
  cuts_seen (run_chunk true (gzip_chunk (gzip_with_window_and_modulus 2 4)) [x01; x02; x02; x03; x01; x09] ([1; 2]%nat ++ drain [x01; x02; x02; x03; x01; x09])) =
    Some [3; 5]%nat.
Proof. split; vm_compute; reflexivity. Qed.
