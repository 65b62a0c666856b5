(** * PropsEdge: C06, C07, C52, C53, single answers and the order of cuts for every built-in chunker. *)

From Verif Require Import Base Api Tables Range Spec Lists Contract.
From Verif Require Import Mii Ram Gear Pigz Gzip FastCdc FastCdcProofs Bup BuzHash Zpaq Zstd.
From Verif Require Import Builtin BuiltinProofs Reach Totality StateFacts Answers CutProps Cases.

(** ** C06 *)

(** False for FastCdc: the fifth byte of a buffer of four (default-table configuration min 1, normal 2, max 4). *)
Theorem C06_edges_in_bounds_refuted :
  (exists c C data s' k d, typed c /\ chunk_of c = Ok C /\ chunk_sound c /\
     find_chunk_edge C (to_search_state C) data = Ok (s', (Some k, d)) /\ (length data < k)%nat /\ (length data < d)%nat) /\
  (exists c C data, typed c /\ chunk_of c = Ok C /\ find_chunk_edge C (to_search_state C) data = Panic).
Proof.
  split.
  - exists (CfgFastCdc GEAR_64 1 2 4), (fastcdc_chunk (fastcdc_new GEAR_64 1 2 4)), (repeat x00 4), fastcdc_state_default, 5%nat, 5%nat.
    split; [apply typed_gear64; unfold is_u64; lia|].
    split; [reflexivity|]. split; [cbn; lia|]. split; [vm_compute; reflexivity|]. cbn. lia.
  - exists (CfgGzip 1 0), (gzip_chunk (gzip_with_window_and_modulus 1 0)), [x00]. split; [cbn; unfold is_u64; lia|]. split; reflexivity.
Qed.
Print Assumptions C06_edges_in_bounds_refuted.

(** All algorithms but FastCdc, every configuration but GzipRsyncable's modulus 0: any state a caller following the protocol
    can be in, any buffer it may show ([edges_in_bounds], Spec.v). *)
Theorem C06_edges_in_bounds_partial : forall c C sh, typed c -> chunk_of c = Ok C -> chunk_sound c ->
  match c with CfgFastCdc _ _ _ _ => False | _ => True end -> edges_in_bounds sh C (look_back c) stream_len.
Proof. exact edges_all. Qed.
Print Assumptions C06_edges_in_bounds_partial.

(** In particular the call that shows everything up to the end of the data. *)
Theorem C06_last_call_partial : forall c C sh data s base lo, typed c -> chunk_of c = Ok C -> chunk_sound c ->
  match c with CfgFastCdc _ _ _ _ => False | _ => True end -> stream_len (length data) ->
  reaches sh C data s base lo -> (lo <= length data)%nat -> (base <= length data)%nat ->
  exists s' edge d, find_chunk_edge C s (skipn base data) = Ok (s', (edge, d)) /\ (base + d <= length data)%nat /\
    match edge with
    | Some c => (1 <= c /\ base + c <= length data)%nat
    | None => (length data - (base + d) <= look_back c)%nat
    end.
Proof.
  intros c C sh data s base lo HT EC HS Hc HL HR Hlo Hb.
  destruct (C06_edges_in_bounds_partial c C sh HT EC HS Hc data s base lo (length data) HL HR ltac:(lia) Hb) as (s' & e & d & E & Hd & M).
  unfold view in E. rewrite firstn_all2 in E by (rewrite skipn_length; lia). exists s', e, d. split; [exact E|]. split; [lia|]. destruct e; lia.
Qed.
Print Assumptions C06_last_call_partial.

(** FastCdc: no panic, and at most one past the end. *)
Theorem C06_fastcdc_edges_partial : forall p sh data s base lo hi, fastcdc_ok p -> below_2_64 (length data) ->
  reaches sh (fastcdc_chunk p) data s base lo -> (lo <= hi <= length data)%nat -> (base <= hi)%nat ->
  exists s' edge d, find_chunk_edge (fastcdc_chunk p) s (view data base hi) = Ok (s', (edge, d)) /\
    match edge with
    | Some c => c = d /\ (1 <= c <= hi - base + 1)%nat
    | None => d = (hi - base)%nat
    end.
Proof. exact fastcdc_edges. Qed.
Print Assumptions C06_fastcdc_edges_partial.

(** From any state whatever, reached or not: an answer is in bounds up to FastCdc's one. *)
Theorem C06_any_state : forall c C s buf s' k d, chunk_of c = Ok C -> find_chunk_edge C s buf = Ok (s', (Some k, d)) ->
  (1 <= k <= length buf + match c with CfgFastCdc _ _ _ _ => 1 | _ => 0 end)%nat /\
  match c with CfgZstd _ => (33 <= k)%nat /\ d = (length buf - 32)%nat | _ => d = k end.
Proof. exact find_answer. Qed.
Print Assumptions C06_any_state.

Example C06_case : exists s, reaches true (gzip_chunk (gzip_with_window_and_modulus 2 4)) [x01; x02; x02; x03] s 0 2 /\
  gzip_find_chunk_edge (gzip_with_window_and_modulus 2 4) s (view [x01; x02; x02; x03] 0 4) = Ok (gzip_search_default, (Some 3%nat, 3%nat)).
Proof.
  eexists. split.
  - eapply (reach_more true (gzip_chunk (gzip_with_window_and_modulus 2 4)) [x01; x02; x02; x03] gzip_search_default 0 0 2 _ 0);
      [constructor|cbn; lia|lia|vm_compute; reflexivity].
  - vm_compute. reflexivity.
Qed.

(** ** C07 *)
Theorem C07_look_back : forall c C s buf s' d, chunk_of c = Ok C -> find_chunk_edge C s buf = Ok (s', (None, d)) ->
  (d <= length buf /\ length buf - d <= look_back c)%nat.
Proof. exact keeps_at_most. Qed.
Print Assumptions C07_look_back.

(** [look_back] spelled out. *)
Example C07_look_back_values : forall w m W k mask h max t g a b c r f n bits,
  look_back (CfgMii w) = 0%nat /\ look_back (CfgRam w) = 0%nat /\ look_back (CfgGear n) = 0%nat /\ look_back (CfgPigz bits) = 0%nat /\
  look_back (CfgFastCdc g a b c) = 0%nat /\ look_back (CfgZpaq f r) = 0%nat /\ look_back (CfgGzip W m) = W /\ look_back (CfgRollSum W) = W /\
  look_back (CfgBuzHash k mask h max) = k /\ look_back (CfgZstd t) = 32%nat.
Proof. repeat split. Qed.

Example C07_case : exists s', rollsum_find_chunk_edge 3 (rollsum_search_new 3) [x01; x02; x03; x04; x05] = Ok (s', (None, 2%nat)).
Proof. eexists. vm_compute. reflexivity. Qed.

(** ** C52 *)

(** False for GzipRsyncable without window or modulus and for RollSum without window. *)
Theorem C52_push_total_refuted : exists c1 c2 c3 C1 C2 C3, typed c1 /\ typed c2 /\ typed c3 /\
  incr_of c1 = Ok C1 /\ incr_of c2 = Ok C2 /\ incr_of c3 = Ok C3 /\
  incr_push C1 (incr_new C1) [x00] = Panic /\ incr_push C2 (incr_new C2) [x00] = Panic /\ incr_push C3 (incr_new C3) [x00] = Panic.
Proof.
  exists (CfgGzip 0 1), (CfgGzip 1 0), (CfgRollSum 0). do 3 eexists. split; [cbn; unfold is_u64; lia|]. split; [cbn; unfold is_u64; lia|].
  split; [exact I|]. repeat split; reflexivity.
Qed.
Print Assumptions C52_push_total_refuted.

(** Exactly for the other configurations ([push_good], Builtin.v) no caller sees a panic. *)
Theorem C52_push_total_partial : forall c C, typed c -> incr_of c = Ok C ->
  ((forall data sched, stream_len (length data) -> exists r, run_incr (incr_adj c) C data sched = Ok r /\ (r_base r <= length data)%nat)
   <-> push_good c).
Proof. exact push_total_iff. Qed.
Print Assumptions C52_push_total_partial.

Example C52_case : push_good (CfgFastCdc GEAR_64 0 100 3) /\ push_good (CfgRollSum 3) /\ push_good (CfgZstd (2 ^ 20)).
Proof. cbn. repeat split; lia. Qed.

(** ** C53 *)

(** [find_chunk_edge]: every configuration, every caller, streams of any length. *)
Theorem C53_chunk_cuts_order : forall c C sh data sched r, chunk_of c = Ok C -> run_chunk sh C data sched = Ok r ->
  strictly_above 0 (r_cuts r) /\ Forall (fun p => p <= length data)%nat (r_cuts r) /\ (r_base r <= length data)%nat.
Proof. exact chunk_cuts_order. Qed.
Print Assumptions C53_chunk_cuts_order.

(** [push]: inside the data always, and strictly increasing for all algorithms but FastCdc. *)
Theorem C53_incr_cuts_order : forall c C data sched r, incr_of c = Ok C -> run_incr (incr_adj c) C data sched = Ok r ->
  Forall (fun p => p <= length data)%nat (r_cuts r) /\ (r_base r <= length data)%nat /\
  match c with CfgFastCdc _ _ _ _ => True | _ => strictly_above 0 (r_cuts r) end.
Proof. exact incr_cuts_order. Qed.
Print Assumptions C53_incr_cuts_order.

(** FastCdc accepts sizes with which it reports empty chunks. *)
Theorem C53_incr_order_refuted : exists c C data sched r, typed c /\ incr_of c = Ok C /\
  run_incr (incr_adj c) C data sched = Ok r /\ ~ strictly_above 0 (r_cuts r).
Proof.
  destruct (cuts_seen_inv _ (run_incr 0 (fastcdc_incr (fastcdc_new (repeat 1 256) 0 0 0)) [x00] [1; 1]%nat) [0; 0]%nat ltac:(vm_compute; reflexivity)) as (r & E & Hc).
  exists (CfgFastCdc (repeat 1 256) 0 0 0), (fastcdc_incr (fastcdc_new (repeat 1 256) 0 0 0)), [x00], [1; 1]%nat, r.
  split. { cbn [typed]. split; [reflexivity|]. split; [|unfold is_u64; lia]. intros x Hx. apply repeat_spec in Hx. subst. unfold is_u64. lia. }
  split; [reflexivity|]. split; [exact E|]. rewrite Hc. cbn. lia.
Qed.
Print Assumptions C53_incr_order_refuted.

(** Exactly which configurations never report an empty chunk ([nonempty_good], CutProps.v). *)
Theorem C53_incr_order_partial : forall c C, typed c -> incr_of c = Ok C ->
  ((forall data sched r, stream_len (length data) -> run_incr (incr_adj c) C data sched = Ok r -> strictly_above 0 (r_cuts r)) <-> nonempty_good c).
Proof. exact incr_strict_iff. Qed.
Print Assumptions C53_incr_order_partial.

Example C53_case : cuts_seen (run_chunk true (ram_chunk 0) [x01; x02; x03; x00; x01; x05; x09] [1; 7; 2; 7; 7]%nat) = Some [2; 6]%nat /\
  cuts_seen (run_incr 1 (ram_incr 0) [x01; x02; x03; x00; x01; x05; x09] [1; 7; 2; 7; 7]%nat) = Some [2; 6]%nat.
Proof. split; vm_compute; reflexivity. Qed.
