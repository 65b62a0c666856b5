(** * PropsAgree: C10, C32, C37, C41 and C55 with the exact condition. *)

From Verif Require Import Base Api Tables Range Spec Lists Contract CutFacts CutProps.
From Verif Require Import Mii Ram Gear Pigz Gzip FastCdc Bup BuzHash Zpaq Zstd.
From Verif Require Import Builtin BuiltinProofs Agree AgreeExact Drivers PropsDrivers Cases PropsBup PropsBuz PropsZpaq.

Theorem agree_all_iff : forall c CI CC rule sh data sched1 sched2 r1 r2, typed c -> incr_sound c -> chunk_rule c = Some rule ->
  incr_of c = Ok CI -> chunk_of c = Ok CC -> stream_len (length data) ->
  run_incr (incr_adj c) CI data (sched1 ++ drain data) = Ok r1 -> run_chunk sh CC data (sched2 ++ drain data) = Ok r2 ->
  (r_cuts r1 = r_cuts r2 <-> agree_exactly c data (r_cuts r1) (r_cuts r2)).
Proof.
  intros c CI CC rule sh data sched1 sched2 r1 r2 T S Er EI EC Hl E1 E2. assert (S2 : chunk_sound c) by (destruct c; cbn in *; auto; tauto).
  apply (agree_iff c rule data _ _ T S Er); [exact (incr_complete c CI T EI S _ _ _ Hl E1)|exact (chunk_complete c CC rule T EC S2 Er sh _ _ _ Hl E2)].
Qed.

(** Mii: exactly when every chunk reported by [push] has more than [w] bytes. *)
Theorem C10_mii_agree_iff_partial : forall w sh data sched1 sched2 r1 r2, is_u64 w -> stream_len (length data) ->
  run_incr 0 (mii_incr (mii_with_w w)) data (sched1 ++ drain data) = Ok r1 ->
  run_chunk sh (mii_chunk (mii_with_w w)) data (sched2 ++ drain data) = Ok r2 ->
  (r_cuts r1 = r_cuts r2 <-> Forall (fun n => w + 1 <= Z.of_nat n) (sizes 0 (r_cuts r1))).
Proof.
  intros w sh data sched1 sched2 r1 r2 Hw Hl E1 E2.
  exact (agree_all_iff (CfgMii w) _ _ (mii_rule w) sh data sched1 sched2 r1 r2 Hw I eq_refl eq_refl eq_refl Hl E1 E2).
Qed.
Print Assumptions C10_mii_agree_iff_partial.

(** RollSum, any window: exactly when at every position the digest of the whole stream and that of the chunk (as [find_chunk_edge]
    cuts it) both split or both do not. *)
Theorem C32_rollsum_agree_iff_partial : forall w sh data sched1 sched2 r1 r2, (1 <= w)%nat -> stream_len (length data) ->
  run_incr 0 (rollsum_incr (rollsum_with_window w)) data (sched1 ++ drain data) = Ok r1 ->
  run_chunk sh (rollsum_chunk (rollsum_with_window w)) data (sched2 ++ drain data) = Ok r2 ->
  (r_cuts r1 = r_cuts r2 <-> forall p q, p = 0%nat \/ In p (r_cuts r2) -> (p < q <= length data)%nat -> no_cut_between p q (r_cuts r2) ->
     (bup_incr_rule w (firstn q data) <-> bup_rule w (skipn p (firstn q data)))).
Proof.
  intros w sh data sched1 sched2 r1 r2 Hw Hl E1 E2.
  exact (agree_all_iff (CfgRollSum w) _ _ (bup_rule w) sh data sched1 sched2 r1 r2 I Hw eq_refl eq_refl eq_refl Hl E1 E2).
Qed.
Print Assumptions C32_rollsum_agree_iff_partial.

(** BuzHash: exactly when no chunk reported by [find_chunk_edge] has more than [max + 1] bytes and the undecided tail at most [max]. *)
Theorem C37_buz_agree_iff : forall k mask h max CI CC sh data sched1 sched2 r1 r2, typed (CfgBuzHash k mask h max) ->
  incr_of (CfgBuzHash k mask h max) = Ok CI -> chunk_of (CfgBuzHash k mask h max) = Ok CC -> stream_len (length data) ->
  run_incr 0 CI data (sched1 ++ drain data) = Ok r1 -> run_chunk sh CC data (sched2 ++ drain data) = Ok r2 ->
  (r_cuts r1 = r_cuts r2 <->
   Forall (fun n => Z.of_nat n <= max + 1) (sizes 0 (r_cuts r2)) /\ Z.of_nat (length data) - Z.of_nat (last (r_cuts r2) 0%nat) <= max).
Proof.
  intros k mask h max CI CC sh data sched1 sched2 r1 r2 T EI EC Hl E1 E2.
  exact (agree_all_iff (CfgBuzHash k mask h max) _ _ (buz_rule (value_of h) k mask) sh data sched1 sched2 r1 r2 T I eq_refl EI EC Hl E1 E2).
Qed.
Print Assumptions C37_buz_agree_iff.

(** Zpaq: exactly when every chunk reported by [find_chunk_edge] also ends by the rule of [push]. *)
Theorem C41_zpaq_agree_iff_partial : forall f r p sh data sched1 sched2 r1 r2, typed (CfgZpaq f r) -> zpaq_with_average_and_range f r = Ok p ->
  stream_len (length data) ->
  run_incr 0 (zpaq_incr p) data (sched1 ++ drain data) = Ok r1 -> run_chunk sh (zpaq_chunk p) data (sched2 ++ drain data) = Ok r2 ->
  (r_cuts r1 = r_cuts r2 <-> forall a b, chunk_at (r_cuts r2) a b -> zpaq_rule r (2 ^ (32 - f)) 0 (skipn a (firstn b data))).
Proof.
  intros f r p sh data sched1 sched2 r1 r2 T E Hl E1 E2.
  assert (EI : incr_of (CfgZpaq f r) = Ok (zpaq_incr p)) by (cbn [incr_of]; rewrite E; reflexivity).
  assert (EC : chunk_of (CfgZpaq f r) = Ok (zpaq_chunk p)) by (cbn [chunk_of]; rewrite E; reflexivity).
  exact (agree_all_iff (CfgZpaq f r) _ _ (zpaq_rule r (2 ^ (32 - f)) 1) sh data sched1 sched2 r1 r2 T I eq_refl EI EC Hl E1 E2).
Qed.
Print Assumptions C41_zpaq_agree_iff_partial.

Lemma sizes_inj : forall a b base, strictly_above base a -> strictly_above base b -> sizes base a = sizes base b -> a = b.
Proof.
  induction a as [|p a IH]; intros [|q b] base A B E; try discriminate E; [reflexivity|]. cbn [sizes strictly_above] in *. destruct A as [A1 A2], B as [B1 B2].
  inversion E as [[E1 E2]]. assert (p = q) by lia. subst q. f_equal. exact (IH b p A2 B2 E2).
Qed.

(** The comparison that tests/cuts.rs makes passes exactly in these cases. *)
Theorem C55_cut_test_iff_partial : forall c CI CC rule data, typed c -> incr_sound c -> incr_of c = Ok CI -> chunk_of c = Ok CC ->
  chunk_rule c = Some rule -> stream_len (length data) ->
  exists cs1 cs2, cuts_of (incr_first c) [] data cs1 /\ cuts_of (ends_at (per_chunk rule)) [] data cs2 /\
    forall fuel, (length data < fuel)%nat -> (byte_splits CI data = whole_splits CC fuel data <-> agree_exactly c data cs1 cs2).
Proof.
  intros c CI CC rule data T S EI EC R Hl. destruct (C55_cut_test_partial c CI CC rule data T S EI EC R Hl) as (cs1 & cs2 & H1 & H2 & B & W & _).
  exists cs1, cs2. split; [exact H1|]. split; [exact H2|]. intros fuel Hf. rewrite B, (W fuel Hf), <- (agree_iff c rule data cs1 cs2 T S R H1 H2).
  destruct (cuts_of_increasing _ (incr_first_laws c T) (incr_first_progressive c S) _ _ _ H1) as [I1 _].
  destruct (cuts_of_increasing _ (ends_at_laws _) (ends_at_progressive _) _ _ _ H2) as [I2 _].
  split; [|now intros ->]. intros E. inversion E as [E']. exact (sizes_inj cs1 cs2 0 I1 I2 E').
Qed.
Print Assumptions C55_cut_test_iff_partial.

(** BuzHash with a maximum of 5: the chunk of six bytes that both see is allowed; with 4 it is not. *)
Example C37_iff_case : exists p q, buzhash_new 3 7 (table_hash GO_BUZHASH) 5 = Ok p /\ buzhash_new 3 7 (table_hash GO_BUZHASH) 4 = Ok q /\
  cuts_seen (run_incr 0 (buz_incr p) buz_demo (drain buz_demo)) = Some [4; 8; 14; 18]%nat /\
  cuts_seen (run_chunk true (buz_chunk p) buz_demo (drain buz_demo)) = Some [4; 8; 14; 18]%nat /\
  cuts_seen (run_incr 0 (buz_incr q) buz_demo (drain buz_demo)) <> Some [4; 8; 14; 18]%nat.
Proof. eexists. eexists. split; [reflexivity|]. split; [reflexivity|]. repeat split; try (vm_compute; reflexivity). vm_compute. discriminate. Qed.

(** Zpaq: the push cuts of C39_case and the edges of C40_case differ first at 6, where the chunk of two bytes is below the minimum of [push]. *)
Example C41_iff_case : chunk_at [4; 6; 10; 14; 16]%nat 4 6 /\ ~ zpaq_rule (Included 3, Included 6) (2 ^ (32 - 3)) 0 (skipn 4 (firstn 6 zpaq_demo)).
Proof.
  split.
  - split; [right; now left|]. split; [right; now left|]. split; [lia|]. intros x H. cbn in H. lia.
  - intros [[_ H]|H]; [apply H; cbn; lia|]. cbn in H. lia.
Qed.
