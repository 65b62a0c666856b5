(** * PropsBuz: C33 - C38. *)

From Verif Require Import Base Api Tables Spec Lists Contract Rot CutFacts BuzHash BuzProofs BuzWindow.
From Verif Require Import Builtin BuiltinProofs Agree Cap CutProps Cases.

(** A byte hash: any total function into [u32]. *)
Definition byte_hash (h : BuzHashHash) (hv : byte -> Z) : Prop := forall b, h b = Ok (hv b) /\ 0 <= hv b < 2 ^ 32.

Lemma buz_new_good : forall k mask h max p hv, buzhash_new k mask h max = Ok p -> byte_hash h hv ->
  buz_good p hv /\ bz_k p = k /\ bz_mask p = mask /\ bz_max_chunk_size p = max.
Proof.
  intros k mask h max p hv E Hh. unfold buzhash_new in E. destruct (Nat.ltb_spec 0 k) as [Hk|]; [|discriminate E].
  injection E as <-. cbn. split; [|auto]. split; [exact Hk|exact Hh].
Qed.

(** ** C33 *)
Theorem C33_buz_edges : forall k mask h max p hv shrink, buzhash_new k mask h max = Ok p -> byte_hash h hv ->
  chunk_conforms shrink (buz_chunk p) (ends_at (per_chunk (buz_rule hv k mask))) any_length k.
Proof.
  intros k mask h max p hv shrink E Hh. destruct (buz_new_good k mask h max p hv E Hh) as (G & <- & <- & _).
  exact (buz_chunk_conforms p hv G shrink).
Qed.
Print Assumptions C33_buz_edges.

(** The constructor accepts every capacity but 0. *)
Theorem C33_buz_constructor : forall k mask h max,
  ((exists p, buzhash_new k mask h max = Ok p) <-> (1 <= k)%nat) /\ (k = 0%nat -> buzhash_new k mask h max = Panic).
Proof.
  intros k mask h max. unfold buzhash_new. destruct (Nat.ltb_spec 0 k); cbn; split; try (intros; lia); split; intros H0; try lia; eauto.
  destruct H0. discriminate.
Qed.
Print Assumptions C33_buz_constructor.

Definition buz_demo : list byte := [x01; x02; x03; x04; x05; x06; x07; x08; x09; x0a; x01; x02; x03; x04; x05; x06; x07; x08].

Example C33_case : exists p, buzhash_new 2 3 (table_hash GO_BUZHASH) 3 = Ok p /\
  cuts_seen (run_chunk false (buz_chunk p) buz_demo (drain buz_demo)) = Some [3; 7; 13; 17]%nat /\
  cuts_seen (run_chunk true (buz_chunk p) buz_demo (repeat 3%nat 20)) = Some [3; 7; 13; 17]%nat.
Proof. eexists. split; [reflexivity|]. split; vm_compute; reflexivity. Qed.

(** ** C34 *)
Theorem C34_buz_push : forall k mask h max p hv, buzhash_new k mask h max = Ok p -> byte_hash h hv ->
  incr_conforms 0 (buz_incr p) (ends_at (per_chunk (buz_incr_rule hv k mask max))) below_2_64 /\
  incr_prompt 0 (buz_incr p) (ends_at (per_chunk (buz_incr_rule hv k mask max))) below_2_64.
Proof.
  intros k mask h max p hv E Hh. destruct (buz_new_good k mask h max p hv E Hh) as (G & <- & <- & <-).
  exact (conj (buz_incr_conforms p hv G) (buz_incr_prompt p hv G)).
Qed.
Print Assumptions C34_buz_push.

(** The maximum (3) ends the chunk at 11. *)
Example C34_case : exists p, buzhash_new 2 3 (table_hash GO_BUZHASH) 3 = Ok p /\
  cuts_seen (run_incr 0 (buz_incr p) buz_demo (drain buz_demo)) = Some [3; 7; 11; 13; 17]%nat /\
  cuts_seen (run_incr 0 (buz_incr p) buz_demo (repeat 1%nat 18)) = Some [3; 7; 11; 13; 17]%nat.
Proof. eexists. split; [reflexivity|]. split; vm_compute; reflexivity. Qed.

(** ** C35: false for capacities [k] with [k mod 32 >= 8] *)
Theorem C35_buz_window_refuted : exists k, (1 <= k)%nat /\ exists hv c s, (forall b, 0 <= hv b < 2 ^ 32) /\ (k <= length c)%nat /\
  buz_push_bytes (buz_with k hv) (buz_incr_new (buz_with k hv)) c = Ok s /\ bzi_state s <> cyclic hv 0 (firstn k (rev c)).
Proof.
  exists 8%nat. split; [lia|]. exists one_hot, (x01 :: repeat x00 8).
  destruct (buz_push_bytes (buz_with 8 one_hot) (buz_incr_new (buz_with 8 one_hot)) (x01 :: repeat x00 8)) as [s| |] eqn:E; vm_compute in E; try discriminate E.
  exists s. split; [exact one_hot_word|]. split; [cbn; lia|]. split; [reflexivity|]. injection E as <-. vm_compute. discriminate.
Qed.
Print Assumptions C35_buz_window_refuted.

(** Exactly the other capacities have the property. *)
Theorem C35_buz_window_partial : forall k, (1 <= k)%nat -> Z.of_nat k + 1 < 2 ^ 64 ->
  ((forall hv c, (forall b, 0 <= hv b < 2 ^ 32) -> (k <= length c)%nat -> Z.of_nat (length c) < 2 ^ 64 ->
    exists s, buz_push_bytes (buz_with k hv) (buz_incr_new (buz_with k hv)) c = Ok s /\ bzi_state s = cyclic hv 0 (firstn k (rev c)))
   <-> (k mod 32 < 8)%nat).
Proof. exact buz_windowed_iff. Qed.
Print Assumptions C35_buz_window_partial.

(** In terms of chunk ends, for both APIs: the rule of C33 looks at the last [k] bytes only. *)
Theorem C35_buz_rule_partial : forall k hv mask c, (forall b, 0 <= hv b < 2 ^ 32) -> (k mod 32 < 8)%nat ->
  (buz_rule hv k mask c <-> bits_set (cyclic hv 0 (firstn k (rev c))) mask).
Proof. intros k hv mask c Hh Hk. unfold buz_rule. rewrite (buz_hash_window hv Hh k c Hk). reflexivity. Qed.
Print Assumptions C35_buz_rule_partial.

(** The configuration of [new_nom] is one of those. *)
Example C35_case : forall salt, match buzhash_new_nom salt with Ok p => bz_k p = 67%nat /\ (bz_k p mod 32 < 8)%nat | _ => False end.
Proof. intros salt. cbn. lia. Qed.

(** ** C36: false for [find_chunk_edge], which has no maximum *)
Theorem C36_buz_max_refuted : exists k mask h max p data r, typed (CfgBuzHash k mask h max) /\ buzhash_new k mask h max = Ok p /\
  run_chunk false (buz_chunk p) data (drain data) = Ok r /\ exists n, In n (sizes 0 (r_cuts r)) /\ max + 1 < Z.of_nat n.
Proof.
  set (p := {| bz_k := 2; bz_h := table_hash GO_BUZHASH; bz_mask := 7; bz_max_chunk_size := 5 |}).
  destruct (cuts_seen_inv _ (run_chunk false (buz_chunk p) buz_demo (drain buz_demo)) [7; 17]%nat ltac:(vm_compute; reflexivity)) as (r & E & H).
  exists 2%nat, 7, (table_hash GO_BUZHASH), 5, p, buz_demo, r. split.
  { split; [split; reflexivity || discriminate|]. split; [split; reflexivity || discriminate|]. intros b.
    assert (T : forallb (fun x => (0 <=? x) && (x <? 2 ^ 32)) GO_BUZHASH = true) by (vm_compute; reflexivity). rewrite forallb_forall in T.
    assert (T32 : table_word32 GO_BUZHASH) by (split; [reflexivity|]; intros x Hx; specialize (T x Hx); unfold word32; lia).
    exists (table_at GO_BUZHASH b). exact (conj (table_hash_good _ b T32) (table_at_word _ b T32)). }
  split; [reflexivity|]. split; [exact E|]. exists 7%nat. rewrite H. split; [left; reflexivity|lia].
Qed.
Print Assumptions C36_buz_max_refuted.

(** True for [push]. *)
Theorem C36_buz_max_partial : forall k mask h max p hv data sched r, buzhash_new k mask h max = Ok p -> byte_hash h hv -> 0 <= max ->
  below_2_64 (length data) -> run_incr 0 (buz_incr p) data sched = Ok r -> Forall (fun n => Z.of_nat n <= max + 1) (sizes 0 (r_cuts r)).
Proof.
  intros k mask h max p hv data sched r E Hh Hm Hl Er.
  exact (incr_sizes _ _ (ends_at_laws _) _ _ _ (proj1 (C34_buz_push k mask h max p hv E Hh))
           (fun h0 d n F => buz_first_size hv k mask max h0 d n Hm F) data sched r Hl Er).
Qed.
Print Assumptions C36_buz_max_partial.

(** [max + 1] occurs: C34_case has a chunk of four bytes with a maximum of three. *)
Example C36_case : sizes 0 [3; 7; 11; 13; 17]%nat = [3; 4; 4; 2; 4]%nat.
Proof. reflexivity. Qed.

(** ** C37 *)
Theorem C37_buz_agree_prefix : forall k mask h max CI CC sh data sched1 sched2 r1 r2 pre rest, typed (CfgBuzHash k mask h max) ->
  incr_of (CfgBuzHash k mask h max) = Ok CI -> chunk_of (CfgBuzHash k mask h max) = Ok CC -> stream_len (length data) ->
  run_incr 0 CI data (sched1 ++ drain data) = Ok r1 -> run_chunk sh CC data (sched2 ++ drain data) = Ok r2 ->
  r_cuts r2 = pre ++ rest -> Forall (fun n => Z.of_nat n <= max) (sizes 0 pre) -> exists rest1, r_cuts r1 = pre ++ rest1.
Proof.
  intros k mask h max CI CC sh data sched1 sched2 r1 r2 pre rest T EI EC Hl E1 E2 Ep Hp.
  exact (buz_cap_prefix k mask max h CI CC T EI EC sh data sched1 sched2 r1 r2 pre rest Hl E1 E2 Ep Hp).
Qed.
Print Assumptions C37_buz_agree_prefix.

Theorem C37_buz_agree : forall k mask h max CI CC sh data sched1 sched2 r1 r2, typed (CfgBuzHash k mask h max) ->
  incr_of (CfgBuzHash k mask h max) = Ok CI -> chunk_of (CfgBuzHash k mask h max) = Ok CC -> stream_len (length data) ->
  run_incr 0 CI data (sched1 ++ drain data) = Ok r1 -> run_chunk sh CC data (sched2 ++ drain data) = Ok r2 ->
  Forall (fun n => Z.of_nat n <= max) (sizes 0 (r_cuts r2 ++ [length data])) -> r_cuts r1 = r_cuts r2.
Proof.
  intros k mask h max CI CC sh data sched1 sched2 r1 r2 T EI EC Hl E1 E2 Hp.
  exact (buz_cap_all k mask max h CI CC T EI EC sh data sched1 sched2 r1 r2 Hl E1 E2 Hp).
Qed.
Print Assumptions C37_buz_agree.

(** With a maximum of 6 no chunk is too long; with 5 (C36) the first one is. *)
Example C37_case : exists p, buzhash_new 3 7 (table_hash GO_BUZHASH) 6 = Ok p /\
  cuts_seen (run_incr 0 (buz_incr p) buz_demo (drain buz_demo)) = Some [4; 8; 14; 18]%nat /\
  cuts_seen (run_chunk true (buz_chunk p) buz_demo (drain buz_demo)) = Some [4; 8; 14; 18]%nat /\
  Forall (fun n => Z.of_nat n <= 6) (sizes 0 ([4; 8; 14; 18] ++ [18])%nat).
Proof. eexists. split; [reflexivity|]. split; [vm_compute; reflexivity|]. split; [vm_compute; reflexivity|]. repeat constructor; cbn; lia. Qed.

(** ** C38 *)
Theorem C38_table_hash : forall t b, length t = 256%nat -> table_hash t b = Ok (nth (Z.to_nat (b2z b)) t 0).
Proof.
  intros t b Ht. unfold table_hash, index.
  destruct (nth_error t (Z.to_nat (b2z b))) as [v|] eqn:E; [rewrite (nth_error_nth _ _ 0 E); reflexivity|].
  apply nth_error_None in E. assert (R := b2z_range b). lia.
Qed.
Print Assumptions C38_table_hash.

Theorem C38_salt_hash : forall t salt b, length t = 256%nat ->
  table_byte_salt_hash salt t b = Ok (nth (Z.to_nat (Z.lxor (b2z b) (b2z salt))) t 0).
Proof.
  intros t salt b Ht. unfold table_byte_salt_hash, index.
  destruct (nth_error t (Z.to_nat (Z.lxor (b2z b) (b2z salt)))) as [v|] eqn:E; [rewrite (nth_error_nth _ _ 0 E); reflexivity|].
  apply nth_error_None in E. assert (R := lxor_byte b salt). lia.
Qed.
Print Assumptions C38_salt_hash.

(** Salt 0 is no salt. *)
Theorem C38_salt_zero : forall t b, table_byte_salt_hash x00 t b = table_hash t b.
Proof. intros t b. unfold table_byte_salt_hash, table_hash. change (b2z x00) with 0. rewrite Z.lxor_0_r. reflexivity. Qed.
Print Assumptions C38_salt_zero.

Theorem C38_borg_table : forall seed i, (i < 256)%nat -> 0 <= seed < 2 ^ 32 ->
  length (borg_buzhash_table seed) = 256%nat /\
  nth i (borg_buzhash_table seed) 0 = Z.lxor (nth i BORG_BUZHASH_BASE 0) seed /\
  0 <= nth i (borg_buzhash_table seed) 0 < 2 ^ 32.
Proof.
  intros seed i Hi Hs. assert (L : length BORG_BUZHASH_BASE = 256%nat) by reflexivity.
  assert (N : nth i (borg_buzhash_table seed) 0 = Z.lxor (nth i BORG_BUZHASH_BASE 0) seed).
  { unfold borg_buzhash_table. rewrite (nth_indep _ 0 (Z.lxor 0 seed)) by (rewrite map_length, L; exact Hi).
    exact (map_nth (fun x => Z.lxor x seed) BORG_BUZHASH_BASE 0 i). }
  split; [unfold borg_buzhash_table; rewrite map_length; exact L|]. split; [exact N|]. rewrite N.
  assert (T : forallb (fun x => (0 <=? x) && (x <? 2 ^ 32)) BORG_BUZHASH_BASE = true) by (vm_compute; reflexivity). rewrite forallb_forall in T.
  assert (Hn := T _ (nth_In BORG_BUZHASH_BASE 0 ltac:(rewrite L; exact Hi))).
  apply word32_lxor; [unfold word32; lia|exact Hs].
Qed.
Print Assumptions C38_borg_table.

(** So the crate's own tables, salted or seeded, are byte hashes in the sense of C33 and C34. *)
Theorem C38_byte_hashes : forall salt seed, 0 <= seed < 2 ^ 32 ->
  byte_hash (table_hash GO_BUZHASH) (table_at GO_BUZHASH) /\
  byte_hash (table_byte_salt_hash salt GO_BUZHASH) (fun b => nth (Z.to_nat (Z.lxor (b2z b) (b2z salt))) GO_BUZHASH 0) /\
  byte_hash (table_hash (borg_buzhash_table seed)) (fun b => Z.lxor (table_at BORG_BUZHASH_BASE b) seed).
Proof.
  intros salt seed Hs. 
  assert (T : forallb (fun x => (0 <=? x) && (x <? 2 ^ 32)) GO_BUZHASH = true) by (vm_compute; reflexivity). rewrite forallb_forall in T.
  assert (T32 : table_word32 GO_BUZHASH) by (split; [reflexivity|]; intros x Hx; specialize (T x Hx); unfold word32; lia).
  split; [|split]; intros b.
  - exact (conj (table_hash_good _ b T32) (table_at_word _ b T32)).
  - exact (salt_hash_good salt _ b T32).
  - assert (R := b2z_range b). destruct (C38_borg_table seed (Z.to_nat (b2z b)) ltac:(lia) Hs) as (L & N & W).
    rewrite (C38_table_hash _ b L). unfold table_at. rewrite N in W |- *. auto.
Qed.
Print Assumptions C38_byte_hashes.

Example C38_case : table_hash (borg_buzhash_table 0xdeadbeef) x02 = Ok (Z.lxor (nth 2 BORG_BUZHASH_BASE 0) 0xdeadbeef) /\
  table_byte_salt_hash x03 GO_BUZHASH x01 = table_hash GO_BUZHASH x02.
Proof. split; vm_compute; reflexivity. Qed.
