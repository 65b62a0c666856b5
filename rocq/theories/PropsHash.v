(** * PropsHash: C68, the hash a chunker keeps tells apart streams that differ in one byte. *)

From Verif Require Import Base Api Tables Spec Lists Contract Words Rot CutFacts Gear Pigz Gzip FastCdc Bup BuzHash Zstd.
From Verif Require Import PigzProofs GearProofs GzipProofs FastCdcProofs FastCdcAny ZstdProofs BupAny BuzProofs PropsBuz Cases HashDiff.

(** ** The tables of the crate *)
Definition low_half_dropped (v : Z) : Z := v / 2 ^ 32.

(** 256 entries each, none of them 0, no two alike; and [GEAR_32] is made of the upper halves of [GEAR_64]. *)
Theorem C68_tables :
  (forall t, In t [GEAR_32; GEAR_64; GO_BUZHASH; BORG_BUZHASH_BASE] -> length t = 256%nat /\ NoDup t /\ ~ In 0 t) /\
  GEAR_32 = map low_half_dropped GEAR_64.
Proof.
  assert (K : forallb (fun t => andb (Nat.eqb (length t) 256) (andb (nodupb t) (forallb (fun v => negb (v =? 0)) t))) [GEAR_32; GEAR_64; GO_BUZHASH; BORG_BUZHASH_BASE] = true) by (vm_compute; reflexivity).
  rewrite forallb_forall in K. split; [|vm_compute; reflexivity]. intros t Ht. specialize (K t Ht). cbv beta in K. rewrite !andb_true_iff in K. destruct K as (K1 & K2 & K3).
  split; [now apply Nat.eqb_eq|]. split; [now apply nodupb_spec|]. rewrite forallb_forall in K3. intros I. specialize (K3 0 I). discriminate.
Qed.
Print Assumptions C68_tables.

(** Two complete runs over streams that differ in one byte, which is in the current chunk in both. *)
Definition differ_here {St} (p b : list byte) (x y : byte) (r1 r2 : run St) : Prop :=
  r_base r1 = length (p ++ x :: b) /\ r_base r2 = length (p ++ y :: b) /\ last_cut r1 = last_cut r2 /\ (last_cut r1 <= length p)%nat.

Lemma via : forall (A : Type) (u v u' v' : A) (P : Prop), u = u' -> v = v' -> (u' = v' <-> P) -> (u = v <-> P).
Proof. intros A u v u' v' P -> ->. auto. Qed.

Lemma zstd_rel_hash : forall s t, zstd_incr_rel s t -> (32 <= length t)%nat -> zi_state s = zstd_hash t.
Proof. intros s t (_ & R) Ht. destruct (zi_window_full s); [exact (proj2 (proj2 R))|destruct R; lia]. Qed.

(** ** Zstd: the hash sees every one of the last 32 bytes of the stream *)
Theorem C68_zstd : forall t z p b x y sched1 sched2 r1 r2, 0 <= t < 2 ^ 64 -> zstd_with_target_section_size t = Ok z ->
  run_incr 1 (zstd_incr z) (p ++ x :: b) sched1 = Ok r1 -> run_incr 1 (zstd_incr z) (p ++ y :: b) sched2 = Ok r2 ->
  r_base r1 = length (p ++ x :: b) -> r_base r2 = length (p ++ y :: b) -> (length b < 32 <= length (p ++ x :: b))%nat ->
  (zi_state (r_state r1) = zi_state (r_state r2) <-> x = y).
Proof.
  intros t z p b x y sched1 sched2 r1 r2 Ht Ez E1 E2 B1 B2 [Hb Hl]. apply zstd_ctor_inv in Ez; [|exact Ht]. destruct Ez as [Ht' ->].
  assert (Hbits : 0 <= zstd_bits t) by (assert (X := zstd_bits_range t Ht'); lia).
  assert (K := run_state 1 (zstd_incr (zstd_params (zstd_bits t))) _ _ _ (ends_at_laws _) any_length_down (zstd_push_ok _ Hbits) zstd_new_rel).
  destruct (conj (K _ _ _ I E1 B1 _ eq_refl) (K _ _ _ I E2 B2 _ eq_refl)) as [R1 R2]. rewrite firstn_skipn in R1, R2.
  assert (Hl2 : (32 <= length (p ++ y :: b))%nat) by (rewrite app_length in *; exact Hl).
  apply zstd_rel_hash in R1; [|exact Hl]. apply zstd_rel_hash in R2; [|exact Hl2].
  rewrite <- (zstd_hash_diff p b x y Hb). rewrite <- R1, <- R2. reflexivity.
Qed.
Print Assumptions C68_zstd.

(** ** RollSum: [digest] sees every byte of the window (for the windows that are powers of two, [low_bit w = w]) *)
Theorem C68_rollsum : forall w p b x y s1 s2, (length b < low_bit w)%nat ->
  roll_bytes (rollsum_incr_new w) (p ++ x :: b) = Ok s1 -> roll_bytes (rollsum_incr_new w) (p ++ y :: b) = Ok s2 ->
  (rollsum_incr_digest s1 = rollsum_incr_digest s2 <-> x = y).
Proof.
  intros w p b x y s1 s2 Hb E1 E2. assert (Hw : (1 <= w)%nat) by (destruct w; [cbn in Hb; lia|lia]).
  destruct (digest_of_any w (p ++ x :: b) Hw) as (t1 & F1 & D1). destruct (digest_of_any w (p ++ y :: b) Hw) as (t2 & F2 & D2).
  assert (t1 = s1) by congruence. assert (t2 = s2) by congruence. subst. rewrite D1, D2. now apply bup_digest_diff.
Qed.
Print Assumptions C68_rollsum.

(** ... and their order: two bytes of the window that change places. *)
Theorem C68_rollsum_swap : forall w p m b x y s1 s2, (S (length m + length b) < low_bit w)%nat ->
  roll_bytes (rollsum_incr_new w) (p ++ x :: m ++ y :: b) = Ok s1 -> roll_bytes (rollsum_incr_new w) (p ++ y :: m ++ x :: b) = Ok s2 ->
  (rollsum_incr_digest s1 = rollsum_incr_digest s2 <-> ((Z.of_nat (length m) + 1) * (b2z y - b2z x)) mod 65536 = 0) /\
  ((length m <= 256)%nat -> (rollsum_incr_digest s1 = rollsum_incr_digest s2 <-> x = y)).
Proof.
  intros w p m b x y s1 s2 Hb E1 E2. assert (Hw : (1 <= w)%nat) by (destruct w; [cbn in Hb; lia|lia]).
  destruct (digest_of_any w (p ++ x :: m ++ y :: b) Hw) as (t1 & F1 & D1). destruct (digest_of_any w (p ++ y :: m ++ x :: b) Hw) as (t2 & F2 & D2).
  assert (t1 = s1) by congruence. assert (t2 = s2) by congruence. subst. rewrite D1, D2. assert (K := bup_digest_swap w p m b x y Hb). change 65536 with (2 ^ 16).
  split; [exact K|]. intros Hm. rewrite K. split; [apply swap_short; lia|]. intros <-. rewrite Z.sub_diag, Z.mul_0_r. reflexivity.
Qed.
Print Assumptions C68_rollsum_swap.

(** ** GzipRsyncable: the sum sees every byte of the window *)
Theorem C68_gzip : forall w m p b x y sched1 sched2 r1 r2, 0 < m -> (length b < w)%nat -> let g := gzip_with_window_and_modulus w m in
  run_incr 0 (gzip_incr g) (p ++ x :: b) sched1 = Ok r1 -> run_incr 0 (gzip_incr g) (p ++ y :: b) sched2 = Ok r2 -> differ_here p b x y r1 r2 ->
  (gzi_accum (r_state r1) = gzi_accum (r_state r2) <-> x = y).
Proof.
  intros w m p b x y sched1 sched2 r1 r2 Hm Hb g E1 E2 (B1 & B2 & B3 & B4).
  assert (K := run_state 0 (gzip_incr g) _ _ _ (ends_at_laws _) any_length_down (gzip_push_ok g Hm ltac:(cbn; lia)) (gzip_new_rel g)).
  destruct (conj (K _ _ _ I E1 B1 _ eq_refl) (K _ _ _ I E2 B2 _ (eq_sym B3))) as [(_ & R1) (_ & R2)]. rewrite !skipn_change in R1, R2 by exact B4.
  exact (via _ _ _ _ _ _ R1 R2 (gzip_sum_diff w _ b x y Hb)).
Qed.
Print Assumptions C68_gzip.

(** ** PigzRsyncable: a byte [k] back has [bits - k] of its bits in the hash *)
Theorem C68_pigz : forall bits g p b x y sched1 sched2 r1 r2, pigz_with_bits bits = Ok g ->
  run_incr 0 (pigz_incr g) (p ++ x :: b) sched1 = Ok r1 -> run_incr 0 (pigz_incr g) (p ++ y :: b) sched2 = Ok r2 -> differ_here p b x y r1 r2 ->
  (r_state r1 = r_state r2 <-> (Z.lxor (b2z x) (b2z y) * 2 ^ Z.of_nat (length b)) mod 2 ^ bits = 0).
Proof.
  intros bits g p b x y sched1 sched2 r1 r2 Eg E1 E2 (B1 & B2 & B3 & B4).
  assert (K := run_state 0 (pigz_incr g) _ _ _ (ends_at_laws _) any_length_down (pigz_push_ok bits g Eg) (pigz_new_rel bits g Eg)).
  destruct (conj (K _ _ _ I E1 B1 _ eq_refl) (K _ _ _ I E2 B2 _ (eq_sym B3))) as [R1 R2]. rewrite !skipn_change in R1, R2 by exact B4.
  assert (Hb : 0 <= bits) by (apply pigz_ctor_inv in Eg; lia). exact (via _ _ _ _ _ _ R1 R2 (pigz_hash_diff bits _ b x y Hb)).
Qed.
Print Assumptions C68_pigz.

(** ** Gear32: the last 15 bytes are always seen; the byte before them is not *)
Theorem C68_gear : forall n g p b x y sched1 sched2 r1 r2, gear_with_average_size_log2 n = Ok g ->
  run_incr 1 (gear_incr g) (p ++ x :: b) sched1 = Ok r1 -> run_incr 1 (gear_incr g) (p ++ y :: b) sched2 = Ok r2 -> differ_here p b x y r1 r2 ->
  ((length b < 32)%nat -> (r_state r1 = r_state r2 <-> (2 ^ Z.of_nat (length b) * (table_at GEAR_32 y - table_at GEAR_32 x)) mod 2 ^ 32 = 0)) /\
  ((length b < 15)%nat -> (r_state r1 = r_state r2 <-> x = y)).
Proof.
  intros n g p b x y sched1 sched2 r1 r2 Eg E1 E2 (B1 & B2 & B3 & B4).
  assert (K := run_state 1 (gear_incr g) _ _ _ (ends_at_laws _) any_length_down (gear_push_at n g Eg) eq_refl).
  destruct (conj (K _ _ _ I E1 B1 _ eq_refl) (K _ _ _ I E2 B2 _ (eq_sym B3))) as [R1 R2]. rewrite !skipn_change in R1, R2 by exact B4.
  split; intros Hb; [exact (via _ _ _ _ _ _ R1 R2 (gear_diff _ b x y Hb))|]. refine (via _ _ _ _ _ _ R1 R2 _). rewrite gear_diff by lia. split; [|intros <-; rewrite Z.sub_diag, Z.mul_0_r; reflexivity].
  apply (distinct_low_shift GEAR_32 18); [lia|lia|lia|]. apply distinct_low_check; [lia|reflexivity|vm_compute; reflexivity].
Qed.
Print Assumptions C68_gear.

Lemma fc_rel_same : forall f s1 s2 c1 c2, fc_rel f s1 c1 -> fc_rel f s2 c2 -> length c1 = length c2 -> (s1 = s2 <-> fc_hash f c1 = fc_hash f c2).
Proof.
  intros f [l1 f1] [l2 f2] c1 c2 [L1 F1] [L2 F2] L. cbn [fc_l fc_fp] in *. rewrite <- F1, <- F2. split; [intros E; congruence|intros E; congruence].
Qed.

(** ** FastCdc: bytes below the minimum size are never seen, those above it like in Gear32; with the crate's table the
    last 48 of them always *)
Theorem C68_fastcdc : forall f p b x y sched1 sched2 r1 r2, fastcdc_ok f -> Z.of_nat (length (p ++ x :: b)) < 2 ^ 64 ->
  run_incr 0 (fastcdc_incr f) (p ++ x :: b) sched1 = Ok r1 -> run_incr 0 (fastcdc_incr f) (p ++ y :: b) sched2 = Ok r2 -> differ_here p b x y r1 r2 ->
  let at_offset := Z.of_nat (length p - last_cut r1) in
  (at_offset < fc_min_size f -> r_state r1 = r_state r2) /\
  (fc_min_size f <= at_offset ->
    (r_state r1 = r_state r2 <-> (2 ^ Z.of_nat (length b) * (table_at (fc_gear f) y - table_at (fc_gear f) x)) mod 2 ^ 64 = 0) /\
    (fc_gear f = GEAR_64 -> (length b < 48)%nat -> (r_state r1 = r_state r2 <-> x = y))).
Proof.
  intros f p b x y sched1 sched2 r1 r2 Hf Hl E1 E2 (B1 & B2 & B3 & B4). cbv zeta.
  assert (Hl2 : Z.of_nat (length (p ++ y :: b)) < 2 ^ 64) by (rewrite app_length in *; exact Hl).
  assert (K := run_state 0 (fastcdc_incr f) _ _ _ (fc_laws f (proj1 (proj2 Hf))) below_down (fc_push_ok f Hf) (fc_default_rel f)).
  destruct (conj (K _ _ _ Hl E1 B1 _ eq_refl) (K _ _ _ Hl2 E2 B2 _ (eq_sym B3))) as [R1 R2]. rewrite !skipn_change in R1, R2 by exact B4.
  set (a := skipn (last_cut r1) p) in *. assert (La : length a = (length p - last_cut r1)%nat) by apply skipn_length. rewrite <- La.
  assert (S : r_state r1 = r_state r2 <-> fc_hash f (a ++ x :: b) = fc_hash f (a ++ y :: b)).
  { apply (fc_rel_same f (r_state r1) (r_state r2) _ _ R1 R2). rewrite !app_length. reflexivity. }
  split; [intros H; apply S; now apply fc_skipped|]. intros H. rewrite S, fc_diff by exact H. split; [reflexivity|].
  intros Eg Hb. rewrite Eg. split; [|intros <-; rewrite Z.sub_diag, Z.mul_0_r; reflexivity].
  apply (distinct_low_shift GEAR_64 17); [lia|lia|lia|]. apply distinct_low_check; [lia|reflexivity|vm_compute; reflexivity].
Qed.
Print Assumptions C68_fastcdc.

(** ** BuzHash: the hash sees every byte of the window, provided the byte hash does *)
Theorem C68_buz : forall k mask h max q hv p b x y sched1 sched2 r1 r2, buzhash_new k mask h max = Ok q -> byte_hash h hv ->
  Z.of_nat (length (p ++ x :: b)) < 2 ^ 64 -> (length b < k)%nat ->
  run_incr 0 (buz_incr q) (p ++ x :: b) sched1 = Ok r1 -> run_incr 0 (buz_incr q) (p ++ y :: b) sched2 = Ok r2 -> differ_here p b x y r1 r2 ->
  (bzi_state (r_state r1) = bzi_state (r_state r2) <-> hv x = hv y).
Proof.
  intros k mask h max q hv p b x y sched1 sched2 r1 r2 Eq Hh Hl Hb E1 E2 (B1 & B2 & B3 & B4).
  assert (Hl2 : Z.of_nat (length (p ++ y :: b)) < 2 ^ 64) by (rewrite app_length in *; exact Hl).
  destruct (buz_new_good k mask h max q hv Eq Hh) as (G & Ek & _).
  assert (K := run_state 0 (buz_incr q) _ _ _ (ends_at_laws _) below_down (buz_push_ok q hv G) (buz_incr_new_rel q hv G)).
  destruct (conj (K _ _ _ Hl E1 B1 _ eq_refl) (K _ _ _ Hl2 E2 B2 _ (eq_sym B3))) as [(R1 & _) (R2 & _)]. rewrite !skipn_change in R1, R2 by exact B4.
  rewrite Ek in R1, R2. exact (via _ _ _ _ _ _ R1 R2 (buz_diff hv k _ b x y (fun v => proj2 (Hh v)) Hb)).
Qed.
Print Assumptions C68_buz.

(** The byte hashes of the crate do, whatever the salt and the seed. *)
Theorem C68_byte_hashes : forall salt seed x y,
  (table_at GO_BUZHASH x = table_at GO_BUZHASH y <-> x = y) /\
  (nth (Z.to_nat (Z.lxor (b2z x) (b2z salt))) GO_BUZHASH 0 = nth (Z.to_nat (Z.lxor (b2z y) (b2z salt))) GO_BUZHASH 0 <-> x = y) /\
  (Z.lxor (table_at BORG_BUZHASH_BASE x) seed = Z.lxor (table_at BORG_BUZHASH_BASE y) seed <-> x = y).
Proof.
  intros salt seed x y. destruct C68_tables as [T _].
  assert (K : forall t i j, In t [GEAR_32; GEAR_64; GO_BUZHASH; BORG_BUZHASH_BASE] -> 0 <= i < 256 -> 0 <= j < 256 -> nth (Z.to_nat i) t 0 = nth (Z.to_nat j) t 0 -> i = j).
  { intros t i j Ht Hi Hj E. destruct (T t Ht) as (L & N & _). apply Z2Nat.inj; try lia. apply (proj1 (NoDup_nth t 0) N); [lia|lia|exact E]. }
  assert (X := b2z_range x). assert (Y := b2z_range y). assert (X2 := lxor_byte x salt). assert (Y2 := lxor_byte y salt). repeat split; try (now intros ->).
  - intros E. apply b2z_inj. apply (K GO_BUZHASH); [cbn; tauto|lia|lia|exact E].
  - intros E. apply K in E; [|cbn; tauto|lia|lia]. apply b2z_inj. apply (f_equal (fun v => Z.lxor v (b2z salt))) in E.
    now rewrite !Z.lxor_assoc, Z.lxor_nilpotent, !Z.lxor_0_r in E.
  - intros E. apply b2z_inj. apply (K BORG_BUZHASH_BASE); [cbn; tauto|lia|lia|]. apply (f_equal (fun v => Z.lxor v seed)) in E.
    rewrite !Z.lxor_assoc, Z.lxor_nilpotent, !Z.lxor_0_r in E. exact E.
Qed.
Print Assumptions C68_byte_hashes.

(** The bounds 15, 48 and 257 cannot be raised: a byte 15 back in Gear32, one 48 back in FastCdc, two bytes 512 apart in
    RollSum (none of these runs cuts); one place less, and the hashes differ. *)
Definition gear_run (n : nat) (x : byte) := run_incr 1 (gear_incr {| gear_mask := Z.shiftl (2 ^ 31 - 1) 1; gear_xxx := 0; gear_gear := GEAR_32 |}) (x :: repeat x01 n) [S n].
Definition fast_run (n : nat) (x : byte) := run_incr 0 (fastcdc_incr (fastcdc_new GEAR_64 0 1 4096)) (x :: repeat x01 n) [S n].
Definition swap_digest (w : nat) (x y : byte) (n : nat) : option Z :=
  match roll_bytes (rollsum_incr_new w) (x :: repeat x01 n ++ [y; x05]) with Ok s => Some (rollsum_incr_digest s) | _ => None end.
Definition seen_state {St} (r : res (run St)) : option (St * list nat * nat) := match r with Ok r => Some (r_state r, r_cuts r, r_base r) | _ => None end.
Example C68_case :
  gear_with_average_size_log2 31 = Ok {| gear_mask := Z.shiftl (2 ^ 31 - 1) 1; gear_xxx := 0; gear_gear := GEAR_32 |} /\
  seen_state (gear_run 15 xa0) = seen_state (gear_run 15 x7b) /\ seen_state (gear_run 14 xa0) <> seen_state (gear_run 14 x7b) /\
  seen_state (fast_run 48 x9b) = seen_state (fast_run 48 x5d) /\ seen_state (fast_run 47 x9b) <> seen_state (fast_run 47 x5d) /\
  option_map (fun v => (snd (fst v), snd v)) (seen_state (gear_run 15 xa0)) = Some ([], 16%nat) /\
  option_map (fun v => (snd (fst v), snd v)) (seen_state (fast_run 48 x9b)) = Some ([], 49%nat) /\
  swap_digest 1024 x80 x00 511 = swap_digest 1024 x00 x80 511 /\ swap_digest 1024 x80 x00 510 <> swap_digest 1024 x00 x80 510 /\
  swap_digest 64 x80 x00 61 <> swap_digest 64 x00 x80 61.
Proof. vm_compute. repeat split; try reflexivity; discriminate. Qed.
