(** * PropsDensity2: C66 for FastCdc, GzipRsyncable, Zstd, Mii and Ram. *)

From Coq Require Import ZifyBool ZifyNat.
From Verif Require Import Base Api Tables Spec Lists Contract CutFacts Mii Ram Gzip FastCdc Zstd.
From Verif Require Import Builtin BuiltinProofs Agree CutProps Cases Count Density Density2 PropsDensity PropsZstd.

(** What is counted for an algorithm that begins anew after a cut: the streams whose first chunk, by either API, has [n] bytes. *)
Definition first_share (c : config) (CI : Incr) (CC : Chunk) (sh : bool) (sched : list byte -> list nat) (n : nat) : Z * Z :=
  (count n (first_cut_at n (push_cuts (incr_adj c) CI sched)), count n (first_cut_at n (edge_cuts sh CC sched))).

Lemma first_cut_any : forall r n d cs, cuts_of (ends_at r) [] d cs -> match cs with p :: _ => Nat.eqb n p | [] => false end = true -> r [] (firstn n d).
Proof. intros r n d cs H. inversion H as [|h d' k cs' F H' E1 E2 E3]; subst; [discriminate|]. intros E. apply Nat.eqb_eq in E. cbn [length Nat.add] in E. subst k. apply F. Qed.

Lemma first_share_le : forall c CI CC rule P sh sched n, typed c -> incr_of c = Ok CI -> chunk_of c = Ok CC -> incr_sound c -> chunk_sound c ->
  chunk_rule c = Some rule -> (exists r, incr_first c = ends_at r /\ forall d, r [] d -> rule d) -> decides P rule -> stream_len n ->
  fst (first_share c CI CC sh sched n) <= count n P /\ snd (first_share c CI CC sh sched n) <= count n P.
Proof.
  intros c CI CC rule P sh sched n T EI EC SI SC R (r & Er & Hr) D Hl. cbn [first_share fst snd].
  split; apply count_le; intros d <- F; apply D; rewrite <- (firstn_all d).
  - apply Hr. assert (H := push_cuts_spec c CI sched d T EI SI Hl). rewrite Er in H. exact (first_cut_any _ _ _ _ H F).
  - exact (first_cut_rule _ _ _ _ (edge_cuts_spec c CC rule sh sched d T EC SC R Hl) F).
Qed.

(** ** GzipRsyncable *)

Definition gzip_test (w : nat) (m : Z) (c : list byte) : bool := (byte_sum (lastn w c) mod 2 ^ 64) mod m =? 0.
Lemma gzip_test_ok : forall w m, decides (gzip_test w m) (gzip_rule w m).
Proof. intros w m c. apply Z.eqb_eq. Qed.

(** The share is [1 / modulus] for a modulus that divides 256, otherwise within one byte in 256 of it. *)
Theorem C66_gzip_rule : forall w m n, (1 <= w)%nat -> 1 <= m -> (1 <= n)%nat -> Z.of_nat n <= 2 ^ 56 ->
  256 / m * 256 ^ (Z.of_nat n - 1) <= count n (gzip_test w m) <= (256 + m - 1) / m * 256 ^ (Z.of_nat n - 1) /\
  (256 mod m = 0 -> m * count n (gzip_test w m) = 256 ^ Z.of_nat n).
Proof.
  intros w m n Hw Hm Hn Hl. destruct n as [|n]; [lia|]. assert (B := gzip_density w m n _ Hw Hm ltac:(lia) (gzip_test_ok w m)).
  replace (Z.of_nat (S n) - 1) with (Z.of_nat n) by lia. split; [exact B|]. intros Z0.
  assert (D := Z.div_mod 256 m ltac:(lia)). rewrite Z0, Z.add_0_r in D.
  assert (E : (256 + m - 1) / m = 256 / m) by (symmetry; apply Z.div_unique with (m - 1); [left; lia|lia]). rewrite E in B.
  rewrite Nat2Z.inj_succ, Z.pow_succ_r by lia. rewrite D at 1. rewrite <- Z.mul_assoc. f_equal. lia.
Qed.
Print Assumptions C66_gzip_rule.

Theorem C66_gzip_first : forall w m CI CC sh sched n, (1 <= w)%nat -> 1 <= m < 2 ^ 64 -> (1 <= n)%nat -> Z.of_nat n <= 2 ^ 56 ->
  incr_of (CfgGzip w m) = Ok CI -> chunk_of (CfgGzip w m) = Ok CC ->
  let top := (256 + m - 1) / m * 256 ^ (Z.of_nat n - 1) in
  fst (first_share (CfgGzip w m) CI CC sh sched n) <= top /\ snd (first_share (CfgGzip w m) CI CC sh sched n) <= top.
Proof.
  intros w m CI CC sh sched n Hw Hm Hn Hl EI EC top. destruct (C66_gzip_rule w m n Hw ltac:(lia) Hn Hl) as [[_ B] _].
  destruct (first_share_le (CfgGzip w m) CI CC (gzip_rule w m) (gzip_test w m) sh sched n) as [A1 A2]; try assumption; try reflexivity.
  - cbn. unfold is_u64. lia.
  - cbn. lia.
  - cbn. lia.
  - exists (per_chunk (gzip_rule w m)). split; [reflexivity|]. intros d X. exact X.
  - apply gzip_test_ok.
  - unfold stream_len. lia.
  - split; etransitivity; eassumption.
Qed.
Print Assumptions C66_gzip_first.

(** ** Zstd: at most one stream in 65536 has a cut at a given position (the mask has at least 20 bits) *)

Definition zstd_test (bits : Z) (c : list byte) : bool := Nat.leb 33 (length c) && (zstd_hash c mod 2 ^ bits =? 2 ^ bits - 1).
Lemma zstd_test_ok : forall bits, decides (zstd_test bits) (zstd_rule bits).
Proof. intros bits c. unfold zstd_test, zstd_rule. now rewrite andb_true_iff, Nat.leb_le, Z.eqb_eq. Qed.

Theorem C66_zstd_push : forall t CI sched n L, is_u64 t -> incr_of (CfgZstd t) = Ok CI -> (1 <= n <= L)%nat -> stream_len L ->
  65536 * count L (cut_at n (push_cuts 1 CI sched)) <= 256 ^ Z.of_nat L /\
  ((n < 33)%nat -> count L (cut_at n (push_cuts 1 CI sched)) = 0).
Proof.
  intros t CI sched n L T EI Hn Hl.
  assert (Hb : 20 <= bits_of t <= 51).
  { cbn in EI. destruct (zstd_with_target_section_size t) as [p| |] eqn:Ep; cbn [bind] in EI; try discriminate EI. apply (zstd_new_inv t p T) in Ep. lia. }
  assert (E : count L (cut_at n (push_cuts 1 CI sched)) = 256 ^ (Z.of_nat L - Z.of_nat n) * count n (zstd_test (bits_of t))).
  { apply count_prefix; [lia|]. intros d Ld. apply same_bool. unfold cut_at. rewrite existsb_In, (zstd_test_ok (bits_of t) (firstn n d)).
    assert (H := push_cuts_spec (CfgZstd t) CI sched d T EI I ltac:(now rewrite Ld)). cbn [incr_first incr_adj] in H. apply (stream_cut _ _ _ H). lia. }
  rewrite E. destruct (Nat.lt_ge_cases n 33) as [S|G].
  - assert (Z0 : count n (zstd_test (bits_of t)) = 0).
    { unfold count. assert (F : filter (zstd_test (bits_of t)) (strings n) = []); [|now rewrite F].
      assert (A : forall d, In d (strings n) -> zstd_test (bits_of t) d = false).
      { intros d I. apply strings_complete in I. unfold zstd_test. rewrite I. destruct (Nat.leb_spec 33 n); [lia|reflexivity]. }
      revert A. induction (strings n) as [|s l IH]; intros A; [reflexivity|]. cbn [filter]. rewrite (A s (or_introl eq_refl)). apply IH. intros d I. apply A. now right. }
    rewrite Z0, !Z.mul_0_r. split; [apply Z.pow_nonneg; lia|reflexivity].
  - split; [|lia]. assert (B := zstd_density (bits_of t) n _ ltac:(lia) G (zstd_test_ok (bits_of t))).
    replace (Z.of_nat L) with ((Z.of_nat L - Z.of_nat n) + Z.of_nat n) at 2 by lia. rewrite Z.pow_add_r by lia.
    rewrite Z.mul_shuffle3. apply Z.mul_le_mono_nonneg_l; [apply Z.pow_nonneg; lia|exact B].
Qed.
Print Assumptions C66_zstd_push.

(** ** Mii: [w + 1] increasing bytes are [256 * 255 * .. / (w + 1)!] of [256^(w + 1)] *)

Definition mii_test (w : Z) (c : list byte) : bool :=
  (1 <=? w) && (w <? Z.of_nat (length c)) && rising (-1) (lastn (Z.to_nat (w + 1)) c).
Lemma mii_test_ok : forall w, decides (mii_test w) (mii_rule w).
Proof.
  intros w c. unfold mii_test, mii_rule. rewrite !andb_true_iff, Z.leb_le, Z.ltb_lt, rising_increasing. split.
  - intros ((Hw & Hl) & I & _). split; [exact Hw|]. exists (firstn (length c - Z.to_nat (w + 1)) c), (lastn (Z.to_nat (w + 1)) c). unfold lastn in *.
    split; [now rewrite firstn_skipn|]. split; [rewrite skipn_length; lia|exact I].
  - intros (Hw & pre & tail & -> & Lt & I). rewrite app_length. split; [split; lia|]. rewrite lastn_app, lastn_all by lia.
    split; [exact I|]. intros b _. assert (X := b2z_range b). lia.
Qed.

Theorem C66_mii_rule : forall w n, 1 <= w -> w < Z.of_nat n ->
  factorial (Z.to_nat (w + 1)) * count n (mii_test w) = falling 256 (Z.to_nat (w + 1)) * 256 ^ (Z.of_nat n - w - 1).
Proof. intros w n Hw Hn. exact (mii_density w n _ Hw Hn (mii_test_ok w)). Qed.
Print Assumptions C66_mii_rule.

Theorem C66_mii_first : forall w CI CC sh sched n, 1 <= w < 2 ^ 64 -> w < Z.of_nat n -> stream_len n ->
  incr_of (CfgMii w) = Ok CI -> chunk_of (CfgMii w) = Ok CC ->
  let top := falling 256 (Z.to_nat (w + 1)) * 256 ^ (Z.of_nat n - w - 1) in
  factorial (Z.to_nat (w + 1)) * fst (first_share (CfgMii w) CI CC sh sched n) <= top /\
  factorial (Z.to_nat (w + 1)) * snd (first_share (CfgMii w) CI CC sh sched n) <= top.
Proof.
  intros w CI CC sh sched n Hw Hn Hl EI EC top. subst top. rewrite <- (C66_mii_rule w n ltac:(lia) Hn).
  destruct (first_share_le (CfgMii w) CI CC (mii_rule w) (mii_test w) sh sched n) as [A1 A2]; try assumption; try reflexivity; try exact I.
  - cbn. unfold is_u64. lia.
  - exists (mii_incr_rule w). split; [reflexivity|]. intros d X. exact X.
  - apply mii_test_ok.
  - assert (F : 0 <= factorial (Z.to_nat (w + 1))) by (clear; induction (Z.to_nat (w + 1)) as [|m IH]; cbn [factorial]; [lia|apply Z.mul_nonneg_nonneg; lia]).
    split; apply Z.mul_le_mono_nonneg_l; assumption.
Qed.
Print Assumptions C66_mii_first.

(** ** Ram: the last byte is at least as large as the others for the sum of [v^(n - 1)] over [v = 1 .. 256] streams *)

Definition ram_test (w : Z) (c : list byte) : bool :=
  match rev c with
  | b :: pre => (w <? Z.of_nat (length pre)) && forallb (fun x => b2z x <=? b2z b) pre
  | [] => false
  end.
Lemma ram_test_ok : forall w, decides (ram_test w) (ram_rule w).
Proof.
  intros w c. unfold ram_test, ram_rule. generalize (eq_sym (rev_involutive c)). destruct (rev c) as [|b pre]; intros ->; cbn [rev].
  - split; [discriminate|]. intros (pre & b & E & _). destruct pre; discriminate.
  - rewrite andb_true_iff, Z.ltb_lt, forallb_forall. split.
    + intros [L F]. exists (rev pre), b. split; [reflexivity|]. rewrite rev_length. split; [exact L|]. intros x I. apply in_rev in I. specialize (F x I). lia.
    + intros (pre' & b' & E & L & F). apply app_inj_tail in E as [<- <-]. rewrite rev_length in L. split; [exact L|]. intros x I. apply in_rev in I. specialize (F x I). lia.
Qed.

Theorem C66_ram_rule : forall w n, w + 1 < Z.of_nat n -> (1 <= n)%nat ->
  count n (ram_test w) = fold_right Z.add 0 (map (fun v => Z.of_nat v ^ (Z.of_nat n - 1)) (seq 1 256)).
Proof.
  intros w n Hn H1. destruct n as [|n]; [lia|]. rewrite (ram_density w n _ ltac:(lia) (ram_test_ok w)). replace (Z.of_nat (S n) - 1) with (Z.of_nat n) by lia.
  rewrite <- seq_shift, map_map. reflexivity.
Qed.
Print Assumptions C66_ram_rule.

Theorem C66_ram_first : forall w CI CC sh sched n, 0 <= w < 2 ^ 64 -> w + 1 < Z.of_nat n -> stream_len n ->
  incr_of (CfgRam w) = Ok CI -> chunk_of (CfgRam w) = Ok CC ->
  let top := fold_right Z.add 0 (map (fun v => Z.of_nat v ^ (Z.of_nat n - 1)) (seq 1 256)) in
  fst (first_share (CfgRam w) CI CC sh sched n) <= top /\ snd (first_share (CfgRam w) CI CC sh sched n) <= top.
Proof.
  intros w CI CC sh sched n Hw Hn Hl EI EC top. subst top. rewrite <- (C66_ram_rule w n Hn) by lia.
  apply (first_share_le (CfgRam w) CI CC (ram_rule w) (ram_test w) sh sched n); try assumption; try reflexivity; try exact I.
  - exists (per_chunk (ram_rule w)). split; [reflexivity|]. intros d X. exact X.
  - apply ram_test_ok.
Qed.
Print Assumptions C66_ram_first.

(** ** FastCdc with GEAR_64 (118 even and 138 odd entries): 15 bits below the normal size, 11 from there on *)

Definition fastcdc_test (min : nat) (normal : Z) (n : nat) (d : list byte) : bool := Z.land (fastcdc_fingerprint GEAR_64 min n d) (fastcdc_mask normal n) =? 0.
Lemma fastcdc_test_ok : forall min normal n d, fastcdc_test min normal n d = true <-> bits_clear (fastcdc_fingerprint GEAR_64 min n d) (fastcdc_mask normal n).
Proof.
  intros min normal n d. unfold fastcdc_test. rewrite Z.eqb_eq. symmetry. apply bits_clear_land. unfold fastcdc_mask. destruct (Z.of_nat n <? normal); lia.
Qed.
Definition mask_bits (normal : Z) (n : nat) : Z := if Z.of_nat n <? normal then 15 else 11.

Theorem C66_fastcdc_rule : forall min normal n, (min + 49 <= n)%nat ->
  let k := mask_bits normal n in
  118 ^ k * 256 ^ (Z.of_nat (S n) - k) <= count (S n) (fastcdc_test min normal n) <= 138 ^ k * 256 ^ (Z.of_nat (S n) - k).
Proof.
  intros min normal n Hn k. rewrite count_total. subst k. unfold mask_bits, fastcdc_test, fastcdc_mask. destruct (Z.of_nat n <? normal).
  - assert (B := fastcdc_mask_density min n 0x0003590703530000 15 Hn ltac:(lia) eq_refl). replace (Z.of_nat (S n) - 15) with (Z.of_nat (S n - 15)) by lia. exact B.
  - assert (B := fastcdc_mask_density min n 0x0000d90003530000 11 Hn ltac:(lia) eq_refl). replace (Z.of_nat (S n) - 11) with (Z.of_nat (S n - 11)) by lia. exact B.
Qed.
Print Assumptions C66_fastcdc_rule.

(** Streams of [L] bytes whose first chunk has [n] bytes. *)
Theorem C66_fastcdc_first : forall min normal max sched n L, typed (CfgFastCdc GEAR_64 min normal max) -> 1 <= min -> normal <= max ->
  min + 49 <= Z.of_nat n < max -> (n < L)%nat -> stream_len L ->
  let k := mask_bits normal n in
  count L (first_cut_at n (push_cuts 0 (fastcdc_incr (fastcdc_new GEAR_64 min normal max)) sched)) <= 138 ^ k * 256 ^ (Z.of_nat L - k).
Proof.
  intros min normal max sched n L T H1 H2 Hn HL Hl k. destruct (C66_fastcdc_rule (Z.to_nat min) normal n ltac:(lia)) as [_ B]. fold k in B.
  transitivity (256 ^ (Z.of_nat L - Z.of_nat (S n)) * count (S n) (fastcdc_test (Z.to_nat min) normal n)).
  - rewrite <- (count_prefix L (S n) (fun d => fastcdc_test (Z.to_nat min) normal n (firstn (S n) d)) _ ltac:(lia) (fun d _ => eq_refl)).
    apply count_le. intros d Ld F. apply fastcdc_test_ok.
    assert (H := push_cuts_spec (CfgFastCdc GEAR_64 min normal max) _ sched d T eq_refl ltac:(split; assumption) ltac:(now rewrite Ld)).
    cbn [incr_first incr_adj] in H. unfold first_cut_at in F. revert F. inversion H as [|h d' j cs' Fj H' E1 E2 E3]; [discriminate|]. intros F. apply Nat.eqb_eq in F.
    cbn [length Nat.add] in F. subst j. destruct Fj as (_ & _ & [St|[_ St]] & _); [lia|]. unfold fastcdc_fingerprint in *. now rewrite firstn_firstn, Nat.min_id.
  - assert (L0 : 0 <= k <= 15) by (subst k; unfold mask_bits; destruct (Z.of_nat n <? normal); lia).
    replace (Z.of_nat L - k) with ((Z.of_nat L - Z.of_nat (S n)) + (Z.of_nat (S n) - k)) by lia. rewrite Z.pow_add_r by lia.
    rewrite Z.mul_shuffle3. apply Z.mul_le_mono_nonneg_l; [apply Z.pow_nonneg; lia|exact B].
Qed.
Print Assumptions C66_fastcdc_first.

(** Two bytes: 32640 of 65536 rise, and in 32896 the second is at least as large; one byte in two is even. *)
Example C66_more_case :
  count 2 (mii_test 1) = 32640 /\ count 2 (ram_test 0) = 32896 /\ count 1 (gzip_test 2 2) = 128 /\
  mii_test 1 [x01; x02] = true /\ mii_test 1 [x02; x02] = false /\ ram_test 0 [x02; x02] = true /\ ram_test 0 [x02; x01] = false /\
  (match incr_of (CfgMii 1) with Ok C => first_cut_at 2 (push_cuts 0 C (fun _ => [])) [x01; x02] | _ => false end) = true /\
  zstd_test 20 (repeat x00 32) = false /\ fastcdc_test 0 64 50 (repeat x00 51) = false.
Proof.
  split; [generalize (C66_mii_rule 1 2 ltac:(lia) ltac:(lia)); generalize (count 2 (mii_test 1)); intros z X; change (2 * z = 65280) in X; lia|].
  split; [rewrite C66_ram_rule by lia; vm_compute; reflexivity|]. repeat apply conj; vm_compute; reflexivity.
Qed.
