(** * Sensitive: what changing one byte does to the rules. *)

From Verif Require Import Base Api Tables Spec Lists Contract Words CutFacts PigzProofs GearProofs ZstdProofs ZstdEdge BupAny Window BuzProofs.

Lemma rev_mid : forall (a b : list byte) x, rev (a ++ x :: b) = rev b ++ x :: rev a.
Proof. intros a b x. rewrite rev_app_distr. cbn [rev]. now rewrite <- app_assoc. Qed.

Lemma firstn_mid : forall (b t : list byte) x w, (length b < w)%nat -> firstn w (b ++ x :: t) = b ++ x :: firstn (w - S (length b)) t.
Proof.
  intros b t x w H. rewrite firstn_app_ge by lia. replace (w - length b)%nat with (S (w - S (length b))) by lia. reflexivity.
Qed.

Lemma diff_mod : forall m u v d, 0 < m -> v = u + d -> u mod m = v mod m <-> d mod m = 0.
Proof.
  intros m u v d Hm ->. split; intros H.
  - replace d with ((u + d) - u) by ring. rewrite Zminus_mod, H, Z.sub_diag. apply Z.mod_0_l. lia.
  - rewrite (Zplus_mod u d), H, Z.add_0_r, Z.mod_mod by lia. reflexivity.
Qed.

Lemma byte_diff_mod : forall m x y, 256 <= m -> (b2z y - b2z x) mod m = 0 -> x = y.
Proof.
  intros m x y Hm H. apply Z.mod_divide in H; [|lia]. destruct H as (k & H). assert (Bx := b2z_range x). assert (By := b2z_range y).
  assert (k = 0) by nia. subst k. apply b2z_inj. lia.
Qed.

(** ** Zstd *)
Lemma zstd_hash_change : forall a b x y, (length b < 32)%nat -> exists u, 
  zstd_hash (a ++ x :: b) = u mod 2 ^ 64 /\ zstd_hash (a ++ y :: b) = (u + (b2z y - b2z x) * zstd_prime ^ Z.of_nat (length b)) mod 2 ^ 64.
Proof.
  intros a b x y Hb. unfold zstd_hash. rewrite !rev_mid, !firstn_mid by (rewrite rev_length; exact Hb). rewrite !power_sum_app. cbn [power_sum].
  rewrite rev_length. cbn [Nat.add]. eexists. split; [reflexivity|]. f_equal. ring.
Qed.

Lemma zstd_sensitive : forall bits a b x y, 8 <= bits <= 64 -> (length b < 32)%nat -> zstd_rule bits (a ++ x :: b) -> zstd_rule bits (a ++ y :: b) -> x = y.
Proof.
  intros bits a b x y Hbits Hb [_ H1] [_ H2]. destruct (zstd_hash_change a b x y Hb) as (u & E1 & E2).
  rewrite E1, mod_64_bits in H1 by lia. rewrite E2, mod_64_bits in H2 by lia.
  assert (P : 0 < 2 ^ bits) by (apply Z.pow_pos_nonneg; lia).
  assert (D := proj1 (diff_mod (2 ^ bits) u _ _ P eq_refl) (eq_trans H1 (eq_sym H2))).
  apply odd_unit in D; [|lia|apply prime_pow_odd; lia]. apply (byte_diff_mod (2 ^ bits)); [|exact D].
  change 256 with (2 ^ 8). apply Z.pow_le_mono_r; lia.
Qed.

(** ** RollSum *)
Lemma bup_change : forall w a b x y, (length b < w)%nat -> bup_s2 w (a ++ y :: b) = bup_s2 w (a ++ x :: b) + (Z.of_nat (length b) + 1) * (b2z y - b2z x).
Proof.
  intros w a b x y Hb. unfold bup_s2. rewrite !rev_mid, !firstn_mid by (rewrite rev_length; exact Hb). rewrite !aged_sum_app. cbn [aged_sum].
  rewrite rev_length. cbn [Nat.add]. ring.
Qed.

Lemma bup_incr_change : forall w a b x y, (length b < low_bit w)%nat ->
  bup_incr_s2 w (a ++ y :: b) = bup_incr_s2 w (a ++ x :: b) + (Z.of_nat (length b) + 1) * (b2z y - b2z x).
Proof.
  intros w a b x y Hb. unfold bup_incr_s2. rewrite !rev_mid, !firstn_mid by (rewrite rev_length; exact Hb). rewrite !aged_sum_app. cbn [aged_sum].
  assert (S : forall z, skipn (low_bit w) (rev b ++ z :: rev a) = skipn (low_bit w - S (length b)) (rev a)).
  { intros z. rewrite skipn_app_ge by (rewrite rev_length; lia). rewrite rev_length. replace (low_bit w - length b)%nat with (S (low_bit w - S (length b))) by lia. reflexivity. }
  rewrite !S, rev_length. cbn [Nat.add]. ring.
Qed.

Lemma bup_sensitive : forall w a b x y, (length b < w)%nat -> bup_rule w (a ++ x :: b) ->
  (bup_rule w (a ++ y :: b) <-> ((Z.of_nat (length b) + 1) * (b2z y - b2z x)) mod 8192 = 0).
Proof.
  intros w a b x y Hb H. unfold bup_rule in *. rewrite <- (diff_mod 8192 _ _ _ ltac:(lia) (bup_change w a b x y Hb)), H. split; congruence.
Qed.
Lemma bup_incr_sensitive : forall w a b x y, (length b < low_bit w)%nat -> bup_incr_rule w (a ++ x :: b) ->
  (bup_incr_rule w (a ++ y :: b) <-> ((Z.of_nat (length b) + 1) * (b2z y - b2z x)) mod 8192 = 0).
Proof.
  intros w a b x y Hb H. unfold bup_incr_rule in *. rewrite <- (diff_mod 8192 _ _ _ ltac:(lia) (bup_incr_change w a b x y Hb)), H. split; congruence.
Qed.

(** For the weights up to 64 that is one case only. *)
Lemma weight_8192 : forall k x y, 1 <= k <= 64 -> x <> y -> ((k * (b2z y - b2z x)) mod 8192 = 0 <-> k = 64 /\ Z.abs (b2z y - b2z x) = 128).
Proof.
  intros k x y Hk N. assert (Bx := b2z_range x). assert (By := b2z_range y). assert (D : b2z y - b2z x <> 0) by (intros E; apply N, b2z_inj; lia).
  set (d := b2z y - b2z x) in *. assert (Hd : -255 <= d <= 255) by (unfold d; lia). split.
  - intros H. apply Z.mod_divide in H; [|lia]. destruct H as (q & H). assert (-1 <= q <= 1) by nia. assert (q <> 0) by nia.
    assert (q = 1 \/ q = -1) as [-> | ->] by lia.
    + assert (k * d = 8192) by lia. clearbody d. assert (32 < d) by nia.
      assert (forall z, 33 <= z <= 255 -> 8192 mod z = 0 -> z = 64 \/ z = 128) as F.
      { intros z Hz Hm. assert (A := forallb_forall (fun z => orb (negb (8192 mod Z.of_nat z =? 0)) (orb (Nat.eqb z 64) (Nat.eqb z 128))) (seq 33 223)).
        assert (B : forallb (fun z => orb (negb (8192 mod Z.of_nat z =? 0)) (orb (Nat.eqb z 64) (Nat.eqb z 128))) (seq 33 223) = true) by (vm_compute; reflexivity).
        assert (X := proj1 A B (Z.to_nat z) ltac:(apply in_seq; lia)). cbv beta in X. rewrite Z2Nat.id, Hm in X by lia. cbn [negb orb Z.eqb] in X.
        apply orb_prop in X. destruct X as [X|X]; apply Nat.eqb_eq in X; lia. }
      assert (d = 64 \/ d = 128) as [-> | ->] by (apply F; [lia|]; apply Z.mod_divide; [lia|]; exists k; lia); lia.
    + assert (k * (- d) = 8192) by lia. clearbody d. assert (32 < - d) by nia.
      assert (forall z, 33 <= z <= 255 -> 8192 mod z = 0 -> z = 64 \/ z = 128) as F.
      { intros z Hz Hm. assert (A := forallb_forall (fun z => orb (negb (8192 mod Z.of_nat z =? 0)) (orb (Nat.eqb z 64) (Nat.eqb z 128))) (seq 33 223)).
        assert (B : forallb (fun z => orb (negb (8192 mod Z.of_nat z =? 0)) (orb (Nat.eqb z 64) (Nat.eqb z 128))) (seq 33 223) = true) by (vm_compute; reflexivity).
        assert (X := proj1 A B (Z.to_nat z) ltac:(apply in_seq; lia)). cbv beta in X. rewrite Z2Nat.id, Hm in X by lia. cbn [negb orb Z.eqb] in X.
        apply orb_prop in X. destruct X as [X|X]; apply Nat.eqb_eq in X; lia. }
      assert (- d = 64 \/ - d = 128) as [E | E] by (apply F; [lia|]; apply Z.mod_divide; [lia|]; exists k; lia); nia.
  - intros [-> E]. assert (d = 128 \/ d = -128) as [-> | ->] by lia; reflexivity.
Qed.

(** ** PigzRsyncable *)
Lemma pigz_sensitive : forall bits a b x y, 0 <= bits -> Z.of_nat (length b) < bits -> pigz_rule bits (a ++ x :: b) ->
  (pigz_rule bits (a ++ y :: b) <-> (Z.lxor (b2z x) (b2z y) * 2 ^ Z.of_nat (length b)) mod 2 ^ bits = 0).
Proof.
  intros bits a b x y Hb Hl. set (k := Z.of_nat (length b)) in *.
  assert (E : forall z, pigz_rule bits (a ++ z :: b) <->
    Z.lxor ((b2z z * 2 ^ k) mod 2 ^ bits) (Z.lxor ((2 ^ bits - 1) / 2 * 2 ^ Z.of_nat (length (a ++ x :: b))) (Z.lxor (xor_sum 0 (rev b)) (xor_sum (S (length b)) (rev a))) mod 2 ^ bits) = (2 ^ bits - 1) / 2).
  { intros z. unfold pigz_rule. cbv zeta. replace (length (a ++ z :: b)) with (length (a ++ x :: b)) by (rewrite !app_length; reflexivity).
    rewrite rev_mid, xor_sum_app. cbn [xor_sum]. rewrite rev_length. cbn [Nat.add]. fold k.
    rewrite <- lxor_mod by lia. set (h := (2 ^ bits - 1) / 2 * _). set (u := xor_sum 0 (rev b)). set (v := xor_sum (S (length b)) (rev a)). set (p := b2z z * 2 ^ k).
    replace (Z.lxor p (Z.lxor h (Z.lxor u v))) with (Z.lxor h (Z.lxor u (Z.lxor p v))); [reflexivity|].
    apply Z.bits_inj'. intros i _. rewrite !Z.lxor_spec. destruct (Z.testbit p i), (Z.testbit h i), (Z.testbit u i), (Z.testbit v i); reflexivity. }
  rewrite (E x), (E y). clear E. set (R := _ mod 2 ^ bits) at 2 4. set (hit := (2 ^ bits - 1) / 2).
  assert (F : Z.lxor (b2z x) (b2z y) * 2 ^ k = Z.lxor (b2z x * 2 ^ k) (b2z y * 2 ^ k)).
  { rewrite <- !Z.shiftl_mul_pow2 by (unfold k; lia). apply Z.shiftl_lxor. }
  rewrite F, lxor_mod by lia. set (X := (b2z x * 2 ^ k) mod 2 ^ bits). set (Y := (b2z y * 2 ^ k) mod 2 ^ bits).
  intros H. rewrite Z.lxor_eq_0_iff. split.
  - intros H2. apply (f_equal (fun v => Z.lxor v R)) in H, H2. rewrite Z.lxor_assoc, Z.lxor_nilpotent, Z.lxor_0_r in H, H2. congruence.
  - intros <-. exact H.
Qed.

(** ** GzipRsyncable *)
Lemma gzip_change : forall w a b x y, (length b < w)%nat -> byte_sum (lastn w (a ++ y :: b)) = byte_sum (lastn w (a ++ x :: b)) + (b2z y - b2z x).
Proof.
  intros w a b x y Hb. unfold lastn. rewrite !app_length. cbn [length]. set (n := (length a + S (length b) - w)%nat).
  assert (Hn : (n <= length a)%nat) by lia. rewrite !skipn_app. replace (n - length a)%nat with 0%nat by lia. cbn [skipn]. rewrite !byte_sum_app. cbn [byte_sum]. ring.
Qed.

Lemma gzip_sensitive : forall w m a b x y, Z.of_nat w < 2 ^ 56 -> 0 < m -> (length b < w)%nat -> gzip_rule w m (a ++ x :: b) ->
  (gzip_rule w m (a ++ y :: b) <-> (b2z y - b2z x) mod m = 0).
Proof.
  intros w m a b x y Hw Hm Hb. unfold gzip_rule.
  assert (S : forall l, byte_sum (lastn w l) mod 2 ^ 64 = byte_sum (lastn w l)).
  { intros l. apply Z.mod_small. assert (B := byte_sum_range (lastn w l)). assert (L : (length (lastn w l) <= w)%nat) by (unfold lastn; rewrite skipn_length; lia).
    change (2 ^ 64) with (256 * 2 ^ 56). lia. }
  rewrite !S. intros H. rewrite <- (diff_mod m _ _ _ Hm (gzip_change w a b x y Hb)), H. split; congruence.
Qed.

(** ** Gear32 *)
Lemma gear_sensitive : forall n a b x y, 1 <= n <= 31 -> (length b < 32)%nat -> gear_rule n (a ++ x :: b) -> gear_rule n (a ++ y :: b) ->
  let d := (2 ^ Z.of_nat (length b) * (table_at GEAR_32 y - table_at GEAR_32 x)) mod 2 ^ 32 in d < 2 ^ (32 - n) \/ 2 ^ 32 - 2 ^ (32 - n) < d.
Proof.
  intros n a b x y Hn Hb H1 H2. cbv zeta. set (d := _ mod 2 ^ 32).
  assert (E : gear_fingerprint (a ++ y :: b) = (gear_fingerprint (a ++ x :: b) + d) mod 2 ^ 32).
  { unfold gear_fingerprint. rewrite !rev_mid, !firstn_mid by (rewrite rev_length; exact Hb). rewrite !power_sum_app. cbn [power_sum]. rewrite rev_length. cbn [Nat.add].
    unfold d. rewrite <- Zplus_mod. f_equal. ring. }
  unfold gear_rule in *. rewrite E in H2. set (f := gear_fingerprint (a ++ x :: b)) in *.
  assert (Bf : 0 <= f < 2 ^ 32) by (unfold f, gear_fingerprint; apply Z.mod_pos_bound; lia). assert (Bd : 0 <= d < 2 ^ 32) by (apply Z.mod_pos_bound; lia).
  destruct (Z.lt_ge_cases (f + d) (2 ^ 32)) as [G|G]; [left; rewrite Z.mod_small in H2 by lia; lia|right; lia].
Qed.

(** ** BuzHash *)
Lemma cyclic_split : forall h u v i, cyclic h i (u ++ v) = Z.lxor (cyclic h i u) (cyclic h (i + length u) v).
Proof.
  intros h u. induction u as [|c u IH]; intros v i; cbn [app cyclic length].
  - now rewrite Z.lxor_0_l, Nat.add_0_r.
  - rewrite IH, Z.lxor_assoc. do 3 f_equal. lia.
Qed.

Section Buz.
  Variable hv : byte -> Z.

  Lemma buz_change : forall k a b x y, (length b < k)%nat ->
    buz_hash hv k (a ++ y :: b) = Z.lxor (buz_hash hv k (a ++ x :: b)) (Z.lxor (rot32 (Z.of_nat (length b)) (hv x)) (rot32 (Z.of_nat (length b)) (hv y))).
  Proof.
    intros k a b x y Hb. unfold buz_hash. rewrite !rev_mid, !cyclic_split. cbn [cyclic]. rewrite rev_length. cbn [Nat.add].
    assert (S : forall z, skipn k (rev b ++ z :: rev a) = skipn (k - S (length b)) (rev a)).
    { intros z. rewrite skipn_app_ge by (rewrite rev_length; lia). rewrite rev_length. replace (k - length b)%nat with (S (k - S (length b))) by lia. reflexivity. }
    rewrite !S. set (p := cyclic hv 0 (rev b)). set (q := cyclic hv (Datatypes.S (length b)) (rev a)). set (s := cyclic hv (k mod 8) _).
    set (X := rot32 _ (hv x)). set (Y := rot32 _ (hv y)).
    apply Z.bits_inj'. intros i _. rewrite !Z.lxor_spec. destruct (Z.testbit p i), (Z.testbit q i), (Z.testbit s i), (Z.testbit X i), (Z.testbit Y i); reflexivity.
  Qed.

  Lemma buz_sensitive : forall k mask a b x y, (length b < k)%nat -> buz_rule hv k mask (a ++ x :: b) ->
    (buz_rule hv k mask (a ++ y :: b) <->
     bits_clear (Z.lxor (rot32 (Z.of_nat (length b)) (hv x)) (rot32 (Z.of_nat (length b)) (hv y))) mask).
  Proof.
    intros k mask a b x y Hb H. unfold buz_rule, bits_set, bits_clear in *. rewrite (buz_change k a b x y Hb). split; intros G i Hi Ti; specialize (G i Hi Ti); specialize (H i Hi Ti).
    - rewrite Z.lxor_spec, H in G. destruct (Z.testbit (Z.lxor _ (rot32 _ (hv y))) i); [discriminate|reflexivity].
    - rewrite Z.lxor_spec, H, G. reflexivity.
  Qed.
End Buz.
