(** * Density2: counting strings for the rules of FastCdc, GzipRsyncable, Zstd, Mii and Ram. *)

From Coq Require Import ZifyBool ZifyNat.
From Verif Require Import Base Tables Spec Lists Words Count Density.

(** ** Bits of a sum in which every byte is shifted by its age *)

Fixpoint ones (n : nat) (m : Z) : nat := match n with O => O | S n' => ((if Z.odd m then 1 else 0) + ones n' (m / 2))%nat end.
Lemma ones_le : forall n m, (ones n m <= n)%nat.
Proof. induction n as [|n IH]; intros m; [cbn; lia|]. cbn [ones]. specialize (IH (m / 2)). destruct (Z.odd m); lia. Qed.

Lemma land_step : forall x m, (Z.land x m =? 0) = andb (negb (Z.odd x && Z.odd m)) (Z.land (x / 2) (m / 2) =? 0).
Proof.
  intros x m. assert (E : Z.land x m = (if Z.odd x && Z.odd m then 1 else 0) + 2 * Z.land (x / 2) (m / 2)).
  { assert (D := Z.div_mod (Z.land x m) 2 ltac:(lia)). rewrite Zmod_odd in D. rewrite <- Z.bit0_odd, Z.land_spec, !Z.bit0_odd in D.
    assert (Q : Z.land x m / 2 = Z.land (x / 2) (m / 2)) by (change 2 with (2 ^ 1); rewrite <- !Z.shiftr_div_pow2 by lia; apply Z.shiftr_land).
    rewrite Q in D. lia. }
  rewrite E. destruct (Z.odd x && Z.odd m)%bool; cbn [negb andb]; destruct (Z.eqb_spec (Z.land (x / 2) (m / 2)) 0); lia.
Qed.

Lemma bsum_parity : forall f lo hi, (forall r, 0 <= r < 2 -> lo <= bsum (fun v => if f v mod 2 =? r then 1 else 0) <= hi) ->
  forall c, lo <= bsum (fun v => if Z.odd (c + f v) then 0 else 1) <= hi.
Proof.
  intros f lo hi H c. rewrite (bsum_ext _ (fun v => if f v mod 2 =? (- c) mod 2 then 1 else 0)); [apply H, Z.mod_pos_bound; lia|].
  intros v. rewrite !Zmod_odd, Z.odd_add, Z.odd_opp. destruct (Z.odd c), (Z.odd (f v)); reflexivity.
Qed.

Section Masked.
Variables (f : byte -> Z) (lo hi : Z).
Hypothesis Hlo : 0 <= lo.
Hypothesis H : forall r, 0 <= r < 2 -> lo <= bsum (fun v => if f v mod 2 =? r then 1 else 0) <= hi.

Lemma mask_count : forall n m c, 0 <= m < 2 ^ Z.of_nat n ->
  let k := ones n m in
  lo ^ Z.of_nat k * 256 ^ Z.of_nat (n - k) <= total n (fun l => if Z.land (c + power_sum 2 f 0 l) m =? 0 then 1 else 0)
    <= hi ^ Z.of_nat k * 256 ^ Z.of_nat (n - k).
Proof.
  assert (Hhi : 0 <= hi) by (specialize (H 0 ltac:(lia)); lia).
  induction n as [|n IH]; intros m c Hm k.
  - rewrite total_0. change (2 ^ Z.of_nat 0) with 1 in Hm. replace m with 0 by lia. rewrite Z.land_0_r. cbn. lia.
  - assert (Hm2 : 0 <= m / 2 < 2 ^ Z.of_nat n) by (rewrite Nat2Z.inj_succ, Z.pow_succ_r in Hm by lia; lia).
    assert (L := ones_le n (m / 2)).
    assert (E : forall v, total n (fun l => if Z.land (c + power_sum 2 f 0 (v :: l)) m =? 0 then 1 else 0) =
      if (Z.odd (c + f v) && Z.odd m)%bool then 0 else total n (fun l => if Z.land ((c + f v) / 2 + power_sum 2 f 0 l) (m / 2) =? 0 then 1 else 0)).
    { intros v. destruct (Z.odd (c + f v) && Z.odd m)%bool eqn:G.
      - rewrite (total_ext n _ (fun _ => 0)); [rewrite total_const; ring|]. intros l _. rewrite power_sum_cons, land_step.
        replace (c + (f v + 2 * power_sum 2 f 0 l)) with (c + f v + 2 * power_sum 2 f 0 l) by ring. rewrite Z.odd_add_mul_2, G. reflexivity.
      - apply total_ext. intros l _. rewrite power_sum_cons, land_step.
        replace (c + (f v + 2 * power_sum 2 f 0 l)) with (c + f v + 2 * power_sum 2 f 0 l) by ring. rewrite Z.odd_add_mul_2, G. cbn [negb andb].
        replace ((c + f v + 2 * power_sum 2 f 0 l) / 2) with ((c + f v) / 2 + power_sum 2 f 0 l); [reflexivity|]. rewrite (Z.mul_comm 2), Z.div_add by lia. reflexivity. }
    rewrite total_S, (bsum_ext _ _ E). subst k. cbn [ones]. specialize (IH (m / 2)).
    set (j := ones n (m / 2)) in *. cbv zeta in IH.
    assert (P1 : 0 <= lo ^ Z.of_nat j * 256 ^ Z.of_nat (n - j)) by (apply Z.mul_nonneg_nonneg; apply Z.pow_nonneg; lia).
    assert (P2 : 0 <= hi ^ Z.of_nat j * 256 ^ Z.of_nat (n - j)) by (apply Z.mul_nonneg_nonneg; apply Z.pow_nonneg; lia).
    destruct (Z.odd m) eqn:Om.
    + change (1 + j)%nat with (S j). replace (S n - S j)%nat with (n - j)%nat by lia. rewrite Nat2Z.inj_succ, !Z.pow_succ_r by lia.
      assert (B := bsum_parity f lo hi H c). split.
      * transitivity (lo ^ Z.of_nat j * 256 ^ Z.of_nat (n - j) * bsum (fun v => if Z.odd (c + f v) then 0 else 1)); [rewrite <- Z.mul_assoc, Z.mul_comm; apply Z.mul_le_mono_nonneg_l; lia|]. rewrite <- bsum_mul.
        apply bsum_le. intros v. specialize (IH ((c + f v) / 2) Hm2). destruct (Z.odd (c + f v)); cbn [andb]; rewrite ?Z.mul_0_r, ?Z.mul_1_r; lia.
      * transitivity (hi ^ Z.of_nat j * 256 ^ Z.of_nat (n - j) * bsum (fun v => if Z.odd (c + f v) then 0 else 1)); [|rewrite <- (Z.mul_assoc hi), (Z.mul_comm hi); apply Z.mul_le_mono_nonneg_l; lia]. rewrite <- bsum_mul.
        apply bsum_le. intros v. specialize (IH ((c + f v) / 2) Hm2). destruct (Z.odd (c + f v)); cbn [andb]; rewrite ?Z.mul_0_r, ?Z.mul_1_r; lia.
    + change (0 + j)%nat with j. replace (S n - j)%nat with (S (n - j)) by lia. rewrite Nat2Z.inj_succ, Z.pow_succ_r by lia.
      split.
      * transitivity (bsum (fun _ => lo ^ Z.of_nat j * 256 ^ Z.of_nat (n - j))); [rewrite bsum_const; lia|]. apply bsum_le. intros v.
        rewrite andb_false_r. apply (IH ((c + f v) / 2) Hm2).
      * transitivity (bsum (fun _ => hi ^ Z.of_nat j * 256 ^ Z.of_nat (n - j))); [|rewrite bsum_const; lia]. apply bsum_le. intros v.
        rewrite andb_false_r. apply (IH ((c + f v) / 2) Hm2).
Qed.

End Masked.

Lemma bits_clear_land : forall fp m, 0 <= m -> (bits_clear fp m <-> Z.land fp m = 0).
Proof.
  intros fp m Hm. split.
  - intros B. apply Z.bits_inj'. intros i Hi. rewrite Z.land_spec, Z.bits_0. specialize (B i Hi). destruct (Z.testbit m i); [now rewrite B|]. apply andb_false_r.
  - intros E i Hi T. assert (X := Z.land_spec fp m i). rewrite E, Z.bits_0, T, andb_true_r in X. now symmetry.
Qed.

(** Reversing the strings counts the same. *)
Lemma total_rev : forall n f, total n (fun l => f (rev l)) = total n f.
Proof.
  induction n as [|n IH]; intros f; [now rewrite !total_0|]. rewrite total_snoc, (total_S n f).
  rewrite <- bsum_total. apply bsum_ext. intros b. rewrite <- (IH (fun l => f (b :: l))). apply total_ext. intros l _. now rewrite rev_app_distr.
Qed.

Lemma ones_0 : forall n, ones n 0 = 0%nat.
Proof. induction n as [|n IH]; [reflexivity|]. cbn [ones]. change (0 / 2) with 0. now rewrite IH. Qed.
Lemma ones_more : forall a b m, 0 <= m < 2 ^ Z.of_nat a -> ones (a + b) m = ones a m.
Proof.
  induction a as [|a IH]; intros b m Hm; [change (2 ^ Z.of_nat 0) with 1 in Hm; replace m with 0 by lia; apply ones_0|].
  cbn [Nat.add ones]. f_equal. apply IH. rewrite Nat2Z.inj_succ, Z.pow_succ_r in Hm by lia. lia.
Qed.
Lemma land_mod : forall x m k, 0 <= k -> 0 <= m < 2 ^ k -> Z.land (x mod 2 ^ k) m = Z.land x m.
Proof.
  intros x m k Hk Hm. assert (E : m = Z.land m (Z.ones k)) by (rewrite Z.land_ones by lia; symmetry; now apply Z.mod_small).
  rewrite E, <- Z.land_ones by lia. rewrite <- !Z.land_assoc. f_equal. rewrite (Z.land_comm m), Z.land_assoc. rewrite Z.land_diag. reflexivity.
Qed.

Lemma gear64_parity : forall r, 0 <= r < 2 -> 118 <= bsum (fun v => if table_at GEAR_64 v mod 2 =? r then 1 else 0) <= 138.
Proof. intros r Hr. assert (r = 0 \/ r = 1) as [-> | ->] by lia; vm_compute; split; discriminate. Qed.

Lemma fastcdc_mask_density : forall min n m k, (min + 49 <= n)%nat -> 0 <= m < 2 ^ 50 -> ones 50 m = k ->
  118 ^ Z.of_nat k * 256 ^ Z.of_nat (S n - k) <= total (S n) (fun d => if Z.land (fastcdc_fingerprint GEAR_64 min n d) m =? 0 then 1 else 0)
    <= 138 ^ Z.of_nat k * 256 ^ Z.of_nat (S n - k).
Proof.
  intros min n m k Hn Hm Hk. set (q := (S n - min)%nat). replace (S n) with (min + q)%nat by lia. rewrite total_app.
  assert (Lk : (k <= 50)%nat) by (subst k; apply ones_le).
  assert (E : forall u, length u = min ->
    total q (fun v => if Z.land (fastcdc_fingerprint GEAR_64 min n (u ++ v)) m =? 0 then 1 else 0) =
    total q (fun l => if Z.land (0 + power_sum 2 (table_at GEAR_64) 0 l) m =? 0 then 1 else 0)).
  { intros u Lu. rewrite <- (total_rev q (fun l => if Z.land (0 + power_sum 2 (table_at GEAR_64) 0 l) m =? 0 then 1 else 0)).
    apply total_ext. intros v Lv. unfold fastcdc_fingerprint. rewrite firstn_all2 by (rewrite app_length; lia).
    rewrite skipn_app, skipn_all2, Lu, Nat.sub_diag, skipn_O by lia. cbn [app]. rewrite land_mod; [reflexivity|lia|]. split; [lia|].
    apply Z.lt_le_trans with (2 ^ 50); [lia|]. apply Z.pow_le_mono_r; lia. }
  rewrite (total_ext min _ _ (fun u L => E u L)), total_const.
  assert (Bm : 0 <= m < 2 ^ Z.of_nat q) by (split; [lia|]; apply Z.lt_le_trans with (2 ^ 50); [lia|]; apply Z.pow_le_mono_r; lia).
  assert (B := mask_count (table_at GEAR_64) 118 138 ltac:(lia) gear64_parity q m 0 Bm). cbv zeta in B.
  replace (ones q m) with k in B by (replace q with (50 + (q - 50))%nat by lia; rewrite ones_more by exact Hm; now symmetry).
  replace (Z.of_nat (min + q - k)) with (Z.of_nat min + Z.of_nat (q - k)) by lia. rewrite Z.pow_add_r by lia.
  rewrite !(Z.mul_shuffle3 _ (256 ^ Z.of_nat min)). assert (0 <= 256 ^ Z.of_nat min) by (apply Z.pow_nonneg; lia).
  split; apply Z.mul_le_mono_nonneg_l; apply B || assumption.
Qed.

(** ** One byte modulo a number *)

(** How many bytes are [r] modulo [m]. *)
Lemma bytes_mod : forall m c, 1 <= m -> 256 / m <= bsum (fun b => if (c + b2z b) mod m =? 0 then 1 else 0) <= (256 + m - 1) / m.
Proof.
  intros m c Hm. rewrite (bsum_as_seq (fun z => if (c + z) mod m =? 0 then 1 else 0)).
  assert (G : forall n c, Z.of_nat n / m <= fold_right Z.add 0 (map (fun i => if (c + Z.of_nat i) mod m =? 0 then 1 else 0) (seq 0 n)) <= (Z.of_nat n + m - 1) / m); [|apply (G 256%nat)].
  assert (E : forall n c, fold_right Z.add 0 (map (fun i => if (c + Z.of_nat i) mod m =? 0 then 1 else 0) (seq 0 n)) = (c + Z.of_nat n - 1) / m - (c - 1) / m).
  { induction n as [|n IH]; intros c'; [cbn; replace (c' + 0 - 1) with (c' - 1) by ring; ring|].
    rewrite seq_S, map_app, sum_app, IH. cbn [map fold_right Nat.add]. replace (c' + Z.of_nat (S n) - 1) with (c' + Z.of_nat n) by lia.
    set (x := c' + Z.of_nat n). assert (D := Z.div_mod x m ltac:(lia)). assert (R := Z.mod_pos_bound x m ltac:(lia)).
    destruct (Z.eqb_spec (x mod m) 0) as [Z0|Z0].
    - replace ((x - 1) / m) with (x / m - 1); [lia|]. apply Z.div_unique with (m - 1); [left; lia|]. lia.
    - replace ((x - 1) / m) with (x / m); [lia|]. apply Z.div_unique with (x mod m - 1); [left; lia|]. lia. }
  intros n c'. rewrite E. set (N := Z.of_nat n).
  assert (D1 := Z.div_mod (c' + N - 1) m ltac:(lia)). assert (R1 := Z.mod_pos_bound (c' + N - 1) m ltac:(lia)).
  assert (D2 := Z.div_mod (c' - 1) m ltac:(lia)). assert (R2 := Z.mod_pos_bound (c' - 1) m ltac:(lia)).
  assert (D3 := Z.div_mod N m ltac:(lia)). assert (R3 := Z.mod_pos_bound N m ltac:(lia)).
  assert (D4 := Z.div_mod (N + m - 1) m ltac:(lia)). assert (R4 := Z.mod_pos_bound (N + m - 1) m ltac:(lia)).
  split; nia.
Qed.

Lemma byte_sum_bound : forall l, 0 <= byte_sum l <= 255 * Z.of_nat (length l).
Proof. induction l as [|b l IH]; [cbn; lia|]. cbn [byte_sum length]. assert (X := b2z_range b). lia. Qed.
Lemma byte_sum_app : forall u v, byte_sum (u ++ v) = byte_sum u + byte_sum v.
Proof. induction u as [|b u IH]; intros v; [reflexivity|]. cbn [app byte_sum]. rewrite IH. ring. Qed.

Theorem gzip_density : forall w m n P, (1 <= w)%nat -> 1 <= m -> Z.of_nat n < 2 ^ 56 -> decides P (gzip_rule w m) ->
  256 / m * 256 ^ Z.of_nat n <= count (S n) P <= (256 + m - 1) / m * 256 ^ Z.of_nat n.
Proof.
  intros w m n P Hw Hm Hn D. rewrite count_total, total_snoc.
  assert (E : forall l, length l = n -> bsum (fun b => if P (l ++ [b]) then 1 else 0) = bsum (fun b => if (byte_sum (lastn (w - 1) l) + b2z b) mod m =? 0 then 1 else 0)).
  { intros l Ll. apply bsum_ext. intros b. apply (decides_if P (gzip_rule w m)); [exact D|]. unfold gzip_rule. rewrite Z.eqb_eq.
    assert (Q : lastn w (l ++ [b]) = lastn (w - 1) l ++ [b]).
    { destruct (Nat.le_gt_cases w (length l)) as [G|G]; [destruct (lastn_snoc_full _ w l b ltac:(lia)) as (o & _ & _ & X); exact X|].
      destruct (lastn_snoc_short _ w l b G) as [X _]. rewrite X, lastn_all by lia. reflexivity. }
    rewrite Q, byte_sum_app. cbn [byte_sum]. rewrite Z.add_0_r. assert (B := byte_sum_bound (lastn (w - 1) l)). rewrite lastn_length in B. assert (X := b2z_range b).
    rewrite (Z.mod_small _ (2 ^ 64)) by lia. reflexivity. }
  rewrite (total_ext n _ _ E), (Z.mul_comm (256 / m)), (Z.mul_comm ((256 + m - 1) / m)), <- !total_const.
  split; apply total_le; intros l _; apply bytes_mod; exact Hm.
Qed.

(** ** Zstd: two bytes cannot compensate each other in 20 bits *)

Lemma bsum_at_most_one : forall F, (forall x, 0 <= F x <= 1) -> (forall x y, F x <> 0 -> F y <> 0 -> x = y) -> bsum F <= 1.
Proof.
  intros F B U. unfold bsum. assert (N := all_bytes_nodup). revert N.
  induction all_bytes as [|x l IH]; intros N; [cbn; lia|]. inversion_clear N as [|? ? I N']. cbn [map fold_right].
  assert (X := B x). destruct (Z.eq_dec (F x) 0) as [Z0|Z0]; [specialize (IH N'); lia|].
  replace (fold_right Z.add 0 (map F l)) with 0; [lia|]. clear IH N'. induction l as [|y l IH]; [reflexivity|]. cbn [map fold_right].
  destruct (Z.eq_dec (F y) 0) as [Zy|Zy]; [|elim I; left; now apply U]. rewrite Zy, <- IH; [reflexivity|]. intros J. apply I. now right.
Qed.

Lemma zstd_far : forallb (fun d => let r := (zstd_prime * Z.of_nat d) mod 2 ^ 20 in (256 <=? r) && (r <=? 2 ^ 20 - 256))%bool (seq 1 255) = true.
Proof. vm_compute. reflexivity. Qed.
Lemma zstd_apart : forall d e k, 0 < d < 256 -> -256 < e < 256 -> 20 <= k -> (e + zstd_prime * d) mod 2 ^ k <> 0.
Proof.
  intros d e k Hd He Hk E. assert (F := zstd_far). rewrite forallb_forall in F. specialize (F (Z.to_nat d) ltac:(apply in_seq; lia)). rewrite Z2Nat.id in F by lia.
  cbv zeta in F. set (r := (zstd_prime * d) mod 2 ^ 20) in F. apply andb_prop in F as [F1 F2]. apply Z.leb_le in F1, F2. apply Z.mod_divide in E; [|apply Z.pow_nonzero; lia].
  assert (E20 : (e + zstd_prime * d) mod 2 ^ 20 = 0).
  { apply Z.mod_divide; [lia|]. etransitivity; [|exact E]. exists (2 ^ (k - 20)). rewrite <- Z.pow_add_r by lia. f_equal. lia. }
  assert (D := Z.div_mod (zstd_prime * d) (2 ^ 20) ltac:(lia)). fold r in D.
  assert (X : (e + r) mod 2 ^ 20 = 0) by (rewrite <- E20, D; replace (e + (2 ^ 20 * (zstd_prime * d / 2 ^ 20) + r)) with (e + r + (zstd_prime * d / 2 ^ 20) * 2 ^ 20) by ring; symmetry; apply Z.mod_add; lia).
  rewrite Z.mod_small in X by lia. lia.
Qed.

Lemma zstd_split : forall u x y, zstd_hash (u ++ [x; y]) =
  (b2z y + zstd_prime * b2z x + (10 + zstd_prime * 10 + zstd_prime * zstd_prime * power_sum zstd_prime (fun b => b2z b + 10) 0 (firstn 30 (rev u)))) mod 2 ^ 64.
Proof.
  intros u x y. unfold zstd_hash. rewrite rev_app_distr. cbn [rev app]. rewrite !firstn_cons, !power_sum_cons. f_equal. ring.
Qed.

Theorem zstd_density : forall bits n P, 20 <= bits <= 64 -> (33 <= n)%nat -> decides P (zstd_rule bits) -> 65536 * count n P <= 256 ^ Z.of_nat n.
Proof.
  intros bits n P Hb Hn D. rewrite count_total. replace n with ((n - 2) + 2)%nat by lia. set (a := (n - 2)%nat). rewrite total_app.
  replace (256 ^ Z.of_nat (a + 2)) with (65536 * (256 ^ Z.of_nat a * 1)) by (rewrite Nat2Z.inj_add, Z.pow_add_r by lia; change (256 ^ Z.of_nat 2) with 65536; ring).
  apply Z.mul_le_mono_nonneg_l; [lia|]. rewrite <- total_const. apply total_le. intros u Lu.
  rewrite !total_S. rewrite (bsum_ext _ (fun x => bsum (fun y => if P (u ++ [x; y]) then 1 else 0))).
  2: { intros x. rewrite total_S. apply bsum_ext. intros y. now rewrite total_0. }
  assert (U : forall x y x' y', P (u ++ [x; y]) = true -> P (u ++ [x'; y']) = true -> b2z x <= b2z x' -> x = x' /\ y = y').
  { intros x y x' y' E E' L. apply D in E, E'. destruct E as [_ E], E' as [_ E']. rewrite zstd_split in E, E'.
    set (K := 10 + zstd_prime * 10 + _) in E, E'.
    assert (M : forall z, (z mod 2 ^ 64) mod 2 ^ bits = z mod 2 ^ bits).
    { intros z. symmetry. apply Znumtheory.Zmod_div_mod; try (apply Z.pow_pos_nonneg; lia). exists (2 ^ (64 - bits)). rewrite <- Z.pow_add_r by lia. f_equal. lia. }
    rewrite M in E, E'. 
    assert (Z0 : (b2z y' - b2z y + zstd_prime * (b2z x' - b2z x)) mod 2 ^ bits = 0).
    { replace (b2z y' - b2z y + zstd_prime * (b2z x' - b2z x)) with ((b2z y' + zstd_prime * b2z x' + K) - (b2z y + zstd_prime * b2z x + K)) by ring.
      rewrite Zminus_mod, E, E', Z.sub_diag. apply Z.mod_0_l. apply Z.pow_nonzero; lia. }
    assert (X := b2z_range x). assert (X' := b2z_range x'). assert (Y := b2z_range y). assert (Y' := b2z_range y').
    assert (Ex : b2z x = b2z x').
    { destruct (Z.eq_dec (b2z x) (b2z x')) as [Q|Q]; [exact Q|]. exfalso. apply (zstd_apart (b2z x' - b2z x) (b2z y' - b2z y) bits); lia. }
    rewrite Ex, Z.sub_diag, Z.mul_0_r, Z.add_0_r in Z0. apply b2z_inj in Ex. subst x'. split; [reflexivity|].
    apply b2z_inj. apply Z.mod_divide in Z0; [|apply Z.pow_nonzero; lia].
    destruct Z0 as [q Z0]. assert (G : 2 ^ 20 <= 2 ^ bits) by (apply Z.pow_le_mono_r; lia). change (2 ^ 20) with 1048576 in G.
    generalize dependent (2 ^ bits). intros B. intros. destruct (Z.lt_trichotomy q 0) as [Q|[Q|Q]]; nia. }
  assert (U' : forall x y x' y', P (u ++ [x; y]) = true -> P (u ++ [x'; y']) = true -> x = x' /\ y = y').
  { intros x y x' y' E E'. destruct (Z.le_ge_cases (b2z x) (b2z x')) as [L|L]; [exact (U _ _ _ _ E E' L)|]. destruct (U _ _ _ _ E' E L) as [-> ->]. now split. }
  assert (In1 : forall x, 0 <= bsum (fun y => if P (u ++ [x; y]) then 1 else 0) <= 1).
  { intros x. split.
    - transitivity (bsum (fun _ => 0)); [rewrite bsum_const; lia|]. apply bsum_le. intros y. destruct (P _); lia.
    - apply bsum_at_most_one; [intros y; destruct (P _); lia|]. intros y y' A B. destruct (P (u ++ [x; y])) eqn:E; [|lia]. destruct (P (u ++ [x; y'])) eqn:E'; [|lia]. now apply (U' x y x y'). }
  apply bsum_at_most_one; [exact In1|]. intros x x' A B.
  assert (Ex : forall z, bsum (fun y => if P (u ++ [z; y]) then 1 else 0) <> 0 -> exists y, P (u ++ [z; y]) = true).
  { intros z Nz. destruct (existsb (fun y => P (u ++ [z; y])) all_bytes) eqn:G; [apply existsb_exists in G as (y & _ & G); now exists y|].
    elim Nz. rewrite (bsum_ext _ (fun _ => 0)); [rewrite bsum_const; reflexivity|]. intros y. destruct (P (u ++ [z; y])) eqn:G'; [|reflexivity].
    assert (existsb (fun y => P (u ++ [z; y])) all_bytes = true); [|congruence]. apply existsb_exists. exists y. split; [apply all_bytes_complete|exact G']. }
  apply Ex in A as [y A], B as [y' B]. now apply (U' x y x' y').
Qed.

(** ** Ram: the last byte is the largest *)

Lemma total_forall : forall n (p : byte -> bool), total n (fun l => if forallb p l then 1 else 0) = bsum (fun b => if p b then 1 else 0) ^ Z.of_nat n.
Proof.
  induction n as [|n IH]; intros p; [now rewrite total_0|]. rewrite total_S, Nat2Z.inj_succ, Z.pow_succ_r, <- IH by lia. rewrite Z.mul_comm, <- bsum_mul.
  apply bsum_ext. intros b. cbn [forallb]. destruct (p b); cbn [andb]; [rewrite Z.mul_1_r; reflexivity|]. rewrite Z.mul_0_r, total_const. ring.
Qed.
Lemma bytes_upto : forall b, bsum (fun x => if b2z x <=? b2z b then 1 else 0) = b2z b + 1.
Proof.
  intros b. rewrite (bsum_as_seq (fun z => if z <=? b2z b then 1 else 0)). assert (X := b2z_range b).
  assert (G : forall n, fold_right Z.add 0 (map (fun i => if Z.of_nat i <=? b2z b then 1 else 0) (seq 0 n)) = Z.min (Z.of_nat n) (b2z b + 1)).
  { induction n as [|n IH]; [cbn; lia|]. rewrite seq_S, map_app, sum_app, IH. cbn [map fold_right Nat.add]. destruct (Z.leb_spec (Z.of_nat n) (b2z b)); lia. }
  rewrite G. lia.
Qed.

Theorem ram_density : forall w n P, w < Z.of_nat n -> decides P (ram_rule w) ->
  count (S n) P = fold_right Z.add 0 (map (fun i => Z.of_nat (S i) ^ Z.of_nat n) (seq 0 256)).
Proof.
  intros w n P Hn D. rewrite count_total, total_snoc, swap_sums. 
  transitivity (bsum (fun b => (b2z b + 1) ^ Z.of_nat n)).
  - apply bsum_ext. intros b. rewrite <- (bytes_upto b), <- (total_forall n (fun x => b2z x <=? b2z b)). apply total_ext. intros l Ll.
    apply (decides_if P (ram_rule w)); [exact D|]. rewrite forallb_forall. split.
    + intros (pre & b' & E & _ & F). apply app_inj_tail in E as [-> ->]. intros x I. specialize (F x I). lia.
    + intros F. exists l, b. split; [reflexivity|]. split; [lia|]. intros x I. specialize (F x I). lia.
  - rewrite (bsum_as_seq (fun z => (z + 1) ^ Z.of_nat n)). replace (map (fun i => (Z.of_nat i + 1) ^ Z.of_nat n) (seq 0 256)) with (map (fun i => Z.of_nat (S i) ^ Z.of_nat n) (seq 0 256)); [reflexivity|].
    apply map_ext. intros i. now rewrite Nat2Z.inj_succ.
Qed.

(** ** Mii: the last bytes increase *)

(** [k * (k - 1) * .. ], [m] factors. *)
Fixpoint falling (k : Z) (m : nat) : Z := match m with O => 1 | S m' => k * falling (k - 1) m' end.
Lemma falling_last : forall m k, falling k (S m) = falling k m * (k - Z.of_nat m).
Proof.
  induction m as [|m IH]; intros k; [change (k * 1 = 1 * (k - 0)); ring|]. change (falling k (S (S m))) with (k * falling (k - 1) (S m)). rewrite IH. cbn [falling]. 
  replace (k - 1 - Z.of_nat m) with (k - Z.of_nat (S m)) by lia. ring.
Qed.
Lemma falling_sum : forall m n, (Z.of_nat m + 1) * fold_right Z.add 0 (map (fun j => falling (Z.of_nat j) m) (seq 0 n)) = falling (Z.of_nat n) (S m).
Proof.
  intros m. induction n as [|n IH]; [cbn; ring|]. rewrite seq_S, map_app, sum_app, Z.mul_add_distr_l, IH. cbn [map fold_right Nat.add].
  rewrite Z.add_0_r, falling_last. cbn [falling]. replace (Z.of_nat (S n) - 1) with (Z.of_nat n) by lia. lia.
Qed.

(** Strictly increasing, all above [a]. *)
Fixpoint rising (a : Z) (l : list byte) : bool := match l with [] => true | b :: r => (a <? b2z b) && rising (b2z b) r end.
Lemma rising_increasing : forall l a, rising a l = true <-> increasing l /\ (forall b, hd_error l = Some b -> a < b2z b).
Proof.
  induction l as [|x l IH]; intros a; [split; [split; [intros [|i] ? ? ?; discriminate|discriminate]|reflexivity]|].
  cbn [rising hd_error]. rewrite andb_true_iff, IH, Z.ltb_lt. split.
  - intros (A & I & Hd). split; [|intros b [= <-]; exact A]. intros [|i] y z Hy Hz; [|exact (I i y z Hy Hz)].
    cbn in Hy, Hz. injection Hy as <-. destruct l as [|z' l]; [discriminate|]. cbn in Hz. injection Hz as <-. now apply Hd.
  - intros (I & Hd). split; [now apply Hd|]. split; [intros i y z Hy Hz; exact (I (S i) y z Hy Hz)|]. intros b Hb.
    destruct l as [|z l]; [discriminate|]. cbn in Hb. injection Hb as ->. exact (I O x b eq_refl eq_refl).
Qed.

Fixpoint factorial (m : nat) : Z := match m with O => 1 | S m' => Z.of_nat m * factorial m' end.

Lemma rising_count : forall m a, -1 <= a < 256 -> factorial m * total m (fun l => if rising a l then 1 else 0) = falling (255 - a) m.
Proof.
  induction m as [|m IH]; intros a Ha; [rewrite total_0; reflexivity|].
  rewrite total_S. rewrite (bsum_ext _ (fun b => if a <? b2z b then total m (fun l => if rising (b2z b) l then 1 else 0) else 0)).
  2: { intros b. cbn [rising]. destruct (a <? b2z b); cbn [andb]; [reflexivity|]. rewrite total_const. ring. }
  cbn [factorial]. rewrite <- Z.mul_assoc, <- bsum_mul.
  rewrite (bsum_ext _ (fun b => if a <? b2z b then falling (255 - b2z b) m else 0)).
  2: { intros b. assert (X := b2z_range b). destruct (a <? b2z b); [apply IH; lia|ring]. }
  rewrite (bsum_as_seq (fun z => if a <? z then falling (255 - z) m else 0)).
  assert (G : forall n, Z.of_nat n <= 256 ->
    fold_right Z.add 0 (map (fun i => if a <? Z.of_nat i then falling (255 - Z.of_nat i) m else 0) (seq (256 - n) n)) =
    fold_right Z.add 0 (map (fun j => falling (Z.of_nat j) m) (seq 0 (Nat.min n (Z.to_nat (255 - a)))))).
  { induction n as [|n IHn]; intros Hn; [reflexivity|]. cbn [seq map fold_right]. replace (S (256 - S n)) with (256 - n)%nat by lia. rewrite IHn by lia.
    replace (255 - Z.of_nat (256 - S n)) with (Z.of_nat n) by lia. destruct (Z.ltb_spec a (Z.of_nat (256 - S n))) as [L|L].
    - replace (Nat.min (S n) (Z.to_nat (255 - a))) with (S n) by lia. replace (Nat.min n (Z.to_nat (255 - a))) with n by lia.
      rewrite (seq_S n 0), map_app, sum_app. cbn [map fold_right Nat.add]. ring.
    - replace (Nat.min (S n) (Z.to_nat (255 - a))) with (Nat.min n (Z.to_nat (255 - a))) by lia. ring. }
  assert (G256 := G 256%nat ltac:(lia)). replace (256 - 256)%nat with 0%nat in G256 by reflexivity. rewrite G256, Nat.min_r by lia.
  replace (Z.of_nat (S m)) with (Z.of_nat m + 1) by lia. rewrite falling_sum. f_equal. lia.
Qed.

Theorem mii_density : forall w n P, 1 <= w -> w < Z.of_nat n -> decides P (mii_rule w) ->
  factorial (Z.to_nat (w + 1)) * count n P = falling 256 (Z.to_nat (w + 1)) * 256 ^ (Z.of_nat n - w - 1).
Proof.
  intros w n P Hw Hn D. rewrite count_total. set (m := Z.to_nat (w + 1)). replace n with ((n - m) + m)%nat at 1 by lia. rewrite total_app.
  rewrite (total_ext (n - m) _ (fun _ => total m (fun l => if rising (-1) l then 1 else 0))).
  - rewrite total_const. assert (R := rising_count m (-1) ltac:(lia)). change (255 - -1) with 256 in R. rewrite <- R.
    replace (Z.of_nat (n - m)) with (Z.of_nat n - w - 1) by lia. ring.
  - intros u Lu. apply total_ext. intros v Lv. apply (decides_if P (mii_rule w)); [exact D|]. rewrite rising_increasing. split.
    + intros (_ & pre & tail & E & Lt & I). assert (tail = v); [|subst tail; split; [exact I|intros b _; assert (X := b2z_range b); lia]].
      assert (Lp : length pre = length u) by (apply (f_equal (@length byte)) in E; rewrite !app_length in E; lia).
      apply (f_equal (skipn (length u))) in E.
      rewrite skipn_app, skipn_all, Nat.sub_diag in E. rewrite <- Lp, skipn_app, skipn_all, Nat.sub_diag in E. cbn in E. now symmetry.
    + intros (I & _). split; [lia|]. exists u, v. split; [reflexivity|]. split; [lia|exact I].
Qed.
