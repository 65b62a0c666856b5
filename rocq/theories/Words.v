(** * Words: bits, masks and sums over bytes. *)

From Verif Require Import Base Api Spec Lists.

(** ** Table lookup *)
Lemma b2n_lt : forall b, (Z.to_nat (b2z b) < 256)%nat.
Proof. intros b. assert (H := b2z_range b). lia. Qed.

Lemma index_table : forall t b, length t = 256%nat -> index t (Z.to_nat (b2z b)) = Ok (table_at t b).
Proof.
  intros t b H. assert (X := b2n_lt b). unfold index, table_at.
  destruct (nth_error t (Z.to_nat (b2z b))) as [a|] eqn:E.
  - now rewrite (nth_error_nth t _ 0 E).
  - apply nth_error_None in E. lia.
Qed.

(** ** [power_sum] *)
Lemma power_sum_S : forall x f l a, power_sum x f (S a) l = x * power_sum x f a l.
Proof.
  intros x f l. induction l as [|b l IH]; intros a; cbn [power_sum]; [ring|].
  rewrite IH. rewrite Nat2Z.inj_succ, Z.pow_succ_r by lia. ring.
Qed.

Lemma power_sum_age : forall x f l a, power_sum x f a l = x ^ Z.of_nat a * power_sum x f 0 l.
Proof.
  intros x f l a. induction a as [|a IH]; [change (x ^ Z.of_nat 0) with 1; ring|].
  rewrite power_sum_S, IH, Nat2Z.inj_succ, Z.pow_succ_r by lia. ring.
Qed.

Lemma power_sum_cons : forall x f b l, power_sum x f 0 (b :: l) = f b + x * power_sum x f 0 l.
Proof. intros x f b l. cbn [power_sum]. rewrite power_sum_S. change (x ^ Z.of_nat 0) with 1. ring. Qed.

Lemma power_sum_app : forall x f l1 l2 a, power_sum x f a (l1 ++ l2) = power_sum x f a l1 + power_sum x f (a + length l1) l2.
Proof.
  intros x f l1. induction l1 as [|b l1 IH]; intros l2 a; cbn [app power_sum length].
  - now rewrite Nat.add_0_r.
  - rewrite IH. replace (S a + length l1)%nat with (a + S (length l1))%nat by lia. ring.
Qed.

(** Powers of two: bytes at least [w] old have no influence modulo [2^w]. *)
Lemma power_sum_window : forall f l w, power_sum 2 f 0 (firstn w l) mod 2 ^ Z.of_nat w = power_sum 2 f 0 l mod 2 ^ Z.of_nat w.
Proof.
  intros f l w. destruct (Nat.le_gt_cases (length l) w) as [G|G].
  - now rewrite firstn_all2.
  - rewrite <- (firstn_skipn w l) at 2. rewrite power_sum_app, (power_sum_age 2 f (skipn w l)).
    replace (0 + length (firstn w l))%nat with w by (rewrite firstn_length; lia).
    now rewrite (Z.mul_comm (2 ^ Z.of_nat w)), Z_mod_plus_full.
Qed.

(** ** Masks *)
Lemma land_shiftl_r : forall x m k, 0 <= k -> Z.land x (Z.shiftl m k) = Z.shiftl (Z.land (Z.shiftr x k) m) k.
Proof.
  intros x m k Hk. apply Z.bits_inj'. intros i Hi. rewrite Z.land_spec.
  destruct (Z.lt_ge_cases i k) as [G|G].
  - rewrite !Z.shiftl_spec_low by lia. apply andb_false_r.
  - rewrite !Z.shiftl_spec_high by lia. rewrite Z.land_spec, Z.shiftr_spec by lia. now rewrite Z.sub_add.
Qed.

Lemma shiftl_0_inv : forall x k, 0 <= k -> Z.shiftl x k = 0 -> x = 0.
Proof. intros x k Hk H. rewrite Z.shiftl_mul_pow2 in H by lia. assert (0 < 2 ^ k) by (apply Z.pow_pos_nonneg; lia). nia. Qed.

(** The top [n] bits of a 32 bit word are zero iff it is below [2^(32-n)]. *)
Lemma top_bits : forall n x, 0 <= n <= 32 -> 0 <= x < 2 ^ 32 ->
  (Z.land x (Z.shiftl (2 ^ n - 1) (32 - n)) =? 0) = (x <? 2 ^ (32 - n)).
Proof.
  intros n x Hn Hx. rewrite land_shiftl_r by lia.
  replace (2 ^ n - 1) with (Z.ones n) by (rewrite Z.ones_equiv; lia).
  rewrite Z.land_ones by lia. rewrite Z.shiftr_div_pow2 by lia.
  assert (Hp : 0 < 2 ^ (32 - n)) by (apply Z.pow_pos_nonneg; lia).
  assert (Hs : 2 ^ 32 = 2 ^ n * 2 ^ (32 - n)) by (rewrite <- Z.pow_add_r by lia; f_equal; lia).
  rewrite Z.mod_small.
  2:{ split; [apply Z.div_pos; lia|]. apply Z.div_lt_upper_bound; lia. }
  destruct (Z.ltb_spec x (2 ^ (32 - n))) as [G|G].
  - rewrite Z.div_small by lia. now rewrite Z.shiftl_0_l.
  - apply Z.eqb_neq. intros H. apply shiftl_0_inv in H; [|lia].
    assert (1 <= x / 2 ^ (32 - n)) by (apply Z.div_le_lower_bound; lia). lia.
Qed.

(** The bits of a word below a power-of-two mask. *)
Lemma land_mask : forall x n, 0 <= n -> Z.land x (2 ^ n - 1) = x mod 2 ^ n.
Proof.
  intros x n Hn. replace (2 ^ n - 1) with (Z.ones n) by (rewrite Z.ones_equiv; lia). now apply Z.land_ones.
Qed.

Lemma mod_mod_pow2 : forall x a b, 0 <= a <= b -> (x mod 2 ^ b) mod 2 ^ a = x mod 2 ^ a.
Proof.
  intros x a b H. apply Z.bits_inj'. intros i Hi. destruct (Z.lt_ge_cases i a) as [G|G].
  - rewrite !Z.mod_pow2_bits_low by lia. reflexivity.
  - now rewrite !Z.mod_pow2_bits_high by lia.
Qed.

Lemma land_zero_clear : forall x m, 0 <= m -> (Z.land x m = 0 <-> bits_clear x m).
Proof.
  intros x m Hm. split.
  - intros H i Hi Hb. assert (E := f_equal (fun z => Z.testbit z i) H). cbv beta in E.
    rewrite Z.land_spec, Hb, andb_true_r, Z.bits_0 in E. exact E.
  - intros H. apply Z.bits_inj'. intros i Hi. rewrite Z.land_spec, Z.bits_0.
    destruct (Z.testbit m i) eqn:E; [|apply andb_false_r]. rewrite (H i Hi E). reflexivity.
Qed.

Lemma land_eq_set : forall x m, Z.land x m = m <-> bits_set x m.
Proof.
  intros x m. split.
  - intros H i Hi Hb. assert (E := f_equal (fun z => Z.testbit z i) H). cbv beta in E.
    rewrite Z.land_spec, Hb, andb_true_r in E. exact E.
  - intros H. apply Z.bits_inj'. intros i Hi. rewrite Z.land_spec.
    destruct (Z.testbit m i) eqn:E; [|apply andb_false_r]. rewrite (H i Hi E). reflexivity.
Qed.

(** ** Modular bookkeeping *)
Lemma eqm_step : forall m a b, m <> 0 -> a mod m = b mod m -> forall k, (k * a) mod m = (k * b) mod m.
Proof. intros m a b Hm H k. rewrite (Z.mul_mod k a), H, <- Z.mul_mod by lia. reflexivity. Qed.

(** ** Exclusive or *)
Lemma lxor_mod : forall x y n, 0 <= n -> Z.lxor x y mod 2 ^ n = Z.lxor (x mod 2 ^ n) (y mod 2 ^ n).
Proof.
  intros x y n Hn. apply Z.bits_inj'. intros i Hi. rewrite Z.lxor_spec. destruct (Z.lt_ge_cases i n) as [G|G].
  - rewrite !Z.mod_pow2_bits_low by lia. apply Z.lxor_spec.
  - now rewrite !Z.mod_pow2_bits_high by lia.
Qed.

Lemma lxor_double : forall x y, Z.lxor (2 * x) (2 * y) = 2 * Z.lxor x y.
Proof.
  intros x y. rewrite (Z.mul_comm 2 x), (Z.mul_comm 2 y), (Z.mul_comm 2 (Z.lxor x y)).
  change 2 with (2 ^ 1). rewrite <- !Z.shiftl_mul_pow2 by lia. symmetry. apply Z.shiftl_lxor.
Qed.

Lemma xor_sum_S : forall l a, xor_sum (S a) l = 2 * xor_sum a l.
Proof.
  intros l. induction l as [|b l IH]; intros a; cbn [xor_sum]; [reflexivity|].
  rewrite IH, <- lxor_double. f_equal. rewrite Nat2Z.inj_succ, Z.pow_succ_r by lia. ring.
Qed.

Lemma xor_sum_cons : forall b l, xor_sum 0 (b :: l) = Z.lxor (b2z b) (2 * xor_sum 0 l).
Proof. intros b l. cbn [xor_sum]. rewrite xor_sum_S. change (2 ^ Z.of_nat 0) with 1. now rewrite Z.mul_1_r. Qed.

Lemma xor_sum_app : forall l1 l2 a, xor_sum a (l1 ++ l2) = Z.lxor (xor_sum a l1) (xor_sum (a + length l1) l2).
Proof.
  intros l1. induction l1 as [|b l1 IH]; intros l2 a; cbn [app xor_sum length].
  - now rewrite Nat.add_0_r, Z.lxor_0_l.
  - rewrite IH, Z.lxor_assoc. do 3 f_equal. lia.
Qed.

Lemma xor_sum_age : forall l a, xor_sum a l = 2 ^ Z.of_nat a * xor_sum 0 l.
Proof.
  intros l a. induction a as [|a IH]; [change (2 ^ Z.of_nat 0) with 1; ring|].
  rewrite xor_sum_S, IH, Nat2Z.inj_succ, Z.pow_succ_r by lia. ring.
Qed.

(** ** [byte_sum] over a sliding window *)
Lemma byte_sum_app : forall a b, byte_sum (a ++ b) = byte_sum a + byte_sum b.
Proof. induction a as [|x a IH]; intros b; cbn [app byte_sum]; [lia|]. rewrite IH. ring. Qed.

Lemma byte_sum_rev : forall l, byte_sum (rev l) = byte_sum l.
Proof. induction l as [|x l IH]; [reflexivity|]. cbn [rev]. rewrite byte_sum_app, IH. cbn [byte_sum]. lia. Qed.

Lemma byte_sum_range : forall l, 0 <= byte_sum l <= 255 * Z.of_nat (length l).
Proof.
  induction l as [|x l IH]; cbn [byte_sum length]; [lia|]. assert (H := b2z_range x). lia.
Qed.

Lemma byte_sum_slide_short : forall W c b, (length c < W)%nat ->
  byte_sum (lastn W (c ++ [b])) = byte_sum (lastn W c) + b2z b.
Proof.
  intros W c b H. destruct (lastn_snoc_short _ W c b H) as [-> ->]. rewrite byte_sum_app. cbn [byte_sum]. ring.
Qed.

Lemma byte_sum_slide_full : forall W c b o, (W <= length c)%nat -> nth_error (c ++ [b]) (length c - W) = Some o ->
  byte_sum (lastn W (c ++ [b])) = byte_sum (lastn W c) - b2z o + b2z b.
Proof.
  intros W c b o H Ho. destruct W as [|W].
  - rewrite Nat.sub_0_r, nth_error_snoc in Ho. inversion Ho. subst o.
    unfold lastn. rewrite !Nat.sub_0_r, !skipn_all. cbn [byte_sum]. ring.
  - destruct (lastn_snoc_full _ (S W) c b ltac:(lia)) as (o' & E1 & E2 & E3).
    rewrite nth_error_app1 in Ho by lia. rewrite E1 in Ho. inversion Ho. subst o'.
    rewrite E2, E3, byte_sum_app. cbn [byte_sum]. ring.
Qed.

(** ** [aged_sum] over a sliding window *)
Lemma aged_sum_S : forall l a, aged_sum (S a) l = aged_sum a l + byte_sum l.
Proof.
  induction l as [|b l IH]; intros a; cbn [aged_sum byte_sum]; [reflexivity|].
  rewrite IH. rewrite Nat2Z.inj_succ. ring.
Qed.

Lemma aged_sum_app : forall l1 l2 a, aged_sum a (l1 ++ l2) = aged_sum a l1 + aged_sum (a + length l1) l2.
Proof.
  induction l1 as [|b l1 IH]; intros l2 a; cbn [app aged_sum length].
  - now rewrite Nat.add_0_r.
  - rewrite IH. replace (S a + length l1)%nat with (a + S (length l1))%nat by lia. ring.
Qed.

Lemma firstn_rev_slide_short : forall A W (c : list A) b, (length c < W)%nat ->
  firstn W (rev (c ++ [b])) = b :: rev c /\ firstn W (rev c) = rev c.
Proof.
  intros A W c b H. rewrite rev_app_distr. cbn [rev app]. rewrite !firstn_all2; [auto| |];
    cbn [length]; rewrite ?rev_length; lia.
Qed.

Lemma firstn_rev_slide_full : forall A W (c : list A) b o, (1 <= W <= length c)%nat ->
  nth_error (c ++ [b]) (length c - W) = Some o ->
  firstn W (rev (c ++ [b])) = b :: firstn (W - 1) (rev c) /\ firstn W (rev c) = firstn (W - 1) (rev c) ++ [o] /\
  length (firstn (W - 1) (rev c)) = (W - 1)%nat.
Proof.
  intros A W c b o H Ho. destruct (lastn_snoc_full _ W c b H) as (o' & E1 & E2 & E3).
  rewrite nth_error_app1 in Ho by lia. rewrite E1 in Ho. inversion Ho. subst o'.
  rewrite <- !rev_lastn, E2, E3, rev_app_distr. cbn [rev app]. rewrite rev_length, lastn_length.
  split; [reflexivity|]. split; [reflexivity|lia].
Qed.

(** ** Congruences, to remove inner reductions modulo [m] *)
Definition cong (m a b : Z) : Prop := exists k, a = b + k * m.
Lemma cong_refl : forall m a, cong m a a.
Proof. intros m a. exists 0. ring. Qed.
Lemma cong_mod : forall m a b, cong m a b -> cong m (a mod m) b.
Proof.
  intros m a b [k ->]. destruct (Z.eq_dec m 0) as [->|Hm].
  - rewrite Zmod_0_r. exists k. ring.
  - exists (- ((b + k * m) / m) + k). rewrite Z.mod_eq by exact Hm. ring.
Qed.
Lemma cong_add : forall m a b c d, cong m a b -> cong m c d -> cong m (a + c) (b + d).
Proof. intros m a b c d [k ->] [l ->]. exists (k + l). ring. Qed.
Lemma cong_sub : forall m a b c d, cong m a b -> cong m c d -> cong m (a - c) (b - d).
Proof. intros m a b c d [k ->] [l ->]. exists (k - l). ring. Qed.
Lemma cong_mul : forall m a b c d, cong m a b -> cong m c d -> cong m (a * c) (b * d).
Proof. intros m a b c d [k ->] [l ->]. exists (k * d + b * l + k * l * m). ring. Qed.
Lemma by_cong : forall m a b c, cong m a c -> c = b -> a mod m = b mod m.
Proof. intros m a b c [k ->] ->. apply Z_mod_plus_full. Qed.

Ltac strip_mod :=
  match goal with
  | |- cong _ (_ mod _) _ => apply cong_mod; strip_mod
  | |- cong _ (_ + _) _ => apply cong_add; strip_mod
  | |- cong _ (_ - _) _ => apply cong_sub; strip_mod
  | |- cong _ (_ * _) _ => apply cong_mul; strip_mod
  | _ => apply cong_refl
  end.
Ltac solve_mod := eapply by_cong; [strip_mod | ring].
