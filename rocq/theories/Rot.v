(** * Rot: rotations of 32 bit words, cyclic polynomials. *)

From Verif Require Import Base Api Spec Lists Words.

Definition word32 (x : Z) : Prop := 0 <= x < 2 ^ 32.

Lemma word32_bits : forall x i, word32 x -> 32 <= i -> Z.testbit x i = false.
Proof.
  intros x i Hx Hi. replace x with (x mod 2 ^ 32) by (now apply Z.mod_small). apply Z.mod_pow2_bits_high. lia.
Qed.

Lemma word32_ext : forall x y, word32 x -> word32 y -> (forall i, 0 <= i < 32 -> Z.testbit x i = Z.testbit y i) -> x = y.
Proof.
  intros x y Hx Hy H. apply Z.bits_inj'. intros i Hi. destruct (Z.lt_ge_cases i 32) as [G|G].
  - apply H. lia.
  - now rewrite !word32_bits.
Qed.

Lemma word32_lxor : forall x y, word32 x -> word32 y -> word32 (Z.lxor x y).
Proof.
  intros x y Hx Hy. unfold word32. replace (Z.lxor x y) with (Z.lxor x y mod 2 ^ 32).
  - apply Z.mod_pos_bound. reflexivity.
  - rewrite lxor_mod by lia. now rewrite !Z.mod_small.
Qed.

(** [rot32] has no carries: it is the [or] of its two halves. *)
Lemma rot32_lor : forall n x, word32 x -> rot32 n x = Z.lor (Z.shiftl x (n mod 32)) (Z.shiftr x (32 - n mod 32)) mod 2 ^ 32.
Proof.
  intros n x Hx. unfold rot32. assert (Hk : 0 <= n mod 32 < 32) by (apply Z.mod_pos_bound; reflexivity).
  set (k := n mod 32) in *. cbv zeta.
  rewrite <- Z.shiftl_mul_pow2, <- Z.shiftr_div_pow2 by lia.
  assert (Hl : Z.land (Z.shiftl x k mod 2 ^ 32) (Z.shiftr x (32 - k)) = 0).
  { apply Z.bits_inj'. intros i Hi. rewrite Z.land_spec, Z.bits_0. rewrite Z.shiftr_spec by lia.
    destruct (Z.lt_ge_cases i k) as [G|G].
    - rewrite Z.mod_pow2_bits_low, Z.shiftl_spec_low by lia. reflexivity.
    - rewrite (word32_bits x (i + (32 - k))) by (auto; lia). apply andb_false_r. }
  rewrite Z.add_nocarry_lxor by exact Hl. rewrite Z.lxor_lor by exact Hl.
  apply Z.bits_inj'. intros i Hi. rewrite Z.lor_spec. destruct (Z.lt_ge_cases i 32) as [G|G].
  - rewrite !Z.mod_pow2_bits_low by lia. now rewrite Z.lor_spec.
  - rewrite !Z.mod_pow2_bits_high by lia. rewrite Z.shiftr_spec by lia. apply word32_bits; [exact Hx|lia].
Qed.

Lemma rot32_word : forall n x, word32 x -> word32 (rot32 n x).
Proof. intros n x Hx. rewrite rot32_lor by exact Hx. apply Z.mod_pos_bound. reflexivity. Qed.

(** Bit [i] of the rotated word is bit [i - n] of the word. *)
Lemma rot32_bits : forall n x i, word32 x -> 0 <= i < 32 -> Z.testbit (rot32 n x) i = Z.testbit x ((i - n) mod 32).
Proof.
  intros n x i Hx Hi. rewrite rot32_lor by exact Hx. rewrite Z.mod_pow2_bits_low by lia. rewrite Z.lor_spec.
  assert (Hk : 0 <= n mod 32 < 32) by (apply Z.mod_pos_bound; reflexivity).
  assert (En : (i - n) mod 32 = (i - n mod 32) mod 32) by (now rewrite Zminus_mod_idemp_r). rewrite En.
  set (k := n mod 32) in *. rewrite Z.shiftr_spec by lia.
  destruct (Z.lt_ge_cases i k) as [G|G].
  - rewrite Z.shiftl_spec_low by lia. cbn [orb]. f_equal.
    replace (i - k) with ((i + (32 - k)) + (-1) * 32) by ring. rewrite Z_mod_plus_full. symmetry. apply Z.mod_small. lia.
  - rewrite Z.shiftl_spec by lia. rewrite (word32_bits x (i + (32 - k))) by (auto; lia). rewrite orb_false_r. f_equal.
    symmetry. apply Z.mod_small. lia.
Qed.

Lemma rot32_rot32 : forall a b x, word32 x -> rot32 a (rot32 b x) = rot32 (a + b) x.
Proof.
  intros a b x Hx. apply word32_ext; auto using rot32_word. intros i Hi.
  rewrite !rot32_bits; auto using rot32_word; [|apply Z.mod_pos_bound; reflexivity].
  f_equal. rewrite Zminus_mod_idemp_l. f_equal. ring.
Qed.

Lemma rot32_mod : forall a b x, a mod 32 = b mod 32 -> rot32 a x = rot32 b x.
Proof. intros a b x H. unfold rot32. now rewrite H. Qed.

Lemma rot32_0 : forall x, word32 x -> rot32 0 x = x.
Proof.
  intros x Hx. apply word32_ext; auto using rot32_word. intros i Hi. rewrite rot32_bits by auto.
  rewrite Z.sub_0_r. now rewrite Z.mod_small.
Qed.

Lemma rot32_lxor : forall n x y, word32 x -> word32 y -> rot32 n (Z.lxor x y) = Z.lxor (rot32 n x) (rot32 n y).
Proof.
  intros n x y Hx Hy. apply word32_ext; auto using rot32_word, word32_lxor. intros i Hi.
  rewrite Z.lxor_spec, !rot32_bits; auto using word32_lxor. apply Z.lxor_spec.
Qed.

Lemma rot32_zero : forall n, rot32 n 0 = 0.
Proof. intros n. unfold rot32. now rewrite Z.mul_0_l, Z.div_0_l by (apply Z.pow_nonzero; [lia|]; assert (X := Z.mod_pos_bound n 32); lia). Qed.

(** ** Cyclic polynomials *)
Section Cyclic.
  Variable h : byte -> Z.
  Hypothesis H : forall b, word32 (h b).

  Lemma cyclic_word : forall l a, word32 (cyclic h a l).
  Proof.
    induction l as [|b l IH]; intros a; cbn [cyclic]; [split; reflexivity || lia|].
    apply word32_lxor; [|apply IH]. apply rot32_word, H.
  Qed.

  Lemma cyclic_S : forall l a, cyclic h (S a) l = rot32 1 (cyclic h a l).
  Proof.
    induction l as [|b l IH]; intros a; cbn [cyclic]; [now rewrite rot32_zero|].
    rewrite rot32_lxor, rot32_rot32, IH by (auto using rot32_word, cyclic_word). do 2 f_equal. lia.
  Qed.

  Lemma cyclic_cons : forall b l a, cyclic h a (b :: l) = Z.lxor (rot32 (Z.of_nat a) (h b)) (rot32 1 (cyclic h a l)).
  Proof. intros b l a. cbn [cyclic]. now rewrite cyclic_S. Qed.

  Lemma cyclic_app : forall l1 l2 a, cyclic h a (l1 ++ l2) = Z.lxor (cyclic h a l1) (cyclic h (a + length l1) l2).
  Proof.
    induction l1 as [|b l1 IH]; intros l2 a; cbn [app cyclic length].
    - now rewrite Nat.add_0_r, Z.lxor_0_l.
    - rewrite IH, Z.lxor_assoc. do 3 f_equal. lia.
  Qed.

  Lemma cyclic_mod : forall l a b, Z.of_nat a mod 32 = Z.of_nat b mod 32 -> cyclic h a l = cyclic h b l.
  Proof.
    induction l as [|x l IH]; intros a b E; [reflexivity|]. rewrite !cyclic_cons.
    rewrite (rot32_mod _ _ _ E), (IH a b E). reflexivity.
  Qed.
End Cyclic.
