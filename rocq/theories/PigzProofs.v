(** * PigzProofs *)

From Verif Require Import Base Api Spec Lists Contract Step Words Pigz.

(** ** Constructor *)
Lemma pigz_ctor_ok : forall b, 0 <= b <= 31 -> pigz_with_bits b =
  Ok {| pigz_bits := b; pigz_mask := 2 ^ b - 1; pigz_hit := (2 ^ b - 1) / 2 |}.
Proof.
  intros b Hb. unfold pigz_with_bits, shl_u32.
  replace ((0 <=? b) && (b <? 32)) with true by (symmetry; apply andb_true_intro; split; [apply Z.leb_le|apply Z.ltb_lt]; lia).
  cbn [bind]. rewrite Z.shiftl_mul_pow2, Z.mul_1_l by lia. unfold wrap32, two32.
  assert (0 < 2 ^ b < 2 ^ 32) by (split; [apply Z.pow_pos_nonneg|apply Z.pow_lt_mono_r]; lia).
  rewrite Z.mod_small by lia. unfold sub_u32. replace (1 <=? 2 ^ b) with true by (symmetry; apply Z.leb_le; lia).
  cbn [bind]. rewrite Z.shiftr_div_pow2 by lia. reflexivity.
Qed.
Lemma pigz_ctor_panic : forall b, ~ (0 <= b <= 31) -> pigz_with_bits b = Panic.
Proof.
  intros b Hb. unfold pigz_with_bits, shl_u32.
  destruct (Z.leb_spec 0 b) as [G|G]; [|reflexivity]. destruct (Z.ltb_spec b 32) as [G2|G2]; [lia|reflexivity].
Qed.
Lemma pigz_ctor_inv : forall b p, pigz_with_bits b = Ok p -> 0 <= b <= 31 /\
  p = {| pigz_bits := b; pigz_mask := 2 ^ b - 1; pigz_hit := (2 ^ b - 1) / 2 |}.
Proof.
  intros b p H. assert (D : 0 <= b <= 31 \/ ~ (0 <= b <= 31)) by lia. destruct D as [D|D].
  - rewrite pigz_ctor_ok in H by exact D. split; [exact D|]. now inversion H.
  - rewrite pigz_ctor_panic in H by exact D. discriminate.
Qed.

(** ** One step *)
Definition pigz_hash (b : Z) (c : list byte) : Z :=
  Z.lxor ((2 ^ b - 1) / 2 * 2 ^ Z.of_nat (length c)) (xor_sum 0 (rev c)) mod 2 ^ b.

Lemma pigz_hash_range : forall b c, 0 <= b -> 0 <= pigz_hash b c < 2 ^ b.
Proof. intros b c Hb. apply Z.mod_pos_bound. apply Z.pow_pos_nonneg; lia. Qed.

Lemma pigz_hash_nil : forall b, 0 <= b -> pigz_hash b [] = (2 ^ b - 1) / 2.
Proof.
  intros b Hb. unfold pigz_hash. cbn [length rev xor_sum]. change (2 ^ Z.of_nat 0) with 1.
  assert (0 < 2 ^ b) by (apply Z.pow_pos_nonneg; lia).
  rewrite Z.lxor_0_r, Z.mul_1_r. apply Z.mod_small. split; [apply Z.div_pos; lia|].
  apply Z.div_lt_upper_bound; lia.
Qed.

Lemma pigz_hash_snoc : forall b c v, 0 <= b -> pigz_hash b (c ++ [v]) = Z.lxor (2 * pigz_hash b c) (b2z v) mod 2 ^ b.
Proof.
  intros b c v Hb. unfold pigz_hash. rewrite rev_app_distr, app_length. cbn [rev app length]. rewrite xor_sum_cons.
  set (hit := (2 ^ b - 1) / 2). set (X := xor_sum 0 (rev c)).
  replace (hit * 2 ^ Z.of_nat (length c + 1)) with (2 * (hit * 2 ^ Z.of_nat (length c))).
  2:{ rewrite Nat2Z.inj_add, Z.pow_add_r by lia. change (2 ^ Z.of_nat 1) with 2. ring. }
  set (H := hit * _). rewrite (Z.lxor_comm (b2z v)), <- Z.lxor_assoc, lxor_double.
  rewrite (lxor_mod _ (b2z v)), (lxor_mod (2 * (_ mod _)) (b2z v)) by lia.
  f_equal. symmetry. apply Zmult_mod_idemp_r.
Qed.

Lemma pigz_add_spec : forall b p c v, pigz_with_bits b = Ok p ->
  pigz_add p (pigz_hash b c) v = (pigz_hash b (c ++ [v]), pigz_hash b (c ++ [v]) =? (2 ^ b - 1) / 2).
Proof.
  intros b p c v H. apply pigz_ctor_inv in H. destruct H as [Hb ->]. unfold pigz_add. cbn [pigz_mask pigz_hit].
  rewrite land_mask by lia. rewrite Z.shiftl_mul_pow2 by lia. change (2 ^ 1) with 2.
  assert (R := pigz_hash_range b c ltac:(lia)).
  assert (2 ^ b <= 2 ^ 31) by (apply Z.pow_le_mono_r; lia).
  unfold wrap32, two32. rewrite (Z.mod_small (_ * 2)) by lia.
  rewrite (Z.mul_comm _ 2), <- pigz_hash_snoc by lia. reflexivity.
Qed.

Definition pigz_rel (b : Z) (s : PigzState) (h c : list byte) : Prop := s = pigz_hash b c.

Lemma pigz_step : forall b p, pigz_with_bits b = Ok p ->
  step_ok (pigz_body p) 1 (per_chunk (pigz_rule b)) any_length (fun _ => pigz_rel b) (fun s h c => pigz_rel b s (h ++ c) []).
Proof.
  intros b p H i s h c v -> _. unfold per_chunk, pigz_body. rewrite (pigz_add_spec b p c v H).
  change (pigz_rule b (c ++ [v])) with (pigz_hash b (c ++ [v]) = (2 ^ b - 1) / 2).
  destruct (Z.eqb_spec (pigz_hash b (c ++ [v])) ((2 ^ b - 1) / 2)) as [G|G].
  - left. split; [exact G|]. eexists. split; [reflexivity|]. unfold pigz_rel.
    apply pigz_ctor_inv in H. destruct H as [Hb ->]. rewrite pigz_hash_nil by lia. reflexivity.
  - right. split; [exact G|]. eexists. split; reflexivity.
Qed.

Lemma pigz_new_rel : forall b p, pigz_with_bits b = Ok p -> pigz_rel b (pigz_state_new p) [] [].
Proof.
  intros b p H. apply pigz_ctor_inv in H. destruct H as [Hb ->]. unfold pigz_rel. now rewrite pigz_hash_nil by lia.
Qed.

Lemma pigz_push_ok : forall b p, pigz_with_bits b = Ok p ->
  push_ok 0 (pigz_push p) (ends_at (per_chunk (pigz_rule b))) any_length (pigz_rel b).
Proof.
  intros b p H. apply (scan_push_at _ (pigz_body p) 1); [lia|apply any_length_down|]. now apply pigz_step.
Qed.

Lemma pigz_find_ok : forall b p, pigz_with_bits b = Ok p ->
  find_ok (pigz_find_chunk_edge p) (ends_at (per_chunk (pigz_rule b))) any_length 0 (no_lookback (pigz_rel b)).
Proof. intros b p H. exact (scan_find_ok _ (pigz_body p) _ _ _ any_length_down (pigz_step b p H)). Qed.

Lemma pigz_incr_conforms : forall b p, pigz_with_bits b = Ok p ->
  incr_conforms 0 (pigz_incr p) (ends_at (per_chunk (pigz_rule b))) any_length.
Proof.
  intros b p H. exact (incr_conforms_of 0 (pigz_incr p) _ _ _ (ends_at_laws _) (ends_at_progressive _) any_length_down
    (pigz_push_ok b p H) (pigz_new_rel b p H)).
Qed.
Lemma pigz_incr_prompt : forall b p, pigz_with_bits b = Ok p ->
  incr_prompt 0 (pigz_incr p) (ends_at (per_chunk (pigz_rule b))) any_length.
Proof.
  intros b p H. exact (incr_prompt_of 0 (pigz_incr p) _ _ _ (ends_at_laws _) (ends_at_local _) any_length_down
    (pigz_push_ok b p H) (pigz_new_rel b p H)).
Qed.
Lemma pigz_chunk_conforms : forall b p shrink, pigz_with_bits b = Ok p ->
  chunk_conforms shrink (pigz_chunk p) (ends_at (per_chunk (pigz_rule b))) any_length 0.
Proof.
  intros b p shrink H.
  exact (chunk_conforms_of shrink (pigz_chunk p) _ _ _ _ (ends_at_laws _) (ends_at_progressive _) (ends_at_local _)
    any_length_down (pigz_find_ok b p H) (conj (pigz_new_rel b p H) eq_refl)).
Qed.

(** ** Only the last [b] bytes count, once there are that many *)
Lemma pigz_hash_window : forall b c, 0 <= b <= Z.of_nat (length c) ->
  pigz_hash b c = xor_sum 0 (firstn (Z.to_nat b) (rev c)) mod 2 ^ b.
Proof.
  intros b c Hb. unfold pigz_hash. rewrite lxor_mod by lia.
  replace (Z.of_nat (length c)) with (b + (Z.of_nat (length c) - b)) by lia.
  rewrite Z.pow_add_r by lia.
  replace ((2 ^ b - 1) / 2 * (2 ^ b * 2 ^ (Z.of_nat (length c) - b)))
    with (((2 ^ b - 1) / 2 * 2 ^ (Z.of_nat (length c) - b)) * 2 ^ b) by ring.
  rewrite Z_mod_mult, Z.lxor_0_l. rewrite <- (firstn_skipn (Z.to_nat b) (rev c)) at 1.
  rewrite xor_sum_app, (xor_sum_age (skipn _ _)), lxor_mod by lia.
  assert (E : Z.of_nat (0 + length (firstn (Z.to_nat b) (rev c))) = b) by (rewrite firstn_length, rev_length; lia).
  rewrite E, (Z.mul_comm (2 ^ b)), Z_mod_mult, Z.lxor_0_r. reflexivity.
Qed.
