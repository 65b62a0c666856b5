(** * GearProofs *)

From Verif Require Import Base Api Tables Spec Lists Contract Step Words Gear.

Lemma GEAR_32_length : length GEAR_32 = 256%nat.
Proof. reflexivity. Qed.

Lemma gear_fingerprint_all : forall c, gear_fingerprint c = power_sum 2 (table_at GEAR_32) 0 (rev c) mod 2 ^ 32.
Proof. intros c. apply (power_sum_window (table_at GEAR_32) (rev c) 32). Qed.

Lemma gear_fingerprint_range : forall c, 0 <= gear_fingerprint c < 2 ^ 32.
Proof. intros c. apply Z.mod_pos_bound. reflexivity. Qed.

Lemma gear_fingerprint_snoc : forall c b,
  gear_fingerprint (c ++ [b]) = wrap32 (wrap32 (Z.shiftl (gear_fingerprint c) 1) + table_at GEAR_32 b).
Proof.
  intros c b. rewrite !gear_fingerprint_all, rev_app_distr. cbn [rev app]. rewrite power_sum_cons.
  rewrite Z.shiftl_mul_pow2 by lia. change (2 ^ 1) with 2. unfold wrap32, two32.
  set (p := power_sum _ _ _ _). rewrite Zplus_mod_idemp_l, (Zplus_mod (p mod _ * 2)), Zmult_mod_idemp_l, <- Zplus_mod.
  f_equal. ring.
Qed.

(** ** Constructor *)
Lemma msb_mask_ok : forall n, 1 <= n <= 31 -> msb_mask n = Ok (Z.shiftl (2 ^ n - 1) (32 - n)).
Proof.
  intros n Hn. assert (C : forall k, (k < 31)%nat -> let n := Z.of_nat k + 1 in
    match msb_mask n with Ok m => m =? Z.shiftl (2 ^ n - 1) (32 - n) | _ => false end = true).
  { intros k Hk. do 31 (destruct k as [|k]; [vm_compute; reflexivity|]). lia. }
  specialize (C (Z.to_nat (n - 1)) ltac:(lia)). cbv zeta in C.
  replace (Z.of_nat (Z.to_nat (n - 1)) + 1) with n in C by lia.
  destruct (msb_mask n); try discriminate. apply Z.eqb_eq in C. now subst.
Qed.

Lemma msb_mask_panic : forall n, ~ (1 <= n <= 31) -> msb_mask n = Panic.
Proof.
  intros n Hn. unfold msb_mask, shl_u32 at 1.
  destruct (Z.leb_spec 0 n) as [G|G]; [|reflexivity].
  destruct (Z.ltb_spec n 32) as [G2|G2]; [|reflexivity].
  assert (n = 0) by lia. subst n. reflexivity.
Qed.

Lemma gear_ctor_ok : forall n, 1 <= n <= 31 -> gear_with_average_size_log2 n =
  Ok {| gear_mask := Z.shiftl (2 ^ n - 1) (32 - n); gear_xxx := 0; gear_gear := GEAR_32 |}.
Proof. intros n Hn. unfold gear_with_average_size_log2. now rewrite msb_mask_ok. Qed.
Lemma gear_ctor_panic : forall n, ~ (1 <= n <= 31) -> gear_with_average_size_log2 n = Panic.
Proof. intros n Hn. unfold gear_with_average_size_log2. now rewrite msb_mask_panic. Qed.

Lemma gear_ctor_inv : forall n p, gear_with_average_size_log2 n = Ok p -> 1 <= n <= 31 /\
  p = {| gear_mask := Z.shiftl (2 ^ n - 1) (32 - n); gear_xxx := 0; gear_gear := GEAR_32 |}.
Proof.
  intros n p H. assert (D : 1 <= n <= 31 \/ ~ (1 <= n <= 31)) by lia. destruct D as [D|D].
  - rewrite gear_ctor_ok in H by exact D. split; [exact D|]. now inversion H.
  - rewrite gear_ctor_panic in H by exact D. discriminate.
Qed.

(** ** One step *)
Lemma gear_push_spec : forall n p c b, gear_with_average_size_log2 n = Ok p ->
  gear_state_push p (gear_fingerprint c) b =
  Ok (gear_fingerprint (c ++ [b]), gear_fingerprint (c ++ [b]) <? 2 ^ (32 - n)).
Proof.
  intros n p c b H. apply gear_ctor_inv in H. destruct H as [Hn ->]. unfold gear_state_push. cbn [gear_gear gear_mask gear_xxx].
  rewrite index_table by apply GEAR_32_length. cbn [bind]. rewrite <- gear_fingerprint_snoc.
  rewrite top_bits; [reflexivity|lia|apply gear_fingerprint_range].
Qed.

Definition gear_rel (s : GearState32) (h c : list byte) : Prop := s = gear_fingerprint c.

Lemma gear_fce_step : forall n p, gear_with_average_size_log2 n = Ok p ->
  step_ok (gear_fce_body p) 1 (per_chunk (gear_rule n)) any_length (fun _ => gear_rel) (fun s h c => gear_rel s (h ++ c) []).
Proof.
  intros n p H i s h c b -> _. unfold per_chunk, gear_rule, gear_fce_body.
  rewrite (gear_push_spec n p c b H). cbn [bind].
  destruct (Z.ltb_spec (gear_fingerprint (c ++ [b])) (2 ^ (32 - n))) as [G|G].
  - left. split; [exact G|]. eexists. split; reflexivity.
  - right. split; [lia|]. eexists. split; reflexivity.
Qed.

Lemma gear_push_step : forall n p (Q : GearState32 -> list byte -> list byte -> Prop), gear_with_average_size_log2 n = Ok p ->
  (forall h c, Q 0 h c) -> step_ok (gear_push_body p) 0 (per_chunk (gear_rule n)) any_length (fun _ => gear_rel) Q.
Proof.
  intros n p Q H HQ i s h c b -> _. unfold per_chunk, gear_rule, gear_push_body.
  rewrite (gear_push_spec n p c b H). cbn [bind].
  destruct (Z.ltb_spec (gear_fingerprint (c ++ [b])) (2 ^ (32 - n))) as [G|G].
  - left. split; [exact G|]. eexists. split; [now rewrite Nat.add_0_r|]. apply HQ.
  - right. split; [lia|]. eexists. split; reflexivity.
Qed.

Lemma gear_push_at : forall n p, gear_with_average_size_log2 n = Ok p ->
  push_ok 1 (gear_push p) (ends_at (per_chunk (gear_rule n))) any_length gear_rel.
Proof.
  intros n p H. apply (scan_push_at _ (gear_push_body p) 0); [lia|apply any_length_down|].
  now apply gear_push_step.
Qed.

Lemma gear_push_before : forall n p, gear_with_average_size_log2 n = Ok p ->
  push_ok 0 (gear_push p) (ends_before (per_chunk (gear_rule n))) any_length gear_rel.
Proof.
  intros n p H. apply (scan_push_before _ (gear_push_body p)); [apply any_length_down|].
  now apply gear_push_step.
Qed.

Lemma gear_find_ok : forall n p, gear_with_average_size_log2 n = Ok p ->
  find_ok (gear_find_chunk_edge p) (ends_at (per_chunk (gear_rule n))) any_length 0 (no_lookback gear_rel).
Proof. intros n p H. exact (scan_find_ok _ (gear_fce_body p) _ _ _ any_length_down (gear_fce_step n p H)). Qed.

Lemma gear_incr_conforms : forall n p, gear_with_average_size_log2 n = Ok p ->
  incr_conforms 1 (gear_incr p) (ends_at (per_chunk (gear_rule n))) any_length.
Proof.
  intros n p H. exact (incr_conforms_of 1 (gear_incr p) _ _ _ (ends_at_laws _) (ends_at_progressive _) any_length_down
    (gear_push_at n p H) eq_refl).
Qed.
Lemma gear_incr_prompt : forall n p, gear_with_average_size_log2 n = Ok p ->
  incr_prompt 1 (gear_incr p) (ends_at (per_chunk (gear_rule n))) any_length.
Proof.
  intros n p H. exact (incr_prompt_of 1 (gear_incr p) _ _ _ (ends_at_laws _) (ends_at_local _) any_length_down
    (gear_push_at n p H) eq_refl).
Qed.
Lemma gear_chunk_conforms : forall n p shrink, gear_with_average_size_log2 n = Ok p ->
  chunk_conforms shrink (gear_chunk p) (ends_at (per_chunk (gear_rule n))) any_length 0.
Proof.
  intros n p shrink H.
  exact (chunk_conforms_of shrink (gear_chunk p) _ _ _ _ (ends_at_laws _) (ends_at_progressive _) (ends_at_local _)
    any_length_down (gear_find_ok n p H) (conj eq_refl eq_refl)).
Qed.
