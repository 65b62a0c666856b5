(** * ZstdIter: iterating over slices with Zstd ends, although a slice may be empty. *)

From Verif Require Import Base Api Spec Lists Contract Step Words Zstd ZstdProofs IterProofs.

Lemma power_sum_even : forall f b n, Z.even (power_sum zstd_prime f 0 (repeat b n)) = Z.even (Z.of_nat n * f b).
Proof.
  intros f b n. induction n as [|n IH]; [reflexivity|].
  cbn [repeat]. rewrite power_sum_cons, Z.even_add, Z.even_mul, IH.
  replace (Z.of_nat (S n) * f b) with (f b + Z.of_nat n * f b) by lia. rewrite Z.even_add.
  replace (Z.even zstd_prime) with false by reflexivity. reflexivity.
Qed.

(** Thirty-two equal bytes never give a cut: the hash is even. *)
Lemma zstd_constant : forall bits t b m, 1 <= bits <= 64 -> (32 <= m)%nat -> ~ zstd_rule bits (t ++ repeat b m).
Proof.
  intros bits t b m Hb Hm [_ H]. unfold zstd_hash in H.
  assert (E : firstn 32 (rev (t ++ repeat b m)) = repeat b 32).
  { rewrite rev_app_distr. replace (rev (repeat b m)) with (repeat b m).
    2:{ clear. induction m as [|m IH]; [reflexivity|]. cbn [repeat rev]. rewrite <- IH. symmetry. rewrite repeat_cons. reflexivity. }
    replace m with (32 + (m - 32))%nat by lia. rewrite repeat_app, <- app_assoc.
    rewrite firstn_app_le by (rewrite repeat_length; lia). apply firstn_all2. rewrite repeat_length. lia. }
  rewrite E in H. assert (X := power_sum_even (fun b => b2z b + 10) b 32).
  set (x := power_sum _ _ _ _) in *. rewrite Z.even_mul in X. cbn [Z.even] in X.
  change (Z.even (Z.of_nat 32)) with true in X. cbn [orb] in X.
  rewrite mod_mod_pow2 in H by lia. apply (f_equal (fun z => z mod 2 ^ 1)) in H. rewrite mod_mod_pow2 in H by lia.
  change (2 ^ 1) with 2 in H. apply Z.even_spec in X. destruct X as [y ->].
  rewrite Z.mul_comm, Z.mod_mul in H by lia.
  replace (2 ^ bits - 1) with (1 + (2 ^ (bits - 1) - 1) * 2) in H.
  2:{ replace bits with (Z.succ (bits - 1)) at 2 by lia. rewrite Z.pow_succ_r by lia. lia. }
  rewrite Z.mod_add in H by lia. discriminate.
Qed.

Lemma zstd_iter_ends : forall bits, 1 <= bits <= 64 -> forall F s t b m rem,
  zstd_incr_rel s (t ++ repeat b m) -> (33 * length (b :: rem) + (32 - m) < F)%nat ->
  exists out it, collect iter_slices_next F (@Build_SliceIter (zstd_incr (zstd_params bits)) (b :: rem) s) = Ok (out, it).
Proof.
  intros bits Hb F. induction F as [|F IH]; intros s t b m rem HR HF; [lia|]. cbn [length] in HF.
  rewrite collect_S. unfold iter_slices_next at 1. cbn [it_rem it_chunker].
  assert (HR0 : zstd_incr_rel s ((t ++ repeat b m) ++ [])) by (now rewrite app_nil_r).
  destruct (zstd_push_ok bits ltac:(lia) s (t ++ repeat b m) [] (b :: rem) HR0 (fl_nil _ (ends_at_laws _) _) I)
    as [(n & k & s' & Fn & En & E & HR')|(s' & N & E & HR')]; cbn [incr_push zstd_incr]; rewrite E; cbn [bind].
  - cbn [app] in *. assert (Hn := fl_len _ (ends_at_laws _) _ _ _ Fn). cbn [length] in *. unfold split_at.
    replace (Nat.leb k (length (b :: rem))) with true by (symmetry; apply Nat.leb_le; cbn [length]; lia). cbn [bind].
    destruct k as [|k].
    + assert (n = 1%nat) as -> by lia. cbn [skipn firstn].
      assert (Ex : (t ++ repeat b m) ++ [b] = t ++ repeat b (S m)) by (cbn [repeat]; rewrite <- app_assoc, repeat_cons; reflexivity).
      assert (Hm : (S m < 32)%nat).
      { destruct (Nat.le_gt_cases 32 (S m)) as [G|G]; [|exact G]. exfalso. destruct Fn as (_ & Hr & _).
        unfold per_stream in Hr. cbn [firstn] in Hr. rewrite Ex in Hr. revert Hr. now apply zstd_constant. }
      cbn [firstn] in HR'. rewrite app_nil_r, Ex in HR'.
      destruct (IH s' t b (S m) rem HR') as (out & it & Ec); [cbn [length]; lia|]. rewrite Ec. cbn [bind]. eauto.
    + cbn [skipn]. destruct (skipn k rem) as [|b' rem'] eqn:Es.
      * destruct F as [|F]; [lia|]. rewrite collect_S. unfold iter_slices_next at 1. cbn [it_rem bind]. eauto.
      * assert (Hl := f_equal (@length byte) Es). rewrite skipn_length in Hl. cbn [length] in Hl.
        destruct (IH s' (((t ++ repeat b m) ++ firstn n (b :: rem)) ++ []) b' 0%nat rem') as (out & it & Ec).
        { cbn [repeat]. now rewrite (app_nil_r (_ ++ [])). }
        { cbn [length]. lia. }
        rewrite Ec. cbn [bind]. eauto.
  - destruct F as [|F]; [lia|]. rewrite collect_S. unfold iter_slices_next at 1. cbn [it_rem bind]. eauto.
Qed.

Theorem zstd_iter_slices_ends : forall bits data, 1 <= bits <= 64 -> exists out it,
  collect iter_slices_next (33 * length data + 34) (iter_slices (zstd_incr (zstd_params bits)) (incr_new (zstd_incr (zstd_params bits))) data) = Ok (out, it).
Proof.
  intros bits data Hb. unfold iter_slices. destruct data as [|b rem].
  - cbn. eauto.
  - apply (zstd_iter_ends bits Hb _ _ [] b 0%nat rem zstd_new_rel). lia.
Qed.
