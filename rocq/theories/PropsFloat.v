(** * C74 C75: the average size of Zpaq, computed with floating point (src/zpaq.rs:54-146) *)

From Coq Require Import String ZifyBool ZifyNat.
From Verif Require Import Base Api Lists Range Zpaq ZpaqCtor Float Builtin Rust RustText RustSim RustRange RustZpaq RustConfig.
Open Scope list_scope.
Open Scope Z_scope.

(** [(max as f64 / (64f64 * 64f64)).log2() as u8] in IEEE 754 arithmetic with any faithful [log2]. *)
Theorem C74_ave : forall max r, is_u64 max -> ave_computed max r ->
  (max < 8192 -> r = 0) /\
  (8192 <= max < 2 ^ 45 -> 1 <= r <= 32 /\ 2 ^ r * 4096 <= max < 2 ^ (r + 1) * 4096) /\
  (2 ^ 45 <= max -> 33 <= r <= 255).
Proof.
  intros max r Hm H. destruct (ave_spec max r Hm H) as [A B]. unfold is_u64 in Hm. split; [|split; [|exact B]].
  - intros L. rewrite (A ltac:(lia)). unfold fragment_ave_from_max. assert (Z.log2 max < 13); [|lia].
    destruct (Z.eq_dec max 0) as [->|N]; [reflexivity|]. apply Z.log2_lt_pow2; lia.
  - intros L. rewrite (A ltac:(lia)). unfold fragment_ave_from_max. pose proof (Z.log2_spec max ltac:(lia)) as [L1 L2].
    assert (13 <= Z.log2 max) by (apply Z.log2_le_pow2; lia). assert (Z.log2 max < 45) by (apply Z.log2_lt_pow2; lia).
    rewrite Z.max_r by lia. split; [lia|]. change 4096 with (2 ^ 12). rewrite <- !Z.pow_add_r by lia.
    replace (Z.log2 max - 12 + 12) with (Z.log2 max) by lia. replace (Z.log2 max - 12 + 1 + 12) with (Z.succ (Z.log2 max)) by lia. lia.
Qed.
Print Assumptions C74_ave.

(** There is such arithmetic. *)
Theorem C74_float : exists u, floats u.
Proof.
  exists (fun f => if String.eqb f "Zpaq::fragment_ave_from_max" then
    Some (float_fn (fun m => match Z_le_dec 0 m, Z_lt_dec m (2 ^ 64) with
                             | left A, left B => proj1_sig (ave_exists m (conj A B))
                             | _, _ => 0
                             end)) else None).
  eexists. split; [cbv beta; rewrite String.eqb_refl; reflexivity|]. intros m [H1 H2]. cbv beta.
  destruct (Z_le_dec 0 m) as [A|A]; [|lia]. destruct (Z_lt_dec m (2 ^ 64)) as [B|B]; [|lia]. apply proj2_sig.
Qed.
Print Assumptions C74_float.

(** The constructors that use it: what the text makes of [max], without the model. *)
Theorem C74_with_max_size : forall u n m, floats u -> is_u64 m -> (120 <= n)%nat ->
  let arg := VInt U64 m in
  (8192 <= m < 2 ^ 45 -> exists f, 1 <= f <= 32 /\ 2 ^ f * 4096 <= m < 2 ^ (f + 1) * 4096 /\
     call (crate u) n "Zpaq::with_max_size" [arg] =
     Done ([arg], VStruct "Zpaq" [("range"%string, VCon "," [VCon "Included" [VInt U64 (m / 64)]; VCon "Excluded" [arg]]);
                                   ("max_hash"%string, VInt U32 (2 ^ (32 - f)))])) /\
  (m < 8192 \/ 2 ^ 45 <= m -> call (crate u) n "Zpaq::with_max_size" [arg] = Panics).
Proof.
  intros u n m Hu Hm Hn arg. unfold is_u64 in Hm. unfold arg. rewrite src_zpaq_with_max_size by (lia || assumption). 
  rewrite zpaq_with_max_size_spec by lia. destruct (Z.leb_spec 8192 m) as [A|A], (Z.ltb_spec m (2 ^ 45)) as [B|B]; cbn [andb as_out]; (split; [|intros; try lia; reflexivity]); intros C; try lia.
  destruct (ave_exists m Hm) as [f Hf]. destruct (C74_ave m f Hm Hf) as (_ & [F1 F2] & _); [lia|]. exists f. split; [exact F1|]. split; [exact F2|].
  destruct (ave_spec m f Hm Hf) as [E _]. specialize (E B). unfold fragment_ave_from_max in E. replace (44 - Z.log2 m) with (32 - f) by lia. reflexivity.
Qed.
Print Assumptions C74_with_max_size.

Theorem C74_with_range : forall u n r, floats u -> word_range (bounds_of r) -> (120 <= n)%nat ->
  let arg := enc_range_value r in
  let made mh := Done ([arg], VStruct "Zpaq" [("range"%string, enc_range (bounds_of r)); ("max_hash"%string, VInt U32 mh)]) in
  call (crate u) n "Zpaq::with_range" [arg] =
  match range_top (bounds_of r) with
  | None => made (2 ^ 16)
  | Some m => if (8192 <=? m) && (m <? 2 ^ 45) then made (2 ^ (44 - Z.log2 m)) else Panics
  end.
Proof.
  intros u n r Hu Hr Hn arg made. unfold arg, made. rewrite src_zpaq_with_range by (lia || assumption).
  rewrite zpaq_with_range_spec by exact Hr. destruct (range_top (bounds_of r)) as [m|]; [|reflexivity].
  destruct (_ && _); reflexivity.
Qed.
Print Assumptions C74_with_range.

(** 1 MiB: average 2^8. *)
Example C74_case : forall r, ave_computed (2 ^ 20) r -> r = 8.
Proof. intros r H. apply (ave_spec (2 ^ 20) r) in H as [H _]; [|lia]. exact (H eq_refl). Qed.

(** [as u8] saturates and cuts off. *)
Example C74_as_u8 : f64_as_u8 (Finite (QArith_base.Qmake 511 2)) = 255 /\ f64_as_u8 (Finite (QArith_base.inject_Z 300)) = 255 /\ f64_as_u8 (Finite (QArith_base.inject_Z (-1))) = 0 /\ f64_as_u8 NegInf = 0.
Proof. repeat split. Qed.

(** ** C75: "The average block size will be the max block size (if any) divided by 4"

    [2 ^ 32 / max_hash] is how many hashes there are for each that ends a chunk. *)

(** It never is, not even within a factor of 1000: the average is taken in KiB by [fragment_ave_from_max] and in bytes by
    [max_hash_from_fragment_ave]. *)
Theorem C75_average_refuted : forall m p, is_u64 m -> zpaq_with_max_size m = Ok p -> (2 ^ 32 / zq_max_hash p) * 1000 < m / 4.
Proof.
  intros m p Hm E. unfold is_u64 in Hm. rewrite zpaq_with_max_size_spec in E by lia.
  destruct (Z.leb_spec 8192 m) as [A|A], (Z.ltb_spec m (2 ^ 45)) as [B|B]; cbn [andb] in E; try discriminate. assert (p = {| zq_range := (Included (m / 64), Excluded m); zq_max_hash := 2 ^ (44 - Z.log2 m) |}) as -> by congruence. cbn [zq_max_hash].
  pose proof (Z.log2_spec m ltac:(lia)) as [L1 L2]. assert (13 <= Z.log2 m < 45) by (split; [apply Z.log2_le_pow2|apply Z.log2_lt_pow2]; lia).
  rewrite <- (Z.pow_sub_r 2 32 (44 - Z.log2 m)) by lia. replace (32 - (44 - Z.log2 m)) with (Z.log2 m - 12) by lia.
  assert (2 ^ Z.log2 m = 2 ^ (Z.log2 m - 12) * 4096) as X by (change 4096 with (2 ^ 12); rewrite <- Z.pow_add_r by lia; f_equal; lia).
  assert (2 <= 2 ^ (Z.log2 m - 12)) by (change 2 with (2 ^ 1) at 1; apply Z.pow_le_mono_r; lia).
  assert (2 ^ (Z.log2 m - 12) * 1024 <= m / 4) by (apply Z.div_le_lower_bound; lia). lia.
Qed.
Print Assumptions C75_average_refuted.

(** What it is: the largest power of two not above [max / 4096]. *)
Theorem C75_average_partial : forall m p, is_u64 m -> zpaq_with_max_size m = Ok p ->
  exists k, 0 <= k /\ zq_max_hash p * 2 ^ k = 2 ^ 32 /\ 2 ^ k * 4096 <= m < 2 ^ (k + 1) * 4096.
Proof.
  intros m p Hm E. unfold is_u64 in Hm. rewrite zpaq_with_max_size_spec in E by lia.
  destruct (Z.leb_spec 8192 m) as [A|A], (Z.ltb_spec m (2 ^ 45)) as [B|B]; cbn [andb] in E; try discriminate. assert (p = {| zq_range := (Included (m / 64), Excluded m); zq_max_hash := 2 ^ (44 - Z.log2 m) |}) as -> by congruence. cbn [zq_max_hash].
  pose proof (Z.log2_spec m ltac:(lia)) as [L1 L2]. assert (13 <= Z.log2 m < 45) by (split; [apply Z.log2_le_pow2|apply Z.log2_lt_pow2]; lia).
  exists (Z.log2 m - 12). split; [lia|]. split; [rewrite <- Z.pow_add_r by lia; f_equal; lia|]. change 4096 with (2 ^ 12). rewrite <- !Z.pow_add_r by lia.
  replace (Z.log2 m - 12 + 12) with (Z.log2 m) by lia. replace (Z.log2 m - 12 + 1 + 12) with (Z.succ (Z.log2 m)) by lia. lia.
Qed.
Print Assumptions C75_average_partial.

(** [with_max_size(1 MiB)]: every 256th hash, instead of every 262144th. *)
Example C75_case : exists p, zpaq_with_max_size (2 ^ 20) = Ok p /\ 2 ^ 32 / zq_max_hash p = 256 /\ 2 ^ 20 / 4 = 262144.
Proof. eexists. split; [reflexivity|]. split; vm_compute; reflexivity. Qed.
