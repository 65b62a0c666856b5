(** * IterAll: iter_slices on every built-in chunker. *)

From Verif Require Import Base Api Tables Range Spec Lists Contract Step Words Rot CutFacts IterProofs.
From Verif Require Import Mii Ram Gear Pigz Gzip FastCdc Bup BuzHash Zpaq Zstd.
From Verif Require Import MiiProofs RamProofs GearProofs PigzProofs GzipProofs FastCdcProofs BupProofs BupAny BuzProofs ZpaqProofs ZpaqCtor ZstdProofs ZstdIter.
From Verif Require Import Builtin BuiltinProofs.

(** The cut relation seen by [iter_slices], which splits at the returned index: Ram and Gear32 return the index of the
    deciding byte, so that byte starts the next slice. *)
Definition iter_first (c : config) : list byte -> list byte -> nat -> Prop :=
  match c with
  | CfgRam w => ends_before (per_chunk (ram_rule w))
  | CfgGear n => ends_before (per_chunk (gear_rule n))
  | _ => incr_first c
  end.

(** No single byte makes a chunk of its own (Gear32); for Zstd there is no such relation. *)
Definition iter_sound (c : config) : Prop :=
  match c with
  | CfgGear n => forall b, ~ gear_rule n [b]
  | CfgZstd _ => False
  | _ => incr_sound c
  end.

Lemma gear_before_progressive : forall n, (forall b, ~ gear_rule n [b]) -> progressive (ends_before (per_chunk (gear_rule n))).
Proof.
  intros n H h d m (Hl & Hr & _). destruct m as [|m]; [|lia]. exfalso. unfold per_chunk in Hr.
  destruct d as [|b d]; [cbn in Hl; lia|]. cbn [firstn] in Hr. now apply (H b).
Qed.

Lemma push_ok_weaken : forall St adj (push : St -> list byte -> res (St * option nat)) first (lim lim' : nat -> Prop) R,
  (forall n, lim' n -> lim n) -> push_ok adj push first lim R -> push_ok adj push first lim' R.
Proof. intros St adj push first lim lim' R H K s h c d HR HN Hl. apply K; auto. Qed.

Theorem iter_all : forall c C, typed c -> incr_of c = Ok C -> iter_sound c -> forall data, stream_len (length data) ->
  exists cs it, cuts_of (iter_first c) [] data cs /\
    collect iter_slices_next (2 + length data) (iter_slices C (incr_new C) data) = Ok (pieces 0 cs data, it).
Proof.
  intros c C T E S data Hl. destruct c; cbn [incr_of iter_first incr_first iter_sound incr_sound] in *.
  - inversion E; subst C.
    exact (iter_slices_pieces (mii_incr w) _ _ _ (ends_at_laws _) (ends_at_progressive _) any_length_down (mii_push_ok w) (mii_new_rel w) data I).
  - inversion E; subst C.
    exact (iter_slices_pieces (ram_incr w) _ _ _ (ends_before_laws _) (ram_before_progressive w (proj1 T)) below_down (ram_push_before w)
      ram_default_rel data (stream_below _ Hl)).
  - destruct (gear_with_average_size_log2 average_size_log2) as [p| |] eqn:Ep; cbn [bind] in E; try discriminate. inversion E; subst C.
    exact (iter_slices_pieces (gear_incr p) _ _ gear_rel (ends_before_laws _) (gear_before_progressive _ S) any_length_down (gear_push_before _ _ Ep)
      eq_refl data I).
  - destruct (pigz_with_bits bits) as [p| |] eqn:Ep; cbn [bind] in E; try discriminate. inversion E; subst C.
    exact (iter_slices_pieces (pigz_incr p) _ _ _ (ends_at_laws _) (ends_at_progressive _) any_length_down (pigz_push_ok _ _ Ep)
      (pigz_new_rel _ _ Ep) data I).
  - inversion E; subst C. set (p := gzip_with_window_and_modulus window modulus).
    exact (iter_slices_pieces (gzip_incr p) _ _ _ (ends_at_laws _) (ends_at_progressive _) any_length_down
      (gzip_push_ok p (proj2 S) (proj1 S)) (gzip_new_rel p) data I).
  - inversion E; subst C. cbn [typed] in T. unfold is_u64 in T. set (p := fastcdc_new gear min normal max).
    assert (H0 : 0 <= fc_min_size p) by (cbn; lia). assert (H1 : 1 <= fc_min_size p) by (cbn; lia).
    exact (iter_slices_pieces (fastcdc_incr p) _ _ _ (fc_laws p H0) (fc_progressive p H1) below_down
      (fc_push_ok p (conj (proj1 T) (conj H0 (proj2 S)))) (fc_default_rel p) data (stream_below _ Hl)).
  - inversion E; subst C.
    exact (iter_slices_pieces (rollsum_incr window) _ _ _ (ends_at_laws _) (ends_at_progressive _) any_length_down
      (bup_any_push_ok window S) (bup_any_new window S) data I).
  - destruct (buzhash_new capacity mask hash max) as [p| |] eqn:Ep; cbn [bind] in E; try discriminate. inversion E; subst C.
    assert (G := buz_good_of _ _ _ _ _ T Ep). apply buz_ctor_inv in Ep. destruct Ep as [_ ->].
    exact (iter_slices_pieces (buz_incr _) _ _ _ (ends_at_laws _) (ends_at_progressive _) below_down
      (buz_push_ok _ _ G) (buz_incr_new_rel _ _ G) data (stream_below _ Hl)).
  - destruct (zpaq_with_average_and_range average_size_pow_2 r) as [p| |] eqn:Ep; cbn [bind] in E; try discriminate.
    inversion E; subst C. apply zpaq_ctor_inv in Ep. destruct Ep as [_ ->].
    exact (iter_slices_pieces (zpaq_incr _) _ _ _ (ends_at_laws _) (ends_at_progressive _) below_down
      (zpaq_push_ok _) (zpaq_default_rel []) data (stream_below _ Hl)).
  - destruct S.
Qed.

(** ** Termination *)
Definition iter_ends (C : Incr) (data : list byte) : Prop :=
  exists fuel out it, collect iter_slices_next fuel (iter_slices C (incr_new C) data) = Ok (out, it).

Theorem iter_all_ends : forall c C, typed c -> incr_of c = Ok C ->
  match c with CfgGear n => 25 <= n | _ => incr_sound c end ->
  forall data, stream_len (length data) -> iter_ends C data.
Proof.
  intros c C T E S data Hl.
  assert (D : match c with CfgZstd _ => True | _ => iter_sound c end).
  { destruct c; try exact S. cbn [iter_sound]. intros b.
    unfold gear_rule, gear_fingerprint. cbn [rev app firstn power_sum]. change (Z.of_nat 0) with 0.
    rewrite Z.pow_0_r, Z.mul_1_l, Z.add_0_r.
    assert (X : forallb (fun x => (128 <=? x) && (x <? 2 ^ 32)) GEAR_32 = true) by (vm_compute; reflexivity).
    assert (Y : 128 <= table_at GEAR_32 b < 2 ^ 32).
    { assert (Hin : In (table_at GEAR_32 b) GEAR_32).
      { apply nth_In. rewrite GEAR_32_length. assert (Hb := b2z_range b). lia. }
      rewrite forallb_forall in X. specialize (X _ Hin). apply andb_true_iff in X. destruct X as [X1 X2].
      apply Z.leb_le in X1. apply Z.ltb_lt in X2. lia. }
    rewrite Z.mod_small by lia.
    assert (Z2 : 2 ^ (32 - average_size_log2) <= 2 ^ 7) by (apply Z.pow_le_mono_r; lia).
    change (2 ^ 7) with 128 in Z2. lia. }
  destruct c; try (destruct (iter_all _ C T E D data Hl) as (cs & it & _ & Hc); now exists (2 + length data)%nat, (pieces 0 cs data), it).
  cbn [incr_of] in E.
  destruct (zstd_with_target_section_size target_section_size) as [p| |] eqn:Ep; cbn [bind] in E; try discriminate.
  inversion E; subst C. apply zstd_ctor_inv in Ep; [|exact T]. destruct Ep as [Ht ->].
  assert (Hb := bits_of_range _ Ht). unfold bits_of in Hb. fold (zstd_bits target_section_size) in Hb.
  destruct (zstd_iter_slices_ends (zstd_bits target_section_size) data ltac:(lia)) as (out & it & Hc).
  exists (33 * length data + 34)%nat, out, it. exact Hc.
Qed.

(** Gear32 with a smaller average: a byte whose table entry is small stops it for good. *)
Lemma gear_stuck : forall n p b, gear_with_average_size_log2 n = Ok p -> gear_rule n [b] -> forall fuel data,
  collect iter_slices_next fuel (iter_slices (gear_incr p) (incr_new (gear_incr p)) (b :: data)) = Diverge.
Proof.
  intros n p b Hp Hr fuel data. apply (collect_stuck _ _ _ _ []). unfold iter_slices_next, iter_slices. cbn [it_rem it_chunker incr_push gear_incr incr_new].
  unfold gear_push. cbn [for_enum]. unfold gear_push_body at 1.
  assert (H := gear_push_spec n p [] b Hp). change (gear_fingerprint []) with gear_state_default in H. rewrite H. cbn [bind app].
  replace (gear_fingerprint [b] <? 2 ^ (32 - n)) with true by (symmetry; now apply Z.ltb_lt). cbn [bind split_at Nat.leb].
  reflexivity.
Qed.

Lemma gear_small_byte : forall n, 1 <= n <= 24 -> gear_rule n [xdf].
Proof.
  intros n Hn. unfold gear_rule. assert (E : gear_fingerprint [xdf] = 211) by (vm_compute; reflexivity). rewrite E.
  assert (2 ^ 8 <= 2 ^ (32 - n)) by (apply Z.pow_le_mono_r; lia). change (2 ^ 8) with 256 in *. lia.
Qed.

Theorem gear_iter_ends_iff : forall n p, gear_with_average_size_log2 n = Ok p ->
  ((forall data, stream_len (length data) -> iter_ends (gear_incr p) data) <-> 25 <= n).
Proof.
  intros n p Hp. assert (Hn := proj1 (gear_ctor_inv _ _ Hp)). split.
  - intros H. destruct (Z.le_gt_cases 25 n) as [G|G]; [exact G|exfalso].
    destruct (H [xdf]) as (fuel & out & it & Hc); [unfold stream_len; cbn; lia|].
    rewrite (gear_stuck n p xdf Hp (gear_small_byte n ltac:(lia))) in Hc. discriminate.
  - intros G data Hl. apply (iter_all_ends (CfgGear n)); auto; [unfold typed, is_u64; lia|].
    cbn [incr_of]. rewrite Hp. reflexivity.
Qed.
