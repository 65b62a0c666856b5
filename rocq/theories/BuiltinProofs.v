(** * BuiltinProofs: conformance of every built-in chunker, in one statement per API. *)

From Verif Require Import Base Api Tables Range Spec Lists Contract Step Words Rot CutFacts.
From Verif Require Import Mii Ram Gear Pigz Gzip FastCdc Bup BuzHash Zpaq Zstd.
From Verif Require Import MiiProofs RamProofs GearProofs PigzProofs GzipProofs FastCdcProofs BupProofs BupAny BuzProofs ZpaqProofs ZpaqCtor ZstdProofs.
From Verif Require Import Builtin.

Lemma stream_len_down : down_closed stream_len.
Proof. intros a b H1 H2. unfold stream_len in *. lia. Qed.

(** Restricting the streams. *)
Lemma incr_conforms_weaken : forall adj C first (lim lim' : nat -> Prop), (forall n, lim' n -> lim n) ->
  incr_conforms adj C first lim -> incr_conforms adj C first lim'.
Proof. intros adj C first lim lim' H K data Hl. apply K. now apply H. Qed.
Lemma chunk_conforms_weaken : forall sh C first (lim lim' : nat -> Prop) keep, (forall n, lim' n -> lim n) ->
  chunk_conforms sh C first lim keep -> chunk_conforms sh C first lim' keep.
Proof. intros sh C first lim lim' keep H K data Hl. apply K. now apply H. Qed.

Lemma stream_any : forall n, stream_len n -> any_length n.
Proof. exact (fun _ _ => I). Qed.
Lemma stream_below : forall n, stream_len n -> below_2_64 n.
Proof. intros n H. unfold stream_len, below_2_64 in *. lia. Qed.

Lemma buz_ctor_inv : forall k mask h max p, buzhash_new k mask h max = Ok p ->
  (1 <= k)%nat /\ p = {| bz_k := k; bz_h := h; bz_mask := mask; bz_max_chunk_size := max |}.
Proof.
  intros k mask h max p H. unfold buzhash_new, rust_assert in H. destruct (Nat.ltb_spec 0 k) as [G|G]; cbn [bind] in H; [|discriminate].
  inversion H. split; [lia|reflexivity].
Qed.

Lemma buz_good_of : forall k mask h max p, typed (CfgBuzHash k mask h max) -> buzhash_new k mask h max = Ok p ->
  buz_good p (value_of h).
Proof.
  intros k mask h max p (_ & _ & Hh) H. apply buz_ctor_inv in H. destruct H as [Hk ->]. split; [exact Hk|]. cbn [bz_h].
  intros b. destruct (Hh b) as (v & E & Hv). unfold value_of. rewrite E. split; [reflexivity|exact Hv].
Qed.

Lemma zpaq_ctor_inv : forall f r p, zpaq_with_average_and_range f r = Ok p ->
  1 <= f <= 32 /\ p = {| zq_range := r; zq_max_hash := 2 ^ (32 - f) |}.
Proof.
  intros f r p H. rewrite zpaq_with_average_and_range_spec in H.
  destruct (Z.leb_spec 1 f); destruct (Z.leb_spec f 32); cbn [andb] in H; try discriminate. inversion H. split; [lia|reflexivity].
Qed.

Lemma bits_of_range : forall t, 2 ^ 20 <= t < 2 ^ 52 -> 20 <= bits_of t <= 51.
Proof. exact zstd_bits_range. Qed.

Theorem incr_first_laws : forall c, typed c -> first_laws (incr_first c).
Proof.
  intros c T. destruct c; try apply ends_at_laws. cbn [incr_first typed] in *.
  apply (fc_laws (fastcdc_new gear min normal max)). cbn. unfold is_u64 in T. lia.
Qed.

Theorem incr_first_progressive : forall c, incr_sound c -> progressive (incr_first c).
Proof.
  intros c S. destruct c; try apply ends_at_progressive. cbn [incr_first incr_sound] in *.
  apply (fc_progressive (fastcdc_new gear min normal max)). cbn. lia.
Qed.

Theorem incr_all : forall c C, typed c -> incr_of c = Ok C -> incr_sound c ->
  incr_conforms (incr_adj c) C (incr_first c) stream_len.
Proof.
  intros c C T E S. destruct c; cbn [incr_of incr_adj incr_first incr_sound] in *.
  - inversion E; subst C. exact (incr_conforms_weaken _ _ _ _ _ stream_any (mii_incr_conforms w)).
  - inversion E; subst C. exact (incr_conforms_weaken _ _ _ _ _ stream_below (ram_incr_conforms_at w)).
  - destruct (gear_with_average_size_log2 average_size_log2) as [p| |] eqn:Ep; cbn [bind] in E; try discriminate.
    inversion E; subst C. exact (incr_conforms_weaken _ _ _ _ _ stream_any (gear_incr_conforms _ _ Ep)).
  - destruct (pigz_with_bits bits) as [p| |] eqn:Ep; cbn [bind] in E; try discriminate.
    inversion E; subst C. exact (incr_conforms_weaken _ _ _ _ _ stream_any (pigz_incr_conforms _ _ Ep)).
  - inversion E; subst C.
    exact (incr_conforms_weaken _ _ _ _ _ stream_any (gzip_incr_conforms (gzip_with_window_and_modulus window modulus) (proj2 S) (proj1 S))).
  - inversion E; subst C. cbn [typed] in T. unfold is_u64 in T.
    exact (incr_conforms_weaken _ _ _ _ _ stream_below
      (fc_incr_conforms (fastcdc_new gear min normal max) (conj (proj1 T) (conj (proj1 (proj1 (proj2 (proj2 T)))) (proj2 S))) (proj1 S))).
  - inversion E; subst C. exact (incr_conforms_weaken _ _ _ _ _ stream_any (bup_any_conforms window S)).
  - destruct (buzhash_new capacity mask hash max) as [p| |] eqn:Ep; cbn [bind] in E; try discriminate. inversion E; subst C.
    assert (G := buz_good_of _ _ _ _ _ T Ep). apply buz_ctor_inv in Ep. destruct Ep as [_ ->].
    exact (incr_conforms_weaken _ _ _ _ _ stream_below (buz_incr_conforms _ _ G)).
  - destruct (zpaq_with_average_and_range average_size_pow_2 r) as [p| |] eqn:Ep; cbn [bind] in E; try discriminate.
    inversion E; subst C. apply zpaq_ctor_inv in Ep. destruct Ep as [_ ->].
    exact (incr_conforms_weaken _ _ _ _ _ stream_below (zpaq_incr_conforms _)).
  - destruct (zstd_with_target_section_size target_section_size) as [p| |] eqn:Ep; cbn [bind] in E; try discriminate.
    inversion E; subst C. apply zstd_ctor_inv in Ep; [|exact T]. destruct Ep as [Ht ->].
    apply bits_of_range in Ht.
    exact (incr_conforms_weaken _ _ _ _ _ stream_any (zstd_incr_conforms (bits_of target_section_size) ltac:(lia))).
Qed.

Theorem chunk_all : forall c C rule sh, typed c -> chunk_of c = Ok C -> chunk_sound c -> chunk_rule c = Some rule ->
  chunk_conforms sh C (ends_at (per_chunk rule)) stream_len (look_back c).
Proof.
  intros c C rule sh T E S R. destruct c; cbn [chunk_of look_back chunk_rule chunk_sound] in *;
    try discriminate; inversion R; subst rule; clear R.
  - inversion E; subst C. exact (chunk_conforms_weaken _ _ _ _ _ _ stream_any (mii_chunk_conforms w sh)).
  - inversion E; subst C. exact (chunk_conforms_weaken _ _ _ _ _ _ stream_below (ram_chunk_conforms w sh)).
  - destruct (gear_with_average_size_log2 average_size_log2) as [p| |] eqn:Ep; cbn [bind] in E; try discriminate.
    inversion E; subst C. exact (chunk_conforms_weaken _ _ _ _ _ _ stream_any (gear_chunk_conforms _ _ sh Ep)).
  - destruct (pigz_with_bits bits) as [p| |] eqn:Ep; cbn [bind] in E; try discriminate.
    inversion E; subst C. exact (chunk_conforms_weaken _ _ _ _ _ _ stream_any (pigz_chunk_conforms _ _ sh Ep)).
  - inversion E; subst C.
    exact (chunk_conforms_weaken _ _ _ _ _ _ stream_any (gzip_chunk_conforms (gzip_with_window_and_modulus window modulus) sh S)).
  - inversion E; subst C. exact (chunk_conforms_weaken _ _ _ _ _ _ stream_any (bup_chunk_conforms window sh)).
  - destruct (buzhash_new capacity mask hash max) as [p| |] eqn:Ep; cbn [bind] in E; try discriminate. inversion E; subst C.
    assert (G := buz_good_of _ _ _ _ _ T Ep). apply buz_ctor_inv in Ep. destruct Ep as [_ ->].
    exact (chunk_conforms_weaken _ _ _ _ _ _ stream_any (buz_chunk_conforms _ _ G sh)).
  - destruct (zpaq_with_average_and_range average_size_pow_2 r) as [p| |] eqn:Ep; cbn [bind] in E; try discriminate.
    inversion E; subst C. apply zpaq_ctor_inv in Ep. destruct Ep as [_ ->].
    exact (chunk_conforms_weaken _ _ _ _ _ _ (fun n H => H) (zpaq_chunk_conforms _ sh)).
Qed.
