(** * PropsRelease: C70, builds without overflow checks. *)

From Verif Require Import Base Api Tables Range Spec Mii Ram Gear GearProofs Pigz Gzip FastCdc Bup BuzHash Zpaq ZpaqProofs ZpaqCtor Zstd ZstdProofs.
From Verif Require Import Builtin BuiltinProofs Cases PropsGearPigz PropsZpaq PropsZstd Release.

(** The arithmetic is modular. *)
Theorem C70_words : forall a b, is_u64 a -> is_u64 b ->
  add_w64 a b = (a + b) mod 2 ^ 64 /\ sub_w64 a b = (a - b) mod 2 ^ 64 /\ mul_w64 a b = (a * b) mod 2 ^ 64 /\
  (is_u32 a -> is_u32 b -> sub_w32 a b = (a - b) mod 2 ^ 32) /\
  shl_w64 a b = (a * 2 ^ (b mod 64)) mod 2 ^ 64 /\ shl_w32 a b = (a * 2 ^ (b mod 32)) mod 2 ^ 32 /\
  Z.of_nat (sub_wsize (Z.to_nat a) (Z.to_nat b)) = (a - b) mod 2 ^ 64.
Proof.
  intros a b Ha Hb. destruct (words_wrap a b Ha Hb) as (H1 & H2 & H3 & H4). repeat split; auto.
  - unfold shl_w64. rewrite Z.shiftl_mul_pow2; [reflexivity|]. apply Z.mod_pos_bound. lia.
  - unfold shl_w32. rewrite Z.shiftl_mul_pow2; [reflexivity|]. apply Z.mod_pos_bound. lia.
  - unfold is_u64 in *. unfold sub_wsize. destruct (Nat.leb_spec (Z.to_nat b) (Z.to_nat a)).
    + rewrite Z.mod_small by lia. lia.
    + rewrite (Z2Nat.id a), (Z2Nat.id b) by lia. unfold wrap64, two64. rewrite Z2Nat.id; [reflexivity|]. apply Z.mod_pos_bound. lia.
Qed.
Print Assumptions C70_words.

(** The same run. *)
Lemma drive_push_refines : forall St adj (f g : St -> list byte -> res (St * option nat)) data, (forall s d, refines (f s d) (g s d)) ->
  forall sched s base seen none, refines (drive_push adj f data sched s base seen none) (drive_push adj g data sched s base seen none).
Proof.
  intros St adj f g data H. induction sched as [|n sched IH]; intros s base seen none; [apply refines_refl|]. cbn [drive_push].
  apply refines_bind; [apply H|]. intros [s' [k|]]; [|apply IH]. destruct (Nat.ltb _ _); [apply refines_refl|].
  apply refines_bind; [apply IH|]. intros r. apply refines_refl.
Qed.
Lemma drive_chunk_refines : forall St sh (f g : St -> list byte -> res (St * (option nat * nat))) data, (forall s d, refines (f s d) (g s d)) ->
  forall sched s base lo seen none, refines (drive_chunk sh f data sched s base lo seen none) (drive_chunk sh g data sched s base lo seen none).
Proof.
  intros St sh f g data H. induction sched as [|n sched IH]; intros s base lo seen none; [apply refines_refl|]. cbn [drive_chunk].
  apply refines_bind; [apply H|]. intros [s' [[c|] d]]; destruct (Nat.ltb _ d); try apply refines_refl; [|apply IH]. destruct (Nat.ltb _ c); [apply refines_refl|].
  apply refines_bind; [apply IH|]. intros r. apply refines_refl.
Qed.

(** Whatever the checked build computes without a panic, the release build computes too: [push], and every run of it. *)
Theorem C70_incr : forall c C, typed c -> incr_of c = Ok C -> exists push,
  let R := {| incr_state := incr_state C; incr_new := incr_new C; incr_push := push |} in
  incr_release c = Ok R /\
  (forall s d x, incr_push C s d = Ok x -> push s d = Ok x) /\
  (forall adj data sched r, run_incr adj C data sched = Ok r -> run_incr adj R data sched = Ok r).
Proof.
  intros c C T E.
  assert (K : exists push, incr_release c = Ok {| incr_state := incr_state C; incr_new := incr_new C; incr_push := push |} /\ forall s d, refines (incr_push C s d) (push s d)).
  { destruct c; cbn [incr_of incr_release typed] in *.
    - inversion E; subst C. eexists. split; [reflexivity|]. exact mii_push_refines.
    - inversion E; subst C. eexists. split; [reflexivity|]. exact (ram_push_refines _).
    - destruct (gear_with_average_size_log2 average_size_log2) as [p| |] eqn:Ep; cbn [bind] in E; try discriminate. inversion E; subst C.
      apply (gear_new_refines _ T) in Ep. injection Ep as ->. eexists. split; [reflexivity|]. intros s d. apply refines_refl.
    - destruct (pigz_with_bits bits) as [p| |] eqn:Ep; cbn [bind] in E; try discriminate. inversion E; subst C.
      apply pigz_new_refines in Ep. injection Ep as ->. eexists. split; [reflexivity|]. intros s d. apply refines_refl.
    - inversion E; subst C. eexists. split; [reflexivity|]. intros s d. apply refines_refl.
    - inversion E; subst C. eexists. split; [reflexivity|]. exact (fastcdc_push_refines _).
    - inversion E; subst C. eexists. split; [reflexivity|]. exact rollsum_push_refines.
    - destruct (buzhash_new capacity mask hash max) as [p| |] eqn:Ep; cbn [bind] in *; try discriminate. inversion E; subst C.
      eexists. split; [reflexivity|]. exact (buz_push_refines p).
    - destruct (zpaq_with_average_and_range average_size_pow_2 r) as [p| |] eqn:Ep; cbn [bind] in E; try discriminate. inversion E; subst C.
      apply zpaq_new_refines in Ep. rewrite Ep. eexists. split; [reflexivity|]. exact (zpaq_push_refines p).
    - destruct (zstd_with_target_section_size target_section_size) as [p| |] eqn:Ep; cbn [bind] in E; try discriminate. inversion E; subst C.
      apply zstd_new_refines in Ep. rewrite Ep. eexists. split; [reflexivity|]. exact (zstd_push_refines p). }
  destruct K as (push & K1 & K2). exists push. split; [exact K1|]. split; [exact K2|]. intros adj data sched. apply drive_push_refines. exact K2.
Qed.
Print Assumptions C70_incr.

(** [find_chunk_edge]. *)
Theorem C70_chunk : forall c C, typed c -> chunk_of c = Ok C -> exists find,
  let R := {| search_state := search_state C; to_search_state := to_search_state C; find_chunk_edge := find |} in
  chunk_release c = Ok R /\
  (forall s d x, find_chunk_edge C s d = Ok x -> find s d = Ok x) /\
  (forall sh data sched r, run_chunk sh C data sched = Ok r -> run_chunk sh R data sched = Ok r).
Proof.
  intros c C T E.
  assert (K : exists find, chunk_release c = Ok {| search_state := search_state C; to_search_state := to_search_state C; find_chunk_edge := find |} /\ forall s d, refines (find_chunk_edge C s d) (find s d)).
  { destruct c; cbn [chunk_of chunk_release typed] in *.
    - inversion E; subst C. eexists. split; [reflexivity|]. exact mii_find_refines.
    - inversion E; subst C. eexists. split; [reflexivity|]. exact (ram_find_refines _).
    - destruct (gear_with_average_size_log2 average_size_log2) as [p| |] eqn:Ep; cbn [bind] in E; try discriminate. inversion E; subst C.
      apply (gear_new_refines _ T) in Ep. injection Ep as ->. eexists. split; [reflexivity|]. intros s d. apply refines_refl.
    - destruct (pigz_with_bits bits) as [p| |] eqn:Ep; cbn [bind] in E; try discriminate. inversion E; subst C.
      apply pigz_new_refines in Ep. injection Ep as ->. eexists. split; [reflexivity|]. intros s d. apply refines_refl.
    - inversion E; subst C. eexists. split; [reflexivity|]. intros s d. apply refines_refl.
    - inversion E; subst C. eexists. split; [reflexivity|]. exact (fastcdc_find_refines _).
    - inversion E; subst C. eexists. split; [reflexivity|]. intros s d. apply refines_refl.
    - destruct (buzhash_new capacity mask hash max) as [p| |] eqn:Ep; cbn [bind] in *; try discriminate. inversion E; subst C.
      eexists. split; [reflexivity|]. intros s d. apply refines_refl.
    - destruct (zpaq_with_average_and_range average_size_pow_2 r) as [p| |] eqn:Ep; cbn [bind] in E; try discriminate. inversion E; subst C.
      apply zpaq_new_refines in Ep. rewrite Ep. eexists. split; [reflexivity|]. exact (zpaq_find_refines p).
    - destruct (zstd_with_target_section_size target_section_size) as [p| |] eqn:Ep; cbn [bind] in E; try discriminate. inversion E; subst C.
      apply zstd_new_refines in Ep. rewrite Ep. eexists. split; [reflexivity|]. exact (zstd_find_refines p). }
  destruct K as (find & K1 & K2). exists find. split; [exact K1|]. split; [exact K2|]. intros sh data sched. apply drive_chunk_refines. exact K2.
Qed.
Print Assumptions C70_chunk.

(** So the release build cuts by the same rules. *)
Theorem C70_incr_cuts : forall c C R, typed c -> incr_of c = Ok C -> incr_sound c -> incr_release c = Ok R -> incr_conforms (incr_adj c) R (incr_first c) stream_len.
Proof.
  intros c C R T E S ER data Hl. destruct (C70_incr c C T E) as (push & E' & _ & K). rewrite E' in ER. injection ER as <-.
  destruct (incr_all c C T E S data Hl) as (cs & Hc & H). exists cs. split; [exact Hc|]. intros sched. destruct (H sched) as [(r & later & H1 & H2) (r' & H3 & H4)]. split.
  - exists r, later. split; [exact (K _ _ _ _ H1)|exact H2].
  - exists r'. split; [exact (K _ _ _ _ H3)|exact H4].
Qed.
Print Assumptions C70_incr_cuts.

Theorem C70_chunk_cuts : forall c C R rule sh, typed c -> chunk_of c = Ok C -> chunk_sound c -> chunk_rule c = Some rule -> chunk_release c = Ok R ->
  chunk_conforms sh R (ends_at (per_chunk rule)) stream_len (look_back c).
Proof.
  intros c C R rule sh T E S HR ER data Hl. destruct (C70_chunk c C T E) as (find & E' & _ & K). rewrite E' in ER. injection ER as <-.
  destruct (chunk_all c C rule sh T E S HR data Hl) as (cs & Hc & H). exists cs. split; [exact Hc|]. intros sched. destruct (H sched) as [(r & H1 & H2) (r' & H3 & H4)]. split.
  - exists r. split; [exact (K _ _ _ _ H1)|exact H2].
  - exists r'. split; [exact (K _ _ _ _ H3)|exact H4].
Qed.
Print Assumptions C70_chunk_cuts.

(** ** Arguments that panic only in the checked build *)

(** Gear32: the logarithm counts modulo 32, and 0 makes every byte a chunk ([push] then answers 0 for ever). *)
Theorem C70_gear_wraps : forall n, is_u64 n ->
  (n mod 32 <> 0 -> gear_with_average_size_log2 (n mod 32) = Ok (gear_with_average_size_log2_r n)) /\
  (n mod 32 = 0 -> gear_mask (gear_with_average_size_log2_r n) = 0 /\
    forall s b d, gear_find_chunk_edge (gear_with_average_size_log2_r n) s (b :: d) = Ok (0, (Some 1%nat, 1%nat)) /\
                  gear_push (gear_with_average_size_log2_r n) s (b :: d) = Ok (0, Some 0%nat)).
Proof.
  intros n Hn. unfold is_u64 in Hn. assert (B := Z.mod_pos_bound n 32 ltac:(lia)). set (k := n mod 32) in *.
  assert (M : msb_mask_r n = if k =? 0 then 0 else Z.shiftl (2 ^ k - 1) (32 - k)).
  { unfold msb_mask_r, shl_w32, sub_w32. fold k. assert (A : sub_w64 32 n mod 32 = (32 - k) mod 32).
    { unfold sub_w64, k. destruct (Z.leb_spec n 32).
      - rewrite (Zminus_mod 32 n), (Zminus_mod 32 (n mod 32)). now rewrite Z.mod_mod by lia.
      - unfold wrap64, two64. rewrite <- Znumtheory.Zmod_div_mod by (try lia; exists (2 ^ 59); reflexivity). rewrite (Zminus_mod 32 n), (Zminus_mod 32 (n mod 32)). now rewrite Z.mod_mod by lia. }
    rewrite A. rewrite (Z.shiftl_mul_pow2 1 k), Z.mul_1_l by lia. assert (P : 1 <= 2 ^ k <= 2 ^ 31) by (split; [apply (Z.pow_le_mono_r 2 0 k); lia|apply Z.pow_le_mono_r; lia]).
    unfold wrap32, two32. rewrite (Z.mod_small (2 ^ k)) by lia. destruct (Z.leb_spec 1 (2 ^ k)); [|lia].
    destruct (Z.eqb_spec k 0) as [E|E]; [rewrite E; reflexivity|]. rewrite (Z.mod_small (32 - k)) by lia. apply Z.mod_small.
    rewrite Z.shiftl_mul_pow2 by lia. assert (Q : 2 ^ k * 2 ^ (32 - k) = 2 ^ 32) by (rewrite <- Z.pow_add_r by lia; f_equal; lia). assert (0 < 2 ^ (32 - k)) by (apply Z.pow_pos_nonneg; lia). nia. }
  split.
  - intros G. rewrite gear_ctor_ok by lia. unfold gear_with_average_size_log2_r. rewrite M. destruct (Z.eqb_spec k 0); [lia|reflexivity].
  - intros G. assert (M0 : gear_mask (gear_with_average_size_log2_r n) = 0) by (cbn [gear_with_average_size_log2_r gear_mask]; rewrite M, G; reflexivity).
    split; [exact M0|]. intros s b d. unfold gear_find_chunk_edge, gear_push. cbn [for_enum]. unfold gear_fce_body, gear_push_body, gear_state_push. rewrite M0. cbn [gear_with_average_size_log2_r gear_gear gear_xxx].
    assert (I : exists v, index GEAR_32 (Z.to_nat (b2z b)) = Ok v). { destruct b; eexists; reflexivity. } destruct I as [v ->]. cbn [bind]. rewrite Z.land_0_r. split; reflexivity.
Qed.
Print Assumptions C70_gear_wraps.

(** PigzRsyncable: the number of bits counts modulo 32. *)
Theorem C70_pigz_wraps : forall b, 0 <= b < 256 -> exists p, pigz_with_bits (b mod 32) = Ok p /\
  pigz_with_bits_r b = {| pigz_bits := b; pigz_mask := pigz_mask p; pigz_hit := pigz_hit p |} /\
  (forall s d, pigz_push (pigz_with_bits_r b) s d = pigz_push p s d) /\ (forall s d, pigz_find_chunk_edge (pigz_with_bits_r b) s d = pigz_find_chunk_edge p s d).
Proof.
  intros b Hb. assert (B := Z.mod_pos_bound b 32 ltac:(lia)). eexists. split; [apply (proj1 (C20_pigz_constructor (b mod 32))); lia|]. cbn [pigz_mask pigz_hit].
  assert (P : 1 <= 2 ^ (b mod 32) <= 2 ^ 31) by (split; [apply (Z.pow_le_mono_r 2 0 (b mod 32)); lia|apply Z.pow_le_mono_r; lia]).
  assert (M : pigz_with_bits_r b = {| pigz_bits := b; pigz_mask := 2 ^ (b mod 32) - 1; pigz_hit := (2 ^ (b mod 32) - 1) / 2 |}).
  { unfold pigz_with_bits_r, shl_w32, sub_w32. cbv zeta. rewrite Z.shiftl_mul_pow2, Z.mul_1_l by lia. unfold wrap32, two32. rewrite (Z.mod_small (2 ^ (b mod 32))) by lia.
    destruct (Z.leb_spec 1 (2 ^ (b mod 32))); [|lia]. now rewrite Z.shiftr_div_pow2 by lia. }
  rewrite M. split; [reflexivity|]. split; intros s d; reflexivity.
Qed.
Print Assumptions C70_pigz_wraps.

(** Zpaq: an average of 0, which the checked build rejects, means a split where the hash is 0, not everywhere. *)
Theorem C70_zpaq_wraps : forall f r, 0 <= f < 256 ->
  (1 <= f <= 32 -> zpaq_with_average_and_range_r f r = zpaq_with_average_and_range f r) /\
  (f = 0 -> zpaq_with_average_and_range f r = Panic /\ zpaq_with_average_and_range_r f r = Ok {| zq_range := r; zq_max_hash := 1 |}) /\
  (32 < f -> zpaq_with_average_and_range_r f r = Panic).
Proof.
  intros f r Hf. assert (It : into_tuple r = r) by (destruct r as [[] []]; reflexivity). split; [|split].
  - intros G. assert (W := zpaq_with_average_and_range_spec f r). destruct (Z.leb_spec 1 f); [|lia]. destruct (Z.leb_spec f 32); [|lia]. cbn [andb] in W. rewrite W. apply zpaq_new_refines. exact W.
  - intros ->. split; [reflexivity|]. unfold zpaq_with_average_and_range_r, max_hash_from_fragment_ave_r. rewrite It. reflexivity.
  - intros G. unfold zpaq_with_average_and_range_r, max_hash_from_fragment_ave_r. destruct (Z.leb_spec f 32); [lia|]. reflexivity.
Qed.
Print Assumptions C70_zpaq_wraps.

Theorem C70_zpaq_max_wraps : forall m, is_u64 m ->
  (m < 8192 -> zpaq_with_max_size_r m = Ok {| zq_range := (Included (m / 64), Excluded m); zq_max_hash := 1 |} /\
     forall p hash n, zpaq_with_max_size_r m = Ok p -> 0 <= hash -> 0 <= n -> (zpaq_split_here p hash n = true <-> (hash = 0 /\ m / 64 <= n) \/ m <= n)) /\
  (8192 <= m -> zpaq_with_max_size_r m = zpaq_with_max_size m).
Proof.
  intros m Hm. unfold is_u64 in Hm. split.
  - intros G. assert (F : fragment_ave_from_max m = 0).
    { unfold fragment_ave_from_max. assert (Z.log2 m < 13); [|lia]. destruct (Z.eq_dec m 0) as [->|N]; [reflexivity|]. apply Z.log2_lt_pow2; lia. }
    assert (E : zpaq_with_max_size_r m = Ok {| zq_range := (Included (m / 64), Excluded m); zq_max_hash := 1 |}).
    { unfold zpaq_with_max_size_r. rewrite F. exact (proj2 (proj1 (proj2 (C70_zpaq_wraps 0 (range_from_max m) ltac:(lia))) eq_refl)). }
    split; [exact E|]. intros p hash n E' Hh Hn. rewrite E in E'. injection E' as <-. unfold zpaq_split_here, under_min, exceeds_max. cbn [zq_range zq_max_hash start_bound end_bound fst snd].
    destruct (Z.ltb_spec hash 1), (Z.ltb_spec n (m / 64)), (Z.leb_spec m n); cbn; split; intros; try reflexivity; try discriminate; lia.
  - intros G. unfold zpaq_with_max_size_r, zpaq_with_max_size. assert (F : 1 <= fragment_ave_from_max m < 256).
    { unfold fragment_ave_from_max. assert (13 <= Z.log2 m) by (apply Z.log2_le_pow2; lia). assert (Z.log2 m < 64) by (apply Z.log2_lt_pow2; lia). lia. }
    destruct (Z.le_gt_cases (fragment_ave_from_max m) 32) as [L|L]; [apply (proj1 (C70_zpaq_wraps (fragment_ave_from_max m) (range_from_max m) ltac:(lia))); lia|].
    rewrite (proj2 (proj2 (C70_zpaq_wraps (fragment_ave_from_max m) (range_from_max m) ltac:(lia))) L). rewrite zpaq_with_average_and_range_spec. destruct (Z.leb_spec 1 (fragment_ave_from_max m)), (Z.leb_spec (fragment_ave_from_max m) 32); cbn [andb]; try lia; reflexivity.
Qed.
Print Assumptions C70_zpaq_max_wraps.

(** [with_range], all ranges: the bound that the average is taken from counts modulo 2^64. *)
Theorem C70_zpaq_range_wraps : forall r, word_range r ->
  let f := match r with
           | (_, Included i) => Z.max 0 (Z.log2 i - 12)
           | (_, Excluded i) => Z.max 0 (Z.log2 ((i - 1) mod 2 ^ 64) - 12)
           | (Included i, Unbounded) => Z.max 0 (Z.log2 ((64 * i) mod 2 ^ 64) - 12)
           | (Excluded i, Unbounded) => Z.max 0 (Z.log2 ((64 * (i + 1)) mod 2 ^ 64) - 12)
           | (Unbounded, Unbounded) => 16
           end in
  zpaq_with_range_r r = if f <=? 32 then Ok {| zq_range := r; zq_max_hash := if f =? 0 then 1 else 2 ^ (32 - f) |} else Panic.
Proof.
  intros r Hr f. assert (F : fragment_ave_from_range_r r = f).
  { unfold word_range, is_u64 in Hr. subst f. unfold fragment_ave_from_range_r, fragment_ave_from_max, start_bound, end_bound. destruct r as [[i|i|] [j|j|]]; cbn [fst snd] in *; try reflexivity.
    all: try (rewrite (proj1 (proj2 (words_wrap j 1 ltac:(unfold is_u64; lia) ltac:(unfold is_u64; lia)))); reflexivity).
    - rewrite (proj1 (proj2 (proj2 (words_wrap 64 i ltac:(unfold is_u64; lia) ltac:(unfold is_u64; lia))))). reflexivity.
    - rewrite (proj1 (words_wrap i 1 ltac:(unfold is_u64; lia) ltac:(unfold is_u64; lia))).
      assert (B := Z.mod_pos_bound (i + 1) (2 ^ 64) ltac:(lia)).
      rewrite (proj1 (proj2 (proj2 (words_wrap 64 ((i + 1) mod 2 ^ 64) ltac:(unfold is_u64; lia) ltac:(unfold is_u64; lia))))). now rewrite Zmult_mod_idemp_r. }
  assert (F0 : 0 <= f < 256).
  { rewrite <- F. unfold fragment_ave_from_range_r, fragment_ave_from_max. assert (L : forall v, 0 <= v < 2 ^ 64 -> 0 <= Z.max 0 (Z.log2 v - 12) < 256).
    { intros v Hv. destruct (Z.eq_dec v 0) as [->|N]; [cbn; lia|]. assert (Z.log2 v < 64) by (apply Z.log2_lt_pow2; lia). lia. }
    unfold word_range, is_u64 in Hr. destruct r as [[i|i|] [j|j|]]; cbn [fst snd start_bound end_bound] in *; try (apply L; lia); try lia.
    all: try (apply L; rewrite (proj1 (proj2 (words_wrap j 1 ltac:(unfold is_u64; lia) ltac:(unfold is_u64; lia)))); apply Z.mod_pos_bound; lia).
    - apply L. rewrite (proj1 (proj2 (proj2 (words_wrap 64 i ltac:(unfold is_u64; lia) ltac:(unfold is_u64; lia))))). apply Z.mod_pos_bound; lia.
    - apply L. rewrite (proj1 (words_wrap i 1 ltac:(unfold is_u64; lia) ltac:(unfold is_u64; lia))). assert (B := Z.mod_pos_bound (i + 1) (2 ^ 64) ltac:(lia)).
      rewrite (proj1 (proj2 (proj2 (words_wrap 64 ((i + 1) mod 2 ^ 64) ltac:(unfold is_u64; lia) ltac:(unfold is_u64; lia))))). apply Z.mod_pos_bound; lia. }
  unfold zpaq_with_range_r. rewrite F. destruct (C70_zpaq_wraps f r F0) as (W1 & W2 & W3). destruct (Z.leb_spec f 32).
  - destruct (Z.eqb_spec f 0); [apply W2; assumption|]. rewrite W1 by lia. rewrite zpaq_with_average_and_range_spec. destruct (Z.leb_spec 1 f), (Z.leb_spec f 32); cbn [andb]; try lia; reflexivity.
  - apply W3. assumption.
Qed.
Print Assumptions C70_zpaq_range_wraps.

(** Zstd's constructor and Zpaq's [with_average_size_pow_2] behave alike in both builds. *)
Theorem C70_same_constructors : (forall t, is_u64 t -> zstd_with_target_section_size_r t = zstd_with_target_section_size t) /\
  (forall f, 0 <= f < 256 -> zpaq_with_average_size_pow_2_r f = zpaq_with_average_size_pow_2 f).
Proof.
  split.
  - intros t Ht. unfold is_u64 in Ht. destruct (Z_le_dec (2 ^ 20) t) as [A|A]; [destruct (Z_lt_dec t (2 ^ 52)) as [B|B]|].
    + rewrite zstd_ctor_ok by lia. apply zstd_new_refines. apply zstd_ctor_ok. lia.
    + rewrite zstd_ctor_panic by lia. unfold zstd_with_target_section_size_r, try_into_u32, two32. rewrite Z.shiftr_div_pow2 by lia. assert (2 ^ 32 <= t / 2 ^ 20) by (apply Z.div_le_lower_bound; lia). destruct (Z.ltb_spec (t / 2 ^ 20) (2 ^ 32)); [lia|reflexivity].
    + rewrite zstd_ctor_panic by lia. unfold zstd_with_target_section_size_r, try_into_u32, two32. rewrite Z.shiftr_div_pow2 by lia. rewrite Z.div_small by lia. reflexivity.
  - intros f Hf. assert (W := zpaq_with_average_size_pow_2_spec f). destruct (Z.leb_spec 10 f), (Z.leb_spec f 32); cbn [andb] in W; rewrite W.
    + apply zpaq_ave_refines. exact W.
    + unfold zpaq_with_average_size_pow_2_r, range_from_fragment_ave_r. destruct (Z.leb_spec f 32); [lia|reflexivity].
    + unfold zpaq_with_average_size_pow_2_r, range_from_fragment_ave_r. destruct (Z.leb_spec f 32); [|lia]. destruct (Z.leb_spec 10 f); [lia|reflexivity].
    + lia.
Qed.
Print Assumptions C70_same_constructors.

(** A window of length 0 is not an overflow: RollSum fails on the first byte in both builds. *)
Theorem C70_window_0 : forall b d, rollsum_push (rollsum_incr_new 0) (b :: d) = Panic /\ rollsum_push_r (rollsum_incr_new 0) (b :: d) = Panic.
Proof. intros b d. split; reflexivity. Qed.
Print Assumptions C70_window_0.

(** [with_range(2^58..)]: 64 times the start is 0 modulo 2^64, and is taken for the average; [with_range(..0)] fails in both builds. *)
Example C70_case :
  gear_with_average_size_log2 32 = Panic /\ gear_mask (gear_with_average_size_log2_r 32) = 0 /\ gear_mask (gear_with_average_size_log2_r 33) = 2 ^ 31 /\
  pigz_with_bits 44 = Panic /\ pigz_mask (pigz_with_bits_r 44) = 4095 /\
  zpaq_with_range (Included (2 ^ 58), Unbounded) = Panic /\
  zpaq_with_range_r (Included (2 ^ 58), Unbounded) = Ok {| zq_range := (Included (2 ^ 58), Unbounded); zq_max_hash := 1 |} /\
  zpaq_with_range (Unbounded, Excluded 0) = Panic /\ zpaq_with_range_r (Unbounded, Excluded 0) = Panic /\
  zpaq_with_max_size 4096 = Panic.
Proof. repeat split; vm_compute; reflexivity. Qed.
