(** * ZpaqCtor: constructors of Zpaq, sizes, and how its hash forgets. *)

From Verif Require Import Base Api Range Spec Lists Contract Step Words Ring Zpaq ZpaqProofs CutFacts.

(** ** Constructors *)
Lemma shl_u32_one : forall n, 0 <= n < 32 -> shl_u32 1 n = Ok (2 ^ n).
Proof.
  intros n Hn. unfold shl_u32.
  replace ((0 <=? n) && (n <? 32)) with true by (symmetry; apply andb_true_iff; split; [apply Z.leb_le|apply Z.ltb_lt]; lia).
  unfold wrap32, two32. rewrite Z.shiftl_1_l, Z.mod_small; [reflexivity|]. split; [apply Z.pow_nonneg; lia|].
  apply Z.pow_lt_mono_r; lia.
Qed.

Lemma shl_u64_small : forall a n, 0 <= n < 64 -> 0 <= a -> a * 2 ^ n < 2 ^ 64 -> shl_u64 a n = Ok (a * 2 ^ n).
Proof.
  intros a n Hn Ha Hl. unfold shl_u64.
  replace ((0 <=? n) && (n <? 64)) with true by (symmetry; apply andb_true_iff; split; [apply Z.leb_le|apply Z.ltb_lt]; lia).
  unfold wrap64, two64. rewrite Z.shiftl_mul_pow2 by lia. rewrite Z.mod_small; [reflexivity|]. split; [|exact Hl].
  apply Z.mul_nonneg_nonneg; [lia|apply Z.pow_nonneg; lia].
Qed.

Lemma max_hash_ok : forall f, 1 <= f <= 32 -> max_hash_from_fragment_ave f = Ok (2 ^ (32 - f)).
Proof.
  intros f Hf. unfold max_hash_from_fragment_ave, rust_assert.
  replace (f <=? 32) with true by (symmetry; apply Z.leb_le; lia). cbn [bind]. apply shl_u32_one. lia.
Qed.

Lemma max_hash_panic : forall f, ~ (1 <= f <= 32) -> max_hash_from_fragment_ave f = Panic.
Proof.
  intros f Hf. unfold max_hash_from_fragment_ave, rust_assert. destruct (Z.leb_spec f 32) as [G|G]; [|reflexivity]. cbn [bind].
  unfold shl_u32. replace ((0 <=? 32 - f) && (32 - f <? 32)) with false; [reflexivity|].
  symmetry. apply andb_false_iff. right. apply Z.ltb_ge. lia.
Qed.

Theorem zpaq_with_average_and_range_spec : forall f r,
  zpaq_with_average_and_range f r =
  if (1 <=? f) && (f <=? 32) then Ok {| zq_range := r; zq_max_hash := 2 ^ (32 - f) |} else Panic.
Proof.
  intros f r. unfold zpaq_with_average_and_range. rewrite into_tuple_id.
  destruct (Z.leb_spec 1 f) as [G1|G1]; [destruct (Z.leb_spec f 32) as [G2|G2]|].
  - rewrite max_hash_ok by lia. reflexivity.
  - rewrite max_hash_panic by lia. reflexivity.
  - rewrite max_hash_panic by lia. reflexivity.
Qed.

Theorem zpaq_with_average_size_pow_2_spec : forall f,
  zpaq_with_average_size_pow_2 f =
  if (10 <=? f) && (f <=? 32) then
    Ok {| zq_range := (Included (64 * 2 ^ (f - 10)), Excluded (8128 * 2 ^ f)); zq_max_hash := 2 ^ (32 - f) |}
  else Panic.
Proof.
  intros f. unfold zpaq_with_average_size_pow_2, range_from_fragment_ave, rust_assert.
  destruct (Z.leb_spec f 32) as [G2|G2]; cbn [bind]; [|now rewrite andb_false_r].
  destruct (Z.leb_spec 10 f) as [G1|G1]; cbn [bind andb]; [|reflexivity].
  assert (B1 : 2 ^ (f - 10) <= 2 ^ 22) by (apply Z.pow_le_mono_r; lia).
  assert (B2 : 2 ^ f <= 2 ^ 32) by (apply Z.pow_le_mono_r; lia).
  change (2 ^ 22) with 4194304 in B1. change (2 ^ 32) with 4294967296 in B2.
  rewrite shl_u64_small by lia. cbn [bind].
  rewrite shl_u64_small by lia. cbn [bind].
  rewrite zpaq_with_average_and_range_spec.
  replace (1 <=? f) with true by (symmetry; apply Z.leb_le; lia).
  replace (f <=? 32) with true by (symmetry; apply Z.leb_le; lia). reflexivity.
Qed.

Lemma ave_from_max_range : forall m, 0 <= m ->
  (1 <=? fragment_ave_from_max m) && (fragment_ave_from_max m <=? 32) = (8192 <=? m) && (m <? 2 ^ 45).
Proof.
  intros m Hm. unfold fragment_ave_from_max. apply eq_true_iff_eq. rewrite !andb_true_iff, !Z.leb_le, Z.ltb_lt.
  destruct (Z.eq_dec m 0) as [->|Hm0]; [cbn; lia|].
  assert (X : (13 <= Z.log2 m) <-> 8192 <= m).
  { change 8192 with (2 ^ 13). symmetry. apply Z.log2_le_pow2. lia. }
  assert (Y : Z.log2 m < 45 <-> m < 2 ^ 45). { symmetry. apply Z.log2_lt_pow2. lia. }
  lia.
Qed.

Theorem zpaq_with_max_size_spec : forall m, 0 <= m ->
  zpaq_with_max_size m =
  if (8192 <=? m) && (m <? 2 ^ 45) then
    Ok {| zq_range := (Included (m / 64), Excluded m); zq_max_hash := 2 ^ (44 - Z.log2 m) |}
  else Panic.
Proof.
  intros m Hm. unfold zpaq_with_max_size. rewrite zpaq_with_average_and_range_spec, ave_from_max_range by exact Hm.
  destruct (Z.leb_spec 8192 m) as [G|G]; [|reflexivity]. destruct (Z.ltb_spec m (2 ^ 45)) as [G2|G2]; [|reflexivity].
  cbn [andb]. unfold range_from_max, fragment_ave_from_max.
  assert (X : 13 <= Z.log2 m) by (change 8192 with (2 ^ 13) in G; apply Z.log2_le_pow2; lia).
  do 3 f_equal. lia.
Qed.

(** The size from which [with_range] derives the average: the largest allowed, or 64 times the smallest. *)
Definition range_top (r : range) : option Z :=
  match end_bound r with
  | Included i => Some i
  | Excluded i => Some (i - 1)
  | Unbounded => match start_bound r with
                 | Included i => Some (64 * i)
                 | Excluded i => Some (64 * (i + 1))
                 | Unbounded => None
                 end
  end.

Definition range_u64 (r : range) : Prop :=
  match start_bound r with Included i | Excluded i => 0 <= i < 2 ^ 64 | Unbounded => True end /\
  match end_bound r with Included i | Excluded i => 0 <= i < 2 ^ 64 | Unbounded => True end.

Theorem zpaq_with_range_spec : forall r, range_u64 r ->
  zpaq_with_range r =
  match range_top r with
  | None => Ok {| zq_range := r; zq_max_hash := 2 ^ 16 |}
  | Some m => if (8192 <=? m) && (m <? 2 ^ 45) then Ok {| zq_range := r; zq_max_hash := 2 ^ (44 - Z.log2 m) |} else Panic
  end.
Proof.
  intros [lo hi] [Hlo Hhi]. cbn [start_bound end_bound fst snd] in Hlo, Hhi.
  assert (K : forall m, 0 <= m -> zpaq_with_average_and_range (fragment_ave_from_max m) (lo, hi) =
    if (8192 <=? m) && (m <? 2 ^ 45) then Ok {| zq_range := (lo, hi); zq_max_hash := 2 ^ (44 - Z.log2 m) |} else Panic).
  { intros m Hm. rewrite zpaq_with_average_and_range_spec, ave_from_max_range by exact Hm.
    destruct (Z.leb_spec 8192 m) as [G|G]; [|reflexivity]. destruct (Z.ltb_spec m (2 ^ 45)) as [G2|G2]; [|reflexivity].
    cbn [andb]. unfold fragment_ave_from_max.
    assert (X : 13 <= Z.log2 m) by (change 8192 with (2 ^ 13) in G; apply Z.log2_le_pow2; lia).
    do 3 f_equal. lia. }
  unfold zpaq_with_range, fragment_ave_from_range, range_top. cbn [start_bound end_bound fst snd].
  destruct hi as [i|i|].
  - cbn [bind]. apply K. lia.
  - unfold sub_u64. destruct (Z.leb_spec 1 i) as [G|G]; cbn [bind]; [apply K; lia|].
    replace (8192 <=? i - 1) with false by (symmetry; apply Z.leb_gt; lia). reflexivity.
  - destruct lo as [i|i|].
    + unfold mul_u64, two64. destruct (Z.ltb_spec (64 * i) (2 ^ 64)) as [G|G]; cbn [bind]; [apply K; lia|].
      replace (64 * i <? 2 ^ 45) with false by (symmetry; apply Z.ltb_ge; lia). now rewrite andb_false_r.
    + unfold add_u64, mul_u64, two64. destruct (Z.ltb_spec (i + 1) (2 ^ 64)) as [G|G]; cbn [bind].
      * destruct (Z.ltb_spec (64 * (i + 1)) (2 ^ 64)) as [G2|G2]; cbn [bind]; [apply K; lia|].
        replace (64 * (i + 1) <? 2 ^ 45) with false by (symmetry; apply Z.ltb_ge; lia). now rewrite andb_false_r.
      * replace (64 * (i + 1) <? 2 ^ 45) with false by (symmetry; apply Z.ltb_ge; lia). now rewrite andb_false_r.
    + cbn [bind]. rewrite zpaq_with_average_and_range_spec. reflexivity.
Qed.

Theorem zpaq_default_value : zpaq_default =
  Ok {| zq_range := (Included 4096, Excluded 532676608); zq_max_hash := 65536 |}.
Proof. unfold zpaq_default. rewrite zpaq_with_average_size_pow_2_spec. reflexivity. Qed.

(** ** Chunk sizes *)
Definition zpaq_size_ok (r : range) (extra : Z) (n : nat) : Prop :=
  (~ below_range r (Z.of_nat n + extra) \/ above_range r (Z.of_nat n + extra)) /\
  ((1 < n)%nat -> ~ above_range r (Z.of_nat n - 1 + extra)).

Lemma zpaq_first_size : forall r mh extra h d n,
  ends_at (per_chunk (zpaq_rule r mh extra)) h d n -> zpaq_size_ok r extra n.
Proof.
  intros r mh extra h d n (Hn & Hr & Hm). unfold per_chunk, zpaq_rule in *. split.
  - rewrite firstn_length, Nat.min_l in Hr by lia. destruct Hr as [[_ Hr]|Hr]; auto.
  - intros H1 Ha. apply (Hm (n - 1)%nat); [lia|]. right. rewrite firstn_length, Nat.min_l by lia.
    replace (Z.of_nat (n - 1)) with (Z.of_nat n - 1) by lia. exact Ha.
Qed.

(** ** The hash forgets *)
Fixpoint zpaq_hash_feeds (s : ZpaqHash) (run : list byte) : res ZpaqHash :=
  match run with
  | [] => Ok s
  | b :: run' => s' <- zpaq_hash_feed s b ;; zpaq_hash_feeds s' run'
  end.

(** The table of a state. *)
Definition zpaq_table (s : ZpaqHash) (tab : byte -> byte) : Prop :=
  length (zh_predicted_byte s) = 256%nat /\
  forall q, nth_error (zh_predicted_byte s) (Z.to_nat (b2z q)) = Some (tab q).

Lemma zpaq_feed_table : forall s tab b, zpaq_table s tab -> exists s', zpaq_hash_feed s b = Ok s' /\
  zpaq_table s' (fun q => if Byte.eqb q (zh_last_byte s) then b else tab q) /\ zh_last_byte s' = b /\
  zh_predicted_byte s' = set_nth (zh_predicted_byte s) (Z.to_nat (b2z (zh_last_byte s))) b /\
  zh_hash s' = ((zh_hash s + b2z b + 1) * (if Byte.eqb b (tab (zh_last_byte s)) then 314159265 else 271828182)) mod 2 ^ 32.
Proof.
  intros s tab b [HL HT]. unfold zpaq_hash_feed, index. rewrite HT. cbn [bind]. unfold store.
  assert (Hi : (Z.to_nat (b2z (zh_last_byte s)) < length (zh_predicted_byte s))%nat).
  { apply nth_error_Some. rewrite HT. discriminate. }
  replace (Nat.ltb _ _) with true by (symmetry; now apply Nat.ltb_lt). cbn [bind].
  eexists. split; [reflexivity|]. cbn [zh_hash zh_last_byte zh_predicted_byte]. split; [|split; [reflexivity|split; [reflexivity|]]].
  - split; [cbn [zh_predicted_byte]; now rewrite set_nth_length|]. intros q. cbn [zh_predicted_byte].
    rewrite nth_error_set_nth by exact Hi.
    destruct (Nat.eqb_spec (Z.to_nat (b2z (zh_last_byte s))) (Z.to_nat (b2z q))) as [E|E].
    + apply b2n_inj in E. subst q. destruct (Byte.eqb (zh_last_byte s) (zh_last_byte s)) eqn:X; [reflexivity|].
      rewrite (Byte.byte_dec_lb eq_refl) in X. discriminate.
    + rewrite HT. destruct (Byte.eqb q (zh_last_byte s)) eqn:X; [|reflexivity].
      apply Byte.byte_dec_bl in X. subst q. now destruct E.
  - unfold byte_eqb, wrap32, two32.
    rewrite Zplus_mod_idemp_l. destruct (Byte.eqb b (tab (zh_last_byte s))); now rewrite Zmult_mod_idemp_l.
Qed.

Lemma zpaq_forget_diff : forall run a b tab j, (j <= 32)%nat -> zpaq_table a tab -> zpaq_table b tab ->
  zh_last_byte a = zh_last_byte b -> zh_predicted_byte a = zh_predicted_byte b ->
  (exists q, zh_hash a - zh_hash b = q * 2 ^ Z.of_nat j) ->
  exists a' b', zpaq_hash_feeds a run = Ok a' /\ zpaq_hash_feeds b run = Ok b' /\
    zh_last_byte a' = zh_last_byte b' /\ zh_predicted_byte a' = zh_predicted_byte b' /\
    (run <> [] -> 0 <= zh_hash a' < 2 ^ 32 /\ 0 <= zh_hash b' < 2 ^ 32) /\
    exists q, zh_hash a' - zh_hash b' = q * 2 ^ Z.of_nat (Nat.min 32 (j + mispredicted tab (zh_last_byte a) run)).
Proof.
  induction run as [|c run IH]; intros a b tab j Hj Ta Tb El Ep [q Hq].
  - exists a, b. cbn [zpaq_hash_feeds mispredicted]. rewrite Nat.add_0_r, Nat.min_r by lia.
    repeat split; auto; try congruence. now exists q.
  - cbn [zpaq_hash_feeds mispredicted].
    destruct (zpaq_feed_table a tab c Ta) as (a1 & Ea & Ta1 & La1 & Pa1 & Ha1).
    destruct (zpaq_feed_table b tab c Tb) as (b1 & Eb & Tb1 & Lb1 & Pb1 & Hb1).
    rewrite Ea, Eb. cbn [bind]. rewrite <- El in Tb1, Hb1, Pb1. rewrite <- Ep in Pb1.
    set (m := if Byte.eqb c (tab (zh_last_byte a)) then 314159265 else 271828182) in *.
    set (e := if Byte.eqb c (tab (zh_last_byte a)) then 0%nat else 1%nat).
    assert (E : exists z, zh_hash a1 - zh_hash b1 = (zh_hash a - zh_hash b) * m + z * 2 ^ 32).
    { exists ((zh_hash b + b2z c + 1) * m / 2 ^ 32 - (zh_hash a + b2z c + 1) * m / 2 ^ 32). rewrite Ha1, Hb1.
      rewrite (Z.mod_eq ((zh_hash a + b2z c + 1) * m)), (Z.mod_eq ((zh_hash b + b2z c + 1) * m)) by discriminate. ring. }
    destruct E as [z E].
    assert (E2 : exists q', zh_hash a1 - zh_hash b1 = q' * 2 ^ Z.of_nat (Nat.min 32 (j + e))).
    { assert (Em : exists m', m = m' * 2 ^ Z.of_nat e).
      { unfold m, e. destruct (Byte.eqb c (tab (zh_last_byte a))); [exists 314159265|exists 135914091]; reflexivity. }
      destruct Em as [m' Em].
      exists (q * m' * 2 ^ Z.of_nat (j + e - Nat.min 32 (j + e)) + z * 2 ^ Z.of_nat (32 - Nat.min 32 (j + e))).
      rewrite E, Hq, Em, Z.mul_add_distr_r, <- !Z.mul_assoc, <- !Z.pow_add_r by lia.
      replace (Z.of_nat (32 - Nat.min 32 (j + e)) + Z.of_nat (Nat.min 32 (j + e))) with 32 by lia.
      replace (Z.of_nat (j + e - Nat.min 32 (j + e)) + Z.of_nat (Nat.min 32 (j + e))) with (Z.of_nat j + Z.of_nat e) by lia.
      rewrite Z.pow_add_r by lia. ring. }
    destruct (IH a1 b1 _ (Nat.min 32 (j + e)) ltac:(lia) Ta1 Tb1 ltac:(congruence) ltac:(congruence) E2)
      as (a' & b' & Ea' & Eb' & El' & Ep' & Hr' & q2 & E3).
    exists a', b'. split; [exact Ea'|]. split; [exact Eb'|]. split; [exact El'|]. split; [exact Ep'|]. split.
    + intros _. destruct run as [|x run]; [|apply Hr'; discriminate].
      cbn [zpaq_hash_feeds] in Ea', Eb'. inversion Ea'; inversion Eb'; subst a' b'. rewrite Ha1, Hb1.
      split; apply Z.mod_pos_bound; reflexivity.
    + exists q2. rewrite E3. rewrite La1. do 3 f_equal. fold e. lia.
Qed.

Theorem zpaq_forget : forall a b tab run, zpaq_table a tab -> zh_last_byte b = zh_last_byte a ->
  zh_predicted_byte b = zh_predicted_byte a -> (32 <= mispredicted tab (zh_last_byte a) run)%nat ->
  exists s, zpaq_hash_feeds a run = Ok s /\ zpaq_hash_feeds b run = Ok s.
Proof.
  intros a b tab run Ta El Ep Hm.
  assert (Tb : zpaq_table b tab) by (unfold zpaq_table; now rewrite Ep).
  destruct (zpaq_forget_diff run a b tab 0 ltac:(lia) Ta Tb (eq_sym El) (eq_sym Ep)) as (a' & b' & Ea & Eb & El' & Ep' & Hr & q & E);
    [exists (zh_hash a - zh_hash b); cbn; ring|].
  rewrite Nat.add_0_l, Nat.min_l in E by exact Hm. change (Z.of_nat 32) with 32 in E.
  assert (Hne : run <> []) by (intros ->; cbn in Hm; lia).
  destruct (Hr Hne) as [R1 R2]. exists a'. split; [exact Ea|]. rewrite Eb. f_equal.
  destruct a' as [ha la pa], b' as [hb lb pb]. cbn [zh_hash zh_last_byte zh_predicted_byte] in *. subst lb pb. f_equal.
  change (2 ^ 32) with 4294967296 in *. lia.
Qed.
