(** * Unbounded: inputs without any cut, and size limits. *)

From Verif Require Import Base Api Tables Range Spec Lists Contract Rot CutFacts CutProps Builtin BuiltinProofs.

(** ** Streams of every length without a cut *)
Definition uncut (rule : list byte -> Prop) (d : list byte) : Prop := forall m, (1 <= m <= length d)%nat -> ~ rule (firstn m d).

Lemma uncut_snoc : forall rule d b, uncut rule d -> ~ rule (d ++ [b]) -> uncut rule (d ++ [b]).
Proof.
  intros rule d b U N m Hm. rewrite app_length in Hm. cbn in Hm. destruct (Nat.eq_dec m (length d + 1)) as [->|Q].
  - rewrite firstn_all2 by (rewrite app_length; cbn; lia). exact N.
  - rewrite firstn_app. replace (m - length d)%nat with 0%nat by lia. rewrite firstn_O, app_nil_r. apply U. lia.
Qed.

(** Whatever came before, some byte does not end the chunk. *)
Lemma uncut_greedy : forall rule, (forall c, exists b, ~ rule (c ++ [b])) -> forall n, exists d, length d = n /\ uncut rule d.
Proof.
  intros rule G. induction n as [|n (d & Ld & U)]; [exists []; split; [reflexivity|]; intros m Hm; cbn in Hm; lia|].
  destruct (G d) as [b N]. exists (d ++ [b]). split; [rewrite app_length; cbn; lia|now apply uncut_snoc].
Qed.

Lemma uncut_none : forall rule d, uncut rule d -> cuts_of (ends_at (per_chunk rule)) [] d [].
Proof. intros rule d U. constructor. intros n (Hn & R & _). exact (U n Hn R). Qed.
Lemma uncut_none_stream : forall rule d, uncut rule d -> cuts_of (ends_at (per_stream rule)) [] d [].
Proof. intros rule d U. constructor. intros n (Hn & R & _). exact (U n Hn R). Qed.

Lemma firstn_repeat : forall A (x : A) m n, (m <= n)%nat -> firstn m (repeat x n) = repeat x m.
Proof. intros A x. induction m as [|m IH]; intros [|n] H; cbn; try reflexivity; try lia. f_equal. apply IH. lia. Qed.
Lemma skipn_repeat : forall A (x : A) m n, skipn m (repeat x n) = repeat x (n - m).
Proof. intros A x. induction m as [|m IH]; intros [|n]; cbn; try reflexivity. apply IH. Qed.
Lemma repeat_rev : forall A (x : A) n, rev (repeat x n) = repeat x n.
Proof.
  intros A x. induction n as [|n IH]; cbn; [reflexivity|]. rewrite IH. clear IH. induction n as [|n IH]; cbn; [reflexivity|]. now rewrite IH.
Qed.

(** *** Mii: bytes that do not increase *)
Lemma mii_uncut : forall w n, uncut (mii_rule w) (repeat x00 n).
Proof.
  intros w n m Hm (Hw & pre & tail & E & Lt & I). rewrite repeat_length in Hm. rewrite firstn_repeat in E by lia.
  assert (A : forall x, In x tail -> x = x00).
  { intros x Hx. apply (repeat_spec m). rewrite E. apply in_or_app. now right. }
  destruct tail as [|x [|y tail]]; cbn [length] in Lt; try lia.
  specialize (I 0%nat x y eq_refl eq_refl). rewrite (A x), (A y) in I by (cbn; auto). lia.
Qed.

(** *** Ram: one large byte, then small ones *)
Lemma ram_uncut : forall w n, 0 <= w -> uncut (ram_rule w) (firstn n (xff :: repeat x00 n)).
Proof.
  intros w n Hw m Hm (pre & b & E & Lp & A). rewrite firstn_length in Hm. rewrite firstn_firstn in E.
  replace (Nat.min m n) with m in E by lia. destruct m as [|m]; [lia|]. cbn [firstn] in E. rewrite firstn_repeat in E by lia.
  destruct pre as [|p pre]; [cbn in Lp; lia|]. cbn in E. injection E as <- E.
  specialize (A xff (or_introl eq_refl)).
  assert (b = x00) as ->. { apply (repeat_spec m). rewrite E. apply in_or_app. right. now left. }
  vm_compute in A. now apply A.
Qed.

(** *** Gear32: one of three bytes sets the top bit of the fingerprint *)
Lemma power_sum_cons : forall x f b older, exists y, power_sum x f 0 (b :: older) = f b + x * y.
Proof.
  intros x f b older. cbn [power_sum]. change (x ^ Z.of_nat 0) with 1.
  assert (G : forall l a, exists y, power_sum x f (S a) l = x * y).
  { induction l as [|c l IH]; intros a; [exists 0; cbn; lia|]. cbn [power_sum]. destruct (IH (S a)) as [y ->].
    exists (x ^ Z.of_nat a * f c + y). rewrite Nat2Z.inj_succ, Z.pow_succ_r by lia. ring. }
  destruct (G older 0%nat) as [y ->]. exists y. ring.
Qed.

Lemma gear_fingerprint_snoc : forall c, exists y, forall b, gear_fingerprint (c ++ [b]) = (table_at GEAR_32 b + y) mod 2 ^ 32.
Proof.
  intros c. exists (power_sum 2 (table_at GEAR_32) 1 (firstn 31 (rev c))). intros b. unfold gear_fingerprint.
  rewrite rev_app_distr. cbn [rev app]. change (firstn 32 (b :: rev c)) with (b :: firstn 31 (rev c)). cbn [power_sum].
  change (2 ^ Z.of_nat 0) with 1. f_equal. ring.
Qed.

(** Three points that no half circle contains. *)
Lemma half_circle : forall a b c x, 0 <= a < b -> b < c < 2 ^ 32 -> b - a <= 2 ^ 31 -> c - b <= 2 ^ 31 -> 2 ^ 32 - c + a <= 2 ^ 31 ->
  2 ^ 31 <= (a + x) mod 2 ^ 32 \/ 2 ^ 31 <= (b + x) mod 2 ^ 32 \/ 2 ^ 31 <= (c + x) mod 2 ^ 32.
Proof.
  intros a b c x H1 H2 H3 H4 H5. assert (X := Z.mod_pos_bound x (2 ^ 32) ltac:(lia)). set (y := x mod 2 ^ 32) in *.
  assert (R : forall v, 0 <= v < 2 ^ 32 -> (v + x) mod 2 ^ 32 = if v + y <? 2 ^ 32 then v + y else v + y - 2 ^ 32).
  { intros v Hv. rewrite <- Z.add_mod_idemp_r by lia. fold y. destruct (Z.ltb_spec (v + y) (2 ^ 32)).
    - apply Z.mod_small. lia.
    - symmetry. apply Z.mod_unique_pos with (q := 1); lia. }
  rewrite !R by lia. destruct (Z.ltb_spec (a + y) (2 ^ 32)), (Z.ltb_spec (b + y) (2 ^ 32)), (Z.ltb_spec (c + y) (2 ^ 32)); lia.
Qed.

Lemma gear_greedy : forall n, 1 <= n -> forall c, exists b, ~ gear_rule n (c ++ [b]).
Proof.
  intros n Hn c. destruct (gear_fingerprint_snoc c) as [y F].
  assert (P : 2 ^ (32 - n) <= 2 ^ 31).
  { destruct (Z.leb_spec 32 n); [|apply Z.pow_le_mono_r; lia]. destruct (Z.eq_dec n 32) as [->|]; [cbn; lia|]. rewrite Z.pow_neg_r by lia. lia. }
  assert (F0 := F x00). assert (F1 := F x01). assert (F5 := F x05).
  change (table_at GEAR_32 x00) with 0xb088d3a9 in F0. change (table_at GEAR_32 x01) with 0x5652c7f7 in F1. change (table_at GEAR_32 x05) with 0x1dc636dc in F5.
  destruct (half_circle 0x1dc636dc 0x5652c7f7 0xb088d3a9 y) as [H|[H|H]]; try lia.
  - exists x05. unfold gear_rule. rewrite F5. lia.
  - exists x01. unfold gear_rule. rewrite F1. lia.
  - exists x00. unfold gear_rule. rewrite F0. lia.
Qed.

(** *** PigzRsyncable: the lowest bit of the hash is that of the newest byte *)
Lemma xor_sum_even : forall l a, Z.even (xor_sum (S a) l) = true.
Proof.
  induction l as [|b l IH]; intros a; [reflexivity|]. cbn [xor_sum]. specialize (IH (S a)). rewrite <- Z.negb_odd, <- Z.bit0_odd in *.
  rewrite Z.lxor_spec. apply negb_true_iff in IH. rewrite IH. rewrite xorb_false_r, Z.bit0_odd, Z.negb_odd, Z.even_mul, Z.even_pow by lia.
  apply orb_true_r.
Qed.

Lemma pigz_greedy : forall bits, 1 <= bits -> forall c, exists b, ~ pigz_rule bits (c ++ [b]).
Proof.
  intros bits Hb c. exists (if bits =? 1 then x01 else x00). intros R. unfold pigz_rule in R. cbv zeta in R.
  apply (f_equal Z.odd) in R. rewrite <- Z.bit0_odd in R. rewrite Z.mod_pow2_bits_low in R by lia. rewrite Z.lxor_spec in R.
  rewrite app_length, rev_app_distr in R. cbn [length rev app xor_sum] in R. rewrite Z.lxor_spec in R.
  assert (E := xor_sum_even (rev c) 0). rewrite <- Z.negb_odd, <- Z.bit0_odd in E. apply negb_true_iff in E. rewrite E in R.
  rewrite !Z.bit0_odd in R. rewrite Z.odd_mul, Z.odd_pow in R by lia. change (Z.odd 2) with false in R.
  rewrite andb_false_r, xorb_false_l, xorb_false_r, Z.odd_mul in R. change (Z.odd (2 ^ Z.of_nat 0)) with true in R. rewrite andb_true_r in R.
  destruct (Z.eqb_spec bits 1) as [->|Q].
  - discriminate R.
  - assert (E2 : (2 ^ bits - 1) / 2 = 2 ^ (bits - 1) - 1).
    { symmetry. apply Z.div_unique_pos with (r := 1); [lia|]. replace bits with (bits - 1 + 1) at 1 by lia. rewrite Z.pow_add_r by lia. lia. }
    rewrite E2, Z.odd_sub, Z.odd_pow in R by lia. discriminate R.
Qed.

(** *** GzipRsyncable: one of three sums is not a multiple *)
Lemma gzip_greedy : forall w m, (1 <= w)%nat -> 2 <= m -> forall c, exists b, ~ gzip_rule w m (c ++ [b]).
Proof.
  intros w m Hw Hm c.
  assert (exists y, forall b, byte_sum (lastn w (c ++ [b])) = b2z b + y) as [y F].
  { exists (byte_sum (lastn (w - 1) c)). intros b.
    assert (G : forall l r, byte_sum (l ++ r) = byte_sum l + byte_sum r) by (induction l as [|x l IH]; intros r; cbn; [reflexivity|rewrite IH; ring]).
    destruct (Nat.le_gt_cases w (length c)) as [Q|Q].
    - destruct (lastn_snoc_full _ w c b ltac:(lia)) as (o & _ & _ & ->). rewrite G. cbn. ring.
    - rewrite (proj1 (lastn_snoc_short _ w c b Q)), lastn_all, G by lia. cbn. ring. }
  assert (N : (y mod 2 ^ 64) mod m <> 0 \/ ((1 + y) mod 2 ^ 64) mod m <> 0 \/ ((2 + y) mod 2 ^ 64) mod m <> 0).
  { destruct (Z.eq_dec ((y mod 2 ^ 64) mod m) 0) as [E1|]; [|now left]. right.
    destruct (Z.eq_dec (((1 + y) mod 2 ^ 64) mod m) 0) as [E2|]; [|now left]. right. intros E3.
    assert (X := Z.mod_pos_bound y (2 ^ 64) ltac:(lia)).
    rewrite <- Z.add_mod_idemp_r in E2, E3 by lia. set (z := y mod 2 ^ 64) in *. clearbody z.
    apply Z.mod_divide in E1, E2, E3; try lia.
    assert (D1 : (1 + z) mod 2 ^ 64 = 1 + z \/ (1 + z) mod 2 ^ 64 = 0 /\ z = 2 ^ 64 - 1).
    { destruct (Z.eq_dec z (2 ^ 64 - 1)) as [->|]; [right; split; reflexivity|left; apply Z.mod_small; lia]. }
    destruct D1 as [D1|[_ D1]].
    - rewrite D1 in E2. assert (Z.divide m 1) by (replace 1 with (1 + z - z) by ring; now apply Z.divide_sub_r).
      apply Z.divide_1_r_nonneg in H; lia.
    - subst z. change ((2 + (2 ^ 64 - 1)) mod 2 ^ 64) with 1 in E3. apply Z.divide_1_r_nonneg in E3; lia. }
  destruct N as [N|[N|N]]; [exists x00|exists x01|exists x02]; intros R; unfold gzip_rule in R; rewrite F in R; exact (N R).
Qed.

(** *** RollSum: zeros *)
Lemma aged_sum_zeros : forall n a, aged_sum a (repeat x00 n) = 0.
Proof. induction n as [|n IH]; intros a; [reflexivity|]. cbn [repeat aged_sum]. rewrite IH. change (b2z x00) with 0. lia. Qed.
Lemma byte_sum_zeros : forall n, byte_sum (repeat x00 n) = 0.
Proof. induction n as [|n IH]; [reflexivity|]. cbn [repeat byte_sum]. rewrite IH. reflexivity. Qed.
Lemma even_not_8191 : forall w, (31 * w * (w - 1)) mod 8192 <> 8191.
Proof.
  intros w E. apply (f_equal Z.odd) in E. change 8192 with (2 ^ 13) in E. rewrite <- Z.bit0_odd, Z.mod_pow2_bits_low, Z.bit0_odd in E by lia.
  rewrite !Z.odd_mul, Z.odd_sub in E. destruct (Z.odd w); discriminate E.
Qed.
Lemma firstn_zeros : forall m n, exists k, firstn m (repeat x00 n) = repeat x00 k.
Proof.
  intros m n. exists (Nat.min m n). destruct (Nat.le_gt_cases m n) as [H|H].
  - rewrite firstn_repeat by exact H. now rewrite Nat.min_l.
  - rewrite firstn_all2 by (rewrite repeat_length; lia). now rewrite Nat.min_r by lia.
Qed.
Lemma bup_uncut : forall w n, uncut (bup_rule w) (repeat x00 n).
Proof.
  intros w n m Hm R. destruct (firstn_zeros m n) as [k E]. rewrite E in R. unfold bup_rule, bup_s2 in R. rewrite repeat_rev in R.
  destruct (firstn_zeros w k) as [j E2]. rewrite E2, aged_sum_zeros, Z.add_0_r in R. exact (even_not_8191 _ R).
Qed.
Lemma bup_incr_uncut : forall w n, uncut (bup_incr_rule w) (repeat x00 n).
Proof.
  intros w n m Hm R. destruct (firstn_zeros m n) as [k E]. rewrite E in R. unfold bup_incr_rule, bup_incr_s2 in R. rewrite repeat_rev in R.
  destruct (firstn_zeros (low_bit w) k) as [j E2]. rewrite E2, aged_sum_zeros, skipn_repeat, byte_sum_zeros, Z.mul_0_r, Z.add_0_r, Z.sub_0_r in R. exact (even_not_8191 _ R).
Qed.

(** *** BuzHash: two bytes that the hash tells apart in a bit of the mask *)
Definition mask_tells (hv : byte -> Z) (mask : Z) : Prop :=
  exists b1 b2 i, 0 <= i /\ Z.testbit mask i = true /\ Z.testbit (hv b1) i <> Z.testbit (hv b2) i.

Lemma buz_greedy : forall hv k mask, (1 <= k)%nat -> (forall b, 0 <= hv b < 2 ^ 32) -> mask_tells hv mask ->
  forall c, exists b, ~ buz_rule hv k mask (c ++ [b]).
Proof.
  intros hv k mask Hk Hh (b1 & b2 & i & Hi & Mi & D) c.
  assert (exists y, forall b, buz_hash hv k (c ++ [b]) = Z.lxor (hv b) y) as [y F].
  { exists (Z.lxor (cyclic hv 1 (rev c)) (cyclic hv (k mod 8) (skipn (k - 1) (rev c)))). intros b. unfold buz_hash.
    rewrite rev_app_distr. cbn [rev app cyclic]. destruct k as [|k]; [lia|]. cbn [skipn]. rewrite Nat.sub_succ, Nat.sub_0_r.
    assert (R0 : rot32 (Z.of_nat 0) (hv b) = hv b).
    { unfold rot32. change (Z.of_nat 0 mod 32) with 0. change (2 ^ 0) with 1. change (32 - 0) with 32.
      rewrite Z.mul_1_r, Z.mod_small, Z.div_small by apply Hh. lia. }
    rewrite R0. now rewrite Z.lxor_assoc. }
  destruct (Bool.bool_dec (Z.testbit (Z.lxor (hv b1) y) i) true) as [T|T].
  - exists b2. intros R. specialize (R i Hi Mi). rewrite F, Z.lxor_spec in R. rewrite Z.lxor_spec in T.
    destruct (Z.testbit (hv b1) i), (Z.testbit (hv b2) i), (Z.testbit y i); try discriminate; now apply D.
  - exists b1. intros R. specialize (R i Hi Mi). rewrite F in R. exact (T R).
Qed.

(** *** Zpaq without an upper bound: one of six bytes gives a hash with the top bit set *)
Lemma zpaq_greedy : forall f r extra, 1 <= f -> end_bound r = Unbounded -> forall c, exists b, ~ zpaq_rule r (2 ^ (32 - f)) extra (c ++ [b]).
Proof.
  intros f r extra Hf Hr c.
  assert (P : 2 ^ (32 - f) <= 2 ^ 31).
  { destruct (Z.leb_spec 32 f); [|apply Z.pow_le_mono_r; lia]. destruct (Z.eq_dec f 32) as [->|]; [cbn; lia|]. rewrite Z.pow_neg_r by lia. lia. }
  assert (exists b, 2 ^ 31 <= zpaq_hash (c ++ [b])) as [b Hb].
  { unfold zpaq_hash. set (h := zpaq_hash_rev (rev c)). set (q := prediction (rev c)).
    assert (F : forall b, Byte.eqb b q = false -> zpaq_hash_rev (rev (c ++ [b])) = (b2z b * 271828182 + (h + 1) * 271828182) mod 2 ^ 32).
    { intros b Nb. rewrite rev_app_distr. cbn [rev app zpaq_hash_rev]. fold h q. rewrite Nb. f_equal. ring. }
    assert (K : (forall b, In b [x00; x01; x08] -> Byte.eqb b q = false) \/ (forall b, In b [x10; x11; x18] -> Byte.eqb b q = false)).
    { destruct (in_dec Byte.byte_eq_dec q [x00; x01; x08]) as [I|I].
      - right. intros b Hb. apply not_true_is_false. intros E. apply Byte.byte_dec_bl in E. subst b.
        cbn in I, Hb. destruct I as [<-|[<-|[<-|[]]]]; destruct Hb as [X|[X|[X|[]]]]; discriminate X.
      - left. intros b Hb. apply not_true_is_false. intros E. apply Byte.byte_dec_bl in E. subst b. exact (I Hb). }
    destruct K as [K|K].
    - destruct (half_circle 0 271828182 2174625456 ((h + 1) * 271828182)) as [H|[H|H]]; try lia; [exists x00|exists x01|exists x08]; rewrite F by (apply K; cbn; auto); exact H.
    - destruct (half_circle 0 271828182 2174625456 ((h + 1) * 271828182 + 16 * 271828182)) as [H|[H|H]]; try lia; [exists x10|exists x11|exists x18]; rewrite F by (apply K; cbn; auto);
        etransitivity; [exact H| |exact H| |exact H|]; apply Z.eq_le_incl; f_equal; (match goal with |- context [b2z ?b] => let v := eval vm_compute in (b2z b) in change (b2z b) with v end); ring. }
  exists b. intros [[R _]|R].
  - apply (Z.lt_irrefl (2 ^ 31)), Z.le_lt_trans with (1 := Hb), Z.lt_le_trans with (1 := R), P.
  - unfold above_range in R. now rewrite Hr in R.
Qed.

(** *** Zstd: zeros *)
Lemma zstd_uncut : forall bits n, 20 <= bits -> uncut (zstd_rule bits) (repeat x00 n).
Proof.
  intros bits n Hb m Hm [L R]. rewrite repeat_length in Hm. rewrite firstn_length, repeat_length in L. rewrite firstn_repeat in R by lia.
  unfold zstd_hash in R. rewrite repeat_rev, firstn_repeat in R by lia.
  apply (f_equal (fun x => x mod 2 ^ 20)) in R.
  assert (D : forall x, (x mod 2 ^ bits) mod 2 ^ 20 = x mod 2 ^ 20).
  { intros x. symmetry. apply Znumtheory.Zmod_div_mod; try (apply Z.pow_pos_nonneg; lia). exists (2 ^ (bits - 20)). rewrite <- Z.pow_add_r by lia. f_equal. lia. }
  rewrite D in R. assert (E : (2 ^ bits - 1) mod 2 ^ 20 = 2 ^ 20 - 1).
  { symmetry. apply Z.mod_unique_pos with (q := 2 ^ (bits - 20) - 1); [lia|]. replace (2 ^ bits) with (2 ^ 20 * 2 ^ (bits - 20)) by (rewrite <- Z.pow_add_r by lia; f_equal; lia). ring. }
  rewrite E in R. vm_compute in R. discriminate R.
Qed.

(** ** Size limits *)

(** Nothing is undecided beyond [B] bytes: a cut is at most [B] bytes long, and so is the tail. *)
Definition capped (first : first_rel) (B : Z) : Prop := forall h d,
  (forall n, first h d n -> Z.of_nat n <= B) /\ ((forall n, ~ first h d n) -> Z.of_nat (length d) <= B).

Lemma ends_at_capped : forall (r : list byte -> list byte -> Prop) B, 0 <= B -> (forall h c, Z.of_nat (length c) = B -> c <> [] -> r h c) -> 1 <= B -> capped (ends_at r) B.
Proof.
  intros r B HB0 Hr HB h d. split.
  - intros n (Hn & R & M). destruct (Z.leb_spec (Z.of_nat n) B) as [G|G]; [exact G|]. exfalso.
    apply (M (Z.to_nat B) ltac:(lia)), Hr.
    + rewrite firstn_length. lia.
    + intros E. apply (f_equal (@length _)) in E. rewrite firstn_length in E. cbn in E. lia.
  - intros N. destruct (Z.leb_spec (Z.of_nat (length d)) B) as [G|G]; [exact G|]. exfalso.
    assert (A : forall m, (1 <= m <= length d)%nat -> ~ r h (firstn m d)).
    { intros m. induction m as [m IH] using lt_wf_ind. intros Hm R. apply (N m). split; [exact Hm|]. split; [exact R|].
      intros j Hj. apply IH; lia. }
    apply (A (Z.to_nat B) ltac:(lia)), Hr.
    + rewrite firstn_length. lia.
    + intros E. apply (f_equal (@length _)) in E. rewrite firstn_length in E. cbn in E. lia.
Qed.

Lemma fastcdc_capped : forall g min normal max, 0 <= min -> capped (fastcdc_first g min normal max) (Z.max min max).
Proof.
  intros g min normal max Hmin h d. split.
  - intros n (H1 & H2 & _ & M). destruct (Z.leb_spec (Z.of_nat n) (Z.max min max)) as [G|G]; [exact G|]. exfalso.
    apply (M (Z.to_nat (Z.max min max)) ltac:(lia)). left. lia.
  - intros N. destruct (Z.leb_spec (Z.of_nat (length d)) (Z.max min max)) as [G|G]; [exact G|]. exfalso.
    assert (A : forall m, min <= Z.of_nat m <= Z.of_nat (length d) -> ~ fastcdc_stop g min normal max d m).
    { intros m. induction m as [m IH] using lt_wf_ind. intros Hm R. apply (N m). split; [lia|]. split; [lia|]. split; [exact R|].
      intros j Hj. apply IH; lia. }
    apply (A (Z.to_nat (Z.max min max)) ltac:(lia)). left. lia.
Qed.

(** The sizes of all chunks, the undecided tail included. *)
Lemma capped_sizes : forall first B, capped first B -> first_laws first -> forall h d cs, cuts_of first h d cs ->
  Forall (fun n => Z.of_nat n <= B) (sizes (length h) (cs ++ [length h + length d]%nat)).
Proof.
  intros first B C L h d cs H. induction H as [h d N|h d n cs F H IH]; cbn [app sizes].
  - constructor; [|constructor]. replace (length h + length d - length h)%nat with (length d) by lia. now apply (C h d).
  - assert (Q := fl_len _ L _ _ _ F). rewrite app_length, firstn_length, skipn_length in IH.
    replace (length h + Nat.min n (length d))%nat with (length h + n)%nat in IH by lia.
    replace (length h + n + (length d - n))%nat with (length h + length d)%nat in IH by lia.
    constructor; [|exact IH]. replace (length h + n - length h)%nat with n by lia. now apply (C h d).
Qed.
