(** * HashDiff: what changing or swapping bytes does to the hashes the chunkers keep. *)

From Verif Require Import Base Api Tables Spec Lists Contract Words Rot CutFacts Gear Pigz Gzip FastCdc Bup BuzHash.
From Verif Require Import PigzProofs GearProofs GzipProofs FastCdcProofs ZstdProofs ZstdEdge BupAny BuzProofs Sensitive.

(** ** The state at the end of a run *)
Definition last_cut {St} (r : run St) : nat := last (r_cuts r) 0%nat.

Lemma last_cons2 : forall (cs : list nat) a d, last (a :: cs) d = last cs a.
Proof.
  induction cs as [|c cs IH]; intros a d; [reflexivity|]. change (last (a :: c :: cs) d) with (last (c :: cs) d).
  rewrite (IH c d). symmetry. apply IH.
Qed.

Lemma cut_path_last : forall (first : first_rel), first_laws first -> forall h d cs h' t, cut_path first h d cs h' t -> length h' = last cs (length h).
Proof.
  intros first L h d cs h' t P. induction P as [h d|h d n cs h' d' F P IH]; [reflexivity|].
  rewrite last_cons2, IH. f_equal. rewrite app_length, firstn_length. assert (X := fl_len _ L _ _ _ F). lia.
Qed.

Lemma run_state : forall adj C first lim R, first_laws first -> down_closed lim -> push_ok adj (incr_push C) first lim R -> R (incr_new C) [] [] ->
  forall data sched r, lim (length data) -> run_incr adj C data sched = Ok r -> r_base r = length data ->
  forall n, last_cut r = n -> R (r_state r) (firstn n data) (skipn n data).
Proof.
  intros adj C first lim R L D K R0 data sched r Hl E Hb n En. subst n.
  destruct (drive_push_ok adj (incr_push C) first lim R L D K data Hl sched (incr_new C) [] [] 0%nat 0%nat false R0 ltac:(intros m; apply (fl_nil _ L)) eq_refl eq_refl)
    as (r' & h & c & E' & P & X1 & X2 & _ & X4 & _).
  unfold run_incr in E. assert (r' = r) by congruence. subst r'. rewrite Hb, firstn_all in X1.
  assert (Q : last_cut r = length h) by (symmetry; exact (cut_path_last _ L _ _ _ _ _ P)).
  rewrite Q, X1.
  rewrite firstn_app_le, firstn_all, skipn_app_ge, Nat.sub_diag by lia. exact X4.
Qed.

Lemma skipn_change : forall n (p b : list byte) x, (n <= length p)%nat -> skipn n (p ++ x :: b) = skipn n p ++ x :: b.
Proof. intros n p b x H. rewrite skipn_app. replace (n - length p)%nat with 0%nat by lia. reflexivity. Qed.

(** ** Sums modulo a power of two *)
Lemma mod_eq_iff : forall m u v, 0 < m -> u mod m = v mod m <-> (v - u) mod m = 0.
Proof. intros m u v H. apply (diff_mod m u v (v - u) H). ring. Qed.

Lemma byte_diff_0 : forall m x y, 256 <= m -> (b2z y - b2z x) mod m = 0 <-> x = y.
Proof. intros m x y H. split; [apply byte_diff_mod; exact H|intros <-; rewrite Z.sub_diag; apply Z.mod_0_l; lia]. Qed.

(** ** Zstd *)
Lemma zstd_hash_diff : forall a b x y, (length b < 32)%nat -> zstd_hash (a ++ x :: b) = zstd_hash (a ++ y :: b) <-> x = y.
Proof.
  intros a b x y Hb. split; [|now intros <-]. intros E. destruct (zstd_hash_change a b x y Hb) as (u & E1 & E2). rewrite E1, E2 in E.
  apply (proj1 (diff_mod (2 ^ 64) u _ _ ltac:(lia) eq_refl)) in E.
  apply odd_unit in E; [|lia|apply prime_pow_odd; lia]. apply (byte_diff_mod (2 ^ 64)); [lia|exact E].
Qed.

(** ** GzipRsyncable *)
Lemma gzip_sum_diff : forall w a b x y, (length b < w)%nat -> gzip_sum w (a ++ x :: b) = gzip_sum w (a ++ y :: b) <-> x = y.
Proof.
  intros w a b x y Hb. unfold gzip_sum. rewrite (gzip_change w a b x y Hb), (diff_mod (2 ^ 64) _ _ _ ltac:(lia) eq_refl). apply byte_diff_0. lia.
Qed.

(** ** PigzRsyncable *)
Lemma pigz_hash_diff : forall bits a b x y, 0 <= bits ->
  (pigz_hash bits (a ++ x :: b) = pigz_hash bits (a ++ y :: b) <-> (Z.lxor (b2z x) (b2z y) * 2 ^ Z.of_nat (length b)) mod 2 ^ bits = 0).
Proof.
  intros bits a b x y Hb. set (k := Z.of_nat (length b)) in *.
  assert (E : forall z, pigz_hash bits (a ++ z :: b) =
    Z.lxor ((b2z z * 2 ^ k) mod 2 ^ bits) (Z.lxor ((2 ^ bits - 1) / 2 * 2 ^ Z.of_nat (length (a ++ x :: b))) (Z.lxor (xor_sum 0 (rev b)) (xor_sum (S (length b)) (rev a))) mod 2 ^ bits)).
  { intros z. unfold pigz_hash. replace (length (a ++ z :: b)) with (length (a ++ x :: b)) by (rewrite !app_length; reflexivity).
    rewrite rev_mid, xor_sum_app. cbn [xor_sum]. rewrite rev_length. cbn [Nat.add]. fold k.
    rewrite <- lxor_mod by lia. set (h := (2 ^ bits - 1) / 2 * _). set (u := xor_sum 0 (rev b)). set (v := xor_sum (S (length b)) (rev a)). set (p := b2z z * 2 ^ k).
    replace (Z.lxor p (Z.lxor h (Z.lxor u v))) with (Z.lxor h (Z.lxor u (Z.lxor p v))); [reflexivity|].
    apply Z.bits_inj'. intros i _. rewrite !Z.lxor_spec. destruct (Z.testbit p i), (Z.testbit h i), (Z.testbit u i), (Z.testbit v i); reflexivity. }
  rewrite (E x), (E y). clear E. set (R := Z.lxor (_ * _) _ mod 2 ^ bits).
  assert (F : Z.lxor (b2z x) (b2z y) * 2 ^ k = Z.lxor (b2z x * 2 ^ k) (b2z y * 2 ^ k)).
  { rewrite <- !Z.shiftl_mul_pow2 by (unfold k; lia). apply Z.shiftl_lxor. }
  rewrite F, lxor_mod by lia. set (X := (b2z x * 2 ^ k) mod 2 ^ bits). set (Y := (b2z y * 2 ^ k) mod 2 ^ bits).
  rewrite Z.lxor_eq_0_iff. split; [|now intros <-]. intros H. apply (f_equal (fun v => Z.lxor v R)) in H.
  rewrite !Z.lxor_assoc, !Z.lxor_nilpotent, !Z.lxor_0_r in H. exact H.
Qed.

(** ** Gear fingerprints *)
Lemma gear_diff : forall a b x y, (length b < 32)%nat ->
  gear_fingerprint (a ++ x :: b) = gear_fingerprint (a ++ y :: b) <-> (2 ^ Z.of_nat (length b) * (table_at GEAR_32 y - table_at GEAR_32 x)) mod 2 ^ 32 = 0.
Proof.
  intros a b x y Hb. unfold gear_fingerprint. apply diff_mod; [lia|].
  rewrite !rev_mid, !firstn_mid by (rewrite rev_length; exact Hb). rewrite !power_sum_app. cbn [power_sum]. rewrite rev_length. cbn [Nat.add]. ring.
Qed.

Lemma fc_diff : forall p a b x y, fc_min_size p <= Z.of_nat (length a) ->
  fc_hash p (a ++ x :: b) = fc_hash p (a ++ y :: b) <-> (2 ^ Z.of_nat (length b) * (table_at (fc_gear p) y - table_at (fc_gear p) x)) mod 2 ^ 64 = 0.
Proof.
  intros p a b x y H. unfold fc_hash. apply diff_mod; [lia|].
  rewrite !skipn_change, !rev_mid, !power_sum_app by lia. cbn [power_sum]. rewrite rev_length. cbn [Nat.add]. ring.
Qed.

(** Bytes below the minimum size are not looked at. *)
Lemma fc_skipped : forall p a b x y, Z.of_nat (length a) < fc_min_size p -> fc_hash p (a ++ x :: b) = fc_hash p (a ++ y :: b).
Proof.
  intros p a b x y H. unfold fc_hash. rewrite !skipn_app. replace (Z.to_nat (fc_min_size p) - length a)%nat with (S (Z.to_nat (fc_min_size p) - S (length a))) by lia. reflexivity.
Qed.

(** ** Tables whose entries stay distinct when cut to their [e] low bits *)
Definition distinct_low (t : list Z) (e : Z) : Prop := forall x y, (table_at t y - table_at t x) mod 2 ^ e = 0 -> x = y.

Definition nodupb (l : list Z) : bool := (fix go l := match l with [] => true | x :: l => andb (negb (existsb (Z.eqb x) l)) (go l) end) l.
Lemma nodupb_spec : forall l, nodupb l = true -> NoDup l.
Proof.
  induction l as [|x l IH]; intros H; [constructor|]. change (andb (negb (existsb (Z.eqb x) l)) (nodupb l) = true) in H. apply andb_true_iff in H. destruct H as [H1 H2].
  constructor; [|exact (IH H2)]. intros I. apply negb_true_iff in H1. assert (X : existsb (Z.eqb x) l = true) by (apply existsb_exists; exists x; split; [exact I|apply Z.eqb_refl]). congruence.
Qed.

Lemma b2z_inj : forall x y, b2z x = b2z y -> x = y.
Proof. intros x y H. apply (byte_diff_mod 256); [lia|]. rewrite H, Z.sub_diag. reflexivity. Qed.

Lemma distinct_low_check : forall t e, 0 <= e -> length t = 256%nat -> nodupb (map (fun v => v mod 2 ^ e) t) = true -> distinct_low t e.
Proof.
  intros t e He Lt H x y E. apply nodupb_spec in H. apply mod_eq_iff in E; [|apply Z.pow_pos_nonneg; lia].
  apply b2z_inj, Z2Nat.inj; try apply b2z_range.
  apply (proj1 (NoDup_nth _ 0) H); [rewrite map_length, Lt; apply b2n_lt|rewrite map_length, Lt; apply b2n_lt|].
  unfold table_at in E. assert (M : forall i, (i < 256)%nat -> nth i (map (fun v => v mod 2 ^ e) t) 0 = nth i t 0 mod 2 ^ e).
  { intros i Hi. rewrite (nth_indep _ 0 (0 mod 2 ^ e)) by (rewrite map_length; lia). exact (map_nth (fun v => v mod 2 ^ e) t 0 i). }
  rewrite !M by apply b2n_lt. exact E.
Qed.

Lemma distinct_low_shift : forall t e w k x y, 0 <= k -> 0 <= e -> k + e <= w -> distinct_low t e -> (2 ^ k * (table_at t y - table_at t x)) mod 2 ^ w = 0 -> x = y.
Proof.
  intros t e w k x y Hk He Hw D H. apply D. apply Z.mod_divide in H; [|apply Z.pow_nonzero; lia]. apply Z.mod_divide; [apply Z.pow_nonzero; lia|].
  destruct H as [q Hq]. exists (q * 2 ^ (w - k - e)). apply (Z.mul_reg_l _ _ (2 ^ k)); [apply Z.pow_nonzero; lia|]. rewrite Hq.
  replace w with (k + e + (w - k - e)) at 1 by ring. rewrite !Z.pow_add_r by lia. ring.
Qed.

(** ** RollSum *)
Lemma bup_incr_s1_change : forall w a b x y, (length b < low_bit w)%nat -> bup_incr_s1 w (a ++ y :: b) = bup_incr_s1 w (a ++ x :: b) + (b2z y - b2z x).
Proof.
  intros w a b x y Hb. unfold bup_incr_s1. rewrite !rev_mid, !firstn_mid by (rewrite rev_length; exact Hb). rewrite !byte_sum_app. cbn [byte_sum]. ring.
Qed.

Lemma pair_eq : forall m u1 v1 u2 v2, 0 < m -> (u1 mod m) * m + v1 mod m = (u2 mod m) * m + v2 mod m <-> u1 mod m = u2 mod m /\ v1 mod m = v2 mod m.
Proof.
  intros m u1 v1 u2 v2 Hm. assert (A := Z.mod_pos_bound v1 m Hm). assert (B := Z.mod_pos_bound v2 m Hm). split; [|intros [-> ->]; reflexivity]. intros H.
  assert (K : forall u v, 0 <= v < m -> (u * m + v) / m = u /\ (u * m + v) mod m = v).
  { intros u v Hv. rewrite Z.div_add_l, Z.div_small, Z.add_0_r by lia. split; [reflexivity|]. rewrite Z.add_comm, Z_mod_plus_full. apply Z.mod_small. exact Hv. }
  destruct (K (u1 mod m) _ A) as [P1 P2]. destruct (K (u2 mod m) _ B) as [Q1 Q2]. rewrite H in P1, P2. split; congruence.
Qed.

Lemma bup_digest_diff : forall w a b x y, (length b < low_bit w)%nat -> bup_incr_digest w (a ++ x :: b) = bup_incr_digest w (a ++ y :: b) <-> x = y.
Proof.
  intros w a b x y Hb. split; [|now intros <-]. unfold bup_incr_digest. rewrite pair_eq by lia. intros [E _].
  rewrite (bup_incr_s1_change w a b x y Hb), (diff_mod (2 ^ 16) _ _ _ ltac:(lia) eq_refl) in E. revert E. apply byte_diff_mod. lia.
Qed.

Lemma bup_digest_swap : forall w a m b x y, (S (length m + length b) < low_bit w)%nat ->
  bup_incr_digest w (a ++ x :: m ++ y :: b) = bup_incr_digest w (a ++ y :: m ++ x :: b) <-> ((Z.of_nat (length m) + 1) * (b2z y - b2z x)) mod 2 ^ 16 = 0.
Proof.
  intros w a m b x y H.
  assert (A1 := bup_incr_s1_change w a (m ++ y :: b) x y ltac:(rewrite app_length; cbn [length]; lia)).
  assert (A2 := bup_incr_change w a (m ++ y :: b) x y ltac:(rewrite app_length; cbn [length]; lia)).
  assert (B1 := bup_incr_s1_change w (a ++ y :: m) b y x ltac:(lia)). assert (B2 := bup_incr_change w (a ++ y :: m) b y x ltac:(lia)).
  rewrite <- !app_assoc in B1, B2. cbn [app] in B1, B2. rewrite A1 in B1. rewrite A2 in B2. clear A1 A2. rewrite app_length in B2. cbn [length] in B2.
  unfold bup_incr_digest. rewrite pair_eq by lia.
  replace (bup_incr_s1 w (a ++ y :: m ++ x :: b)) with (bup_incr_s1 w (a ++ x :: m ++ y :: b)) by (rewrite B1; ring).
  rewrite (diff_mod (2 ^ 16) (bup_incr_s2 w (a ++ x :: m ++ y :: b)) _ ((Z.of_nat (length m) + 1) * (b2z y - b2z x)) ltac:(lia)); [tauto|].
  rewrite B2. rewrite Nat2Z.inj_add, Nat2Z.inj_succ. ring.
Qed.

(** A distance below 258 is too short for that. *)
Lemma swap_short : forall k x y, 1 <= k <= 257 -> (k * (b2z y - b2z x)) mod 2 ^ 16 = 0 -> x = y.
Proof.
  intros k x y Hk H. apply Z.mod_divide in H; [|lia]. destruct H as [q Hq]. assert (X := b2z_range x). assert (Y := b2z_range y).
  assert (Q : q = 0) by (change (2 ^ 16) with 65536 in Hq; nia). subst q. apply b2z_inj. nia.
Qed.

(** ** BuzHash *)
Lemma rot32_inj : forall n u v, word32 u -> word32 v -> rot32 n u = rot32 n v -> u = v.
Proof.
  intros n u v Hu Hv E. apply (f_equal (rot32 (- n))) in E. rewrite !rot32_rot32 in E by assumption.
  replace (- n + n) with 0 in E by ring. now rewrite !rot32_0 in E.
Qed.

Lemma buz_diff : forall hv k a b x y, (forall v, word32 (hv v)) -> (length b < k)%nat -> buz_hash hv k (a ++ x :: b) = buz_hash hv k (a ++ y :: b) <-> hv x = hv y.
Proof.
  intros hv k a b x y Hh Hb. rewrite (buz_change hv k a b x y Hb). set (h := buz_hash hv k (a ++ x :: b)). split.
  - intros E. apply (f_equal (Z.lxor h)) in E. rewrite Z.lxor_nilpotent, <- Z.lxor_assoc, Z.lxor_nilpotent, Z.lxor_0_l in E.
    symmetry in E. apply Z.lxor_eq in E. exact (rot32_inj _ _ _ (Hh x) (Hh y) E).
  - intros ->. now rewrite Z.lxor_nilpotent, Z.lxor_0_r.
Qed.
