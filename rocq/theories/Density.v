(** * Density: how often the rules of RollSum and PigzRsyncable are true. *)

From Coq Require Import Permutation.
From Verif Require Import Base Api Spec Lists Contract CutFacts Tables Count Words BupAny PigzProofs.

(** A Boolean test that decides a proposition. *)
Definition decides (P : list byte -> bool) (Q : list byte -> Prop) : Prop := forall l, P l = true <-> Q l.

Lemma decides_if : forall P Q R l, decides P Q -> (Q l <-> R = true) -> (if P l then 1 else 0) = (if R then 1 else 0).
Proof. intros P Q R l D H. specialize (D l). destruct (P l), R; try reflexivity; exfalso; [assert (X : false = true) by tauto|assert (X : false = true) by tauto]; discriminate X. Qed.

(** ** RollSum *)
Lemma aged_sum_app : forall u v a, aged_sum a (u ++ v) = aged_sum a u + aged_sum (a + length u) v.
Proof.
  induction u as [|b u IH]; intros v a; cbn [app aged_sum length]; [rewrite Nat.add_0_r; ring|].
  rewrite IH. replace (S a + length u)%nat with (a + S (length u))%nat by lia. ring.
Qed.
Lemma byte_sum_app' : forall u v, byte_sum (u ++ v) = byte_sum u + byte_sum v.
Proof. induction u as [|b u IH]; intros v; cbn [app byte_sum]; [reflexivity|]. rewrite IH. ring. Qed.

(** The newest byte has weight 1, the 32nd newest weight 32. *)
Lemma bup_weights : forall w u x mid y, (32 <= low_bit w)%nat -> length mid = 30%nat ->
  bup_incr_s2 w (u ++ x :: mid ++ [y]) = bup_incr_s2 w (u ++ x00 :: mid ++ [x00]) + b2z y + 32 * b2z x.
Proof.
  intros w u x mid y Hw Lm. unfold bup_incr_s2.
  assert (E : forall x y, rev (u ++ x :: mid ++ [y]) = (y :: rev mid ++ [x]) ++ rev u).
  { intros a b. rewrite rev_app_distr. f_equal. cbn [rev]. rewrite rev_app_distr. cbn [rev app]. reflexivity. }
  assert (Ll : forall x y, length (y :: rev mid ++ [x] : list byte) = 32%nat) by (intros a b; cbn [length]; rewrite app_length, rev_length, Lm; reflexivity).
  rewrite !E, !firstn_app, !skipn_app, !Ll.
  rewrite !(firstn_all2 (n := low_bit w)) by (rewrite Ll; lia). rewrite !(skipn_all2 (n := low_bit w)) by (rewrite Ll; lia).
  rewrite !aged_sum_app, !Ll. cbn [aged_sum app]. rewrite !aged_sum_app. cbn [aged_sum]. rewrite rev_length, Lm.
  change (b2z x00) with 0. change (Z.of_nat (1 + 30)) with 31. change (Z.of_nat 0) with 0. ring.
Qed.

Lemma two_bytes : forall K, bsum (fun x => bsum (fun y => if (K + b2z y + 32 * b2z x) mod 8192 =? 8191 then 1 else 0)) = 8.
Proof.
  intros K.
  assert (S : bsum (fun x => bsum (fun y => if (K + b2z y + 32 * b2z x) mod 8192 =? 8191 then 1 else 0)) =
              bsum (fun y => bsum (fun x => if (K + b2z y + 32 * b2z x) mod 8192 =? 8191 then 1 else 0))).
  { assert (X := bsum_total 1 (fun x l => match l with [y] => if (K + b2z y + 32 * b2z x) mod 8192 =? 8191 then 1 else 0 | _ => 0 end)).
    rewrite total_S in X. rewrite (bsum_ext _ (fun b => bsum (fun y => if (K + b2z y + 32 * b2z b) mod 8192 =? 8191 then 1 else 0))) in X.
    - rewrite X. apply bsum_ext. intros b. apply total_0.
    - intros b. rewrite total_S. apply bsum_ext. intros y. apply total_0. }
  rewrite S. clear S.
  rewrite (bsum_ext _ (fun y => if b2z y mod 32 =? (8191 - K) mod 32 then 1 else 0)).
  - apply bsum_mod; [reflexivity|lia|]. apply Z.mod_pos_bound. lia.
  - intros y. destruct (Z.eqb_spec (b2z y mod 32) ((8191 - K) mod 32)) as [G|G].
    + set (v := ((8191 - K - b2z y) / 32) mod 256).
      assert (D : 8191 - K - b2z y = 32 * ((8191 - K - b2z y) / 32)).
      { assert (X : (8191 - K - b2z y) mod 32 = 0) by (rewrite Zminus_mod, G, Z.sub_diag; reflexivity).
        assert (Y := Z.div_mod (8191 - K - b2z y) 32 ltac:(lia)). lia. }
      etransitivity; [|apply (bsum_one v); apply Z.mod_pos_bound; lia]. apply bsum_ext. intros x. assert (Bx := b2z_range x).
      set (q := (8191 - K - b2z y) / 32) in *.
      assert (EQ : K + b2z y + 32 * b2z x = 8191 + 32 * (b2z x - q)) by lia. rewrite EQ.
      assert (Hv : 0 <= v < 256) by (apply Z.mod_pos_bound; lia).
      assert (Eq2 : q = 256 * (q / 256) + v) by (unfold v; apply Z.div_mod; lia).
      destruct (Z.eqb_spec (b2z x) v) as [G2|G2].
      * replace (8191 + 32 * (b2z x - q)) with (8191 + (- (q / 256)) * 8192) by lia. rewrite Z.mod_add by lia. reflexivity.
      * destruct (Z.eqb_spec ((8191 + 32 * (b2z x - q)) mod 8192) 8191) as [G3|G3]; [exfalso|reflexivity].
        assert (Y := Z.div_mod (8191 + 32 * (b2z x - q)) 8192 ltac:(lia)). rewrite G3 in Y. lia.
    + rewrite (bsum_ext _ (fun _ => 0)); [rewrite bsum_const; reflexivity|]. intros x.
      destruct (Z.eqb_spec ((K + b2z y + 32 * b2z x) mod 8192) 8191) as [G3|G3]; [exfalso|reflexivity]. apply G.
      assert (Y := Z.div_mod (K + b2z y + 32 * b2z x) 8192 ltac:(lia)). rewrite G3 in Y.
      replace (8191 - K) with (b2z y + (b2z x - 256 * ((K + b2z y + 32 * b2z x) / 8192)) * 32) by lia. now rewrite Z.mod_add by lia.
Qed.

Lemma bup_weights_full : forall w u x mid y, (32 <= w)%nat -> length mid = 30%nat ->
  bup_s2 w (u ++ x :: mid ++ [y]) = bup_s2 w (u ++ x00 :: mid ++ [x00]) + b2z y + 32 * b2z x.
Proof.
  intros w u x mid y Hw Lm. unfold bup_s2.
  assert (E : forall x y, rev (u ++ x :: mid ++ [y]) = (y :: rev mid ++ [x]) ++ rev u).
  { intros a b. rewrite rev_app_distr. f_equal. cbn [rev]. rewrite rev_app_distr. cbn [rev app]. reflexivity. }
  assert (Ll : forall x y, length (y :: rev mid ++ [x] : list byte) = 32%nat) by (intros a b; cbn [length]; rewrite app_length, rev_length, Lm; reflexivity).
  rewrite !E, !firstn_app, !Ll. rewrite !(firstn_all2 (n := w)) by (rewrite Ll; lia).
  rewrite !aged_sum_app, !Ll. cbn [aged_sum app]. rewrite !aged_sum_app. cbn [aged_sum]. rewrite rev_length, Lm.
  change (b2z x00) with 0. change (Z.of_nat (1 + 30)) with 31. change (Z.of_nat 0) with 0. ring.
Qed.

Lemma two_weights : forall s2 n P, (forall u x mid y, length mid = 30%nat -> s2 (u ++ x :: mid ++ [y]) = s2 (u ++ x00 :: mid ++ [x00]) + b2z y + 32 * b2z x) ->
  (32 <= n)%nat -> decides P (fun c => s2 c mod 8192 = 8191) -> 8192 * count n P = 256 ^ Z.of_nat n.
Proof.
  intros s2 n P Hs Hn D. rewrite count_total. set (a := (n - 32)%nat). replace n with (a + S (30 + 1))%nat by lia. rewrite total_app.
  rewrite (total_ext a _ (fun _ => 256 ^ 30 * 8)).
  - rewrite total_const. replace (Z.of_nat (a + S (30 + 1))) with (Z.of_nat a + 32) by lia. rewrite Z.pow_add_r by lia. change (256 ^ 32) with (256 ^ 30 * 8 * 8192). ring.
  - intros u _. rewrite total_S.
    rewrite (bsum_ext _ (fun x => total 30 (fun mid => bsum (fun y => if P (u ++ x :: mid ++ [y]) then 1 else 0)))).
    + rewrite bsum_total. rewrite (total_ext 30 _ (fun _ => 8)); [rewrite total_const; reflexivity|]. intros mid Lm.
      etransitivity; [|apply (two_bytes (s2 (u ++ x00 :: mid ++ [x00])))]. apply bsum_ext. intros x. apply bsum_ext. intros y.
      apply (decides_if P _ _ _ D). rewrite (Hs u x mid y Lm). symmetry. apply Z.eqb_eq.
    + intros x. rewrite total_app. apply total_ext. intros mid _. rewrite total_S. apply bsum_ext. intros y. rewrite total_0. reflexivity.
Qed.

Theorem bup_density : forall w n P, (32 <= low_bit w)%nat -> (32 <= n)%nat -> decides P (bup_incr_rule w) -> 8192 * count n P = 256 ^ Z.of_nat n.
Proof. intros w n P Hw Hn D. apply (two_weights (bup_incr_s2 w)); [intros; apply bup_weights; assumption|exact Hn|exact D]. Qed.

Theorem bup_density_full : forall w n P, (32 <= w)%nat -> (32 <= n)%nat -> decides P (bup_rule w) -> 8192 * count n P = 256 ^ Z.of_nat n.
Proof. intros w n P Hw Hn D. apply (two_weights (bup_s2 w)); [intros; apply bup_weights_full; assumption|exact Hn|exact D]. Qed.

(** ** PigzRsyncable *)
Lemma swap_sums : forall n (F : byte -> list byte -> Z), total n (fun l => bsum (fun b => F b l)) = bsum (fun b => total n (F b)).
Proof. intros n F. symmetry. apply bsum_total. Qed.

Lemma parity_bytes : forall t, bsum (fun v => if b2z v mod 2 =? t mod 2 then 1 else 0) = 128.
Proof. intros t. apply bsum_mod; [reflexivity|lia|]. apply Z.mod_pos_bound. lia. Qed.

Lemma lxor_low_bit : forall v X, Z.lxor v (2 * X) = 2 * Z.lxor (v / 2) X + v mod 2.
Proof.
  intros v X. assert (R := Z.mod_pos_bound v 2 ltac:(lia)).
  assert (E : v = 2 * (v / 2) + v mod 2) by (apply Z.div_mod; lia).
  apply Z.bits_inj'. intros i Hi. rewrite Z.lxor_spec. destruct (Z.eq_dec i 0) as [->|G].
  - rewrite Z.testbit_even_0. rewrite xorb_false_r. rewrite !Z.bit0_odd. rewrite Z.odd_add, Z.odd_mul. cbn [Z.odd andb xorb].
    rewrite E at 1. rewrite Z.odd_add, Z.odd_mul. reflexivity.
  - replace i with (Z.succ (i - 1)) by lia. rewrite Z.testbit_even_succ by lia.
    assert (T : forall q b, 0 <= b <= 1 -> Z.testbit (2 * q + b) (Z.succ (i - 1)) = Z.testbit q (i - 1)).
    { intros q b Hb. assert (b = 0 \/ b = 1) as [-> | ->] by lia; [rewrite Z.add_0_r; apply Z.testbit_even_succ; lia|apply Z.testbit_odd_succ; lia]. }
    rewrite T by lia. rewrite E at 1. rewrite T by lia. now rewrite Z.lxor_spec.
Qed.

Lemma pigz_count_step : forall k v X t, 0 <= t < 2 ^ (k + 1) -> 0 <= k ->
  (Z.lxor v (2 * X) mod 2 ^ (k + 1) =? t) = andb (v mod 2 =? t mod 2) (X mod 2 ^ k =? Z.lxor (v / 2) (t / 2) mod 2 ^ k).
Proof.
  intros k v X t Ht Hk. rewrite lxor_low_bit. set (Y := Z.lxor (v / 2) X).
  assert (P : 0 < 2 ^ k) by (apply Z.pow_pos_nonneg; lia). assert (E2 : 2 ^ (k + 1) = 2 * 2 ^ k) by (rewrite Z.pow_add_r by lia; change (2 ^ 1) with 2; ring).
  assert (R := Z.mod_pos_bound v 2 ltac:(lia)).
  assert (M : (2 * Y + v mod 2) mod 2 ^ (k + 1) = 2 * (Y mod 2 ^ k) + v mod 2).
  { rewrite E2. symmetry. assert (D := Z.div_mod Y (2 ^ k) ltac:(lia)). assert (B := Z.mod_pos_bound Y (2 ^ k) P).
    apply Z.mod_unique with (Y / 2 ^ k); [left; lia|]. rewrite D at 1. ring. }
  rewrite M. clear M.
  assert (Et := Z.div_mod t 2 ltac:(lia)). assert (Rt := Z.mod_pos_bound t 2 ltac:(lia)).
  assert (Bt : 0 <= t / 2 < 2 ^ k) by (split; [apply Z.div_pos; lia|apply Z.div_lt_upper_bound; lia]).
  assert (C : Y mod 2 ^ k = t / 2 <-> X mod 2 ^ k = Z.lxor (v / 2) (t / 2) mod 2 ^ k).
  { unfold Y. rewrite !lxor_mod by lia. rewrite (Z.mod_small (t / 2)) by assumption. set (p := (v / 2) mod 2 ^ k). split; intros H.
    - rewrite <- H, <- Z.lxor_assoc, Z.lxor_nilpotent, Z.lxor_0_l. reflexivity.
    - rewrite H, <- Z.lxor_assoc, Z.lxor_nilpotent, Z.lxor_0_l. reflexivity. }
  destruct (Z.eqb_spec (2 * (Y mod 2 ^ k) + v mod 2) t) as [G|G], (Z.eqb_spec (v mod 2) (t mod 2)) as [G1|G1],
    (Z.eqb_spec (X mod 2 ^ k) (Z.lxor (v / 2) (t / 2) mod 2 ^ k)) as [G2|G2]; try reflexivity; exfalso.
  - apply G2, C. lia.
  - lia.
  - lia.
  - apply G. apply C in G2. lia.
Qed.

Lemma pigz_count : forall k t, 0 <= t < 2 ^ Z.of_nat k ->
  total k (fun l => if xor_sum 0 (rev l) mod 2 ^ Z.of_nat k =? t then 1 else 0) = 128 ^ Z.of_nat k.
Proof.
  induction k as [|k IH]; intros t Ht.
  - rewrite total_0. cbn [rev xor_sum]. change (2 ^ Z.of_nat 0) with 1 in *. replace t with 0 by lia. reflexivity.
  - rewrite total_snoc, swap_sums. replace (Z.of_nat (S k)) with (Z.of_nat k + 1) in * by lia.
    rewrite (bsum_ext _ (fun v => 128 ^ Z.of_nat k * (if b2z v mod 2 =? t mod 2 then 1 else 0))).
    + rewrite bsum_mul, parity_bytes, Z.pow_add_r by lia. reflexivity.
    + intros v. assert (Bv := b2z_range v).
      assert (E : forall l, xor_sum 0 (rev (l ++ [v])) = Z.lxor (b2z v) (2 * xor_sum 0 (rev l))).
      { intros l. rewrite rev_app_distr. cbn [rev app]. apply xor_sum_cons. }
      destruct (b2z v mod 2 =? t mod 2) eqn:G.
      * rewrite Z.mul_1_r. rewrite <- (IH (Z.lxor (b2z v / 2) (t / 2) mod 2 ^ Z.of_nat k)) by (apply Z.mod_pos_bound; lia).
        apply total_ext. intros l _. rewrite E, pigz_count_step by lia. rewrite G. reflexivity.
      * rewrite Z.mul_0_r. rewrite (total_ext k _ (fun _ => 0)); [rewrite total_const; ring|]. intros l _.
        rewrite E, pigz_count_step by lia. rewrite G. reflexivity.
Qed.

Theorem pigz_density : forall b n P, 0 <= b <= Z.of_nat n -> decides P (pigz_rule b) -> 2 ^ b * count n P = 256 ^ Z.of_nat n.
Proof.
  intros b n P Hb D. rewrite count_total. set (k := Z.to_nat b). assert (Ek : b = Z.of_nat k) by lia.
  replace n with ((n - k) + k)%nat by lia. rewrite total_app. rewrite (total_ext _ _ (fun _ => 128 ^ b)).
  - rewrite total_const, Nat2Z.inj_add, <- Ek, Z.pow_add_r by lia. change 256 with (2 * 128) at 3. rewrite Z.pow_mul_l. ring.
  - intros u Lu. assert (Hh : 0 <= (2 ^ b - 1) / 2 < 2 ^ Z.of_nat k).
    { rewrite <- Ek. assert (0 < 2 ^ b) by (apply Z.pow_pos_nonneg; lia). split; [apply Z.div_pos; lia|apply Z.div_lt_upper_bound; lia]. }
    transitivity (128 ^ Z.of_nat k); [|now rewrite <- Ek]. etransitivity; [|exact (pigz_count k _ Hh)]. apply total_ext. intros l Ll.
    apply (decides_if P (pigz_rule b)); [exact D|]. change (pigz_rule b (u ++ l)) with (pigz_hash b (u ++ l) = (2 ^ b - 1) / 2).
    rewrite pigz_hash_window by (rewrite app_length; lia). fold k. rewrite rev_app_distr, firstn_app_le by (rewrite rev_length; lia). rewrite firstn_all2 by (rewrite rev_length; lia).
    rewrite <- Ek. symmetry. apply Z.eqb_eq.
Qed.

(** The hash just after a cut is the hash a chunk starts with, so the chunker does not notice its own cuts. *)
Lemma pigz_hash_app : forall b h c, 0 <= b -> pigz_hash b h = (2 ^ b - 1) / 2 -> pigz_hash b (h ++ c) = pigz_hash b c.
Proof.
  intros b h c Hb H. induction c as [|v c IH] using rev_ind.
  - rewrite app_nil_r, pigz_hash_nil by lia. exact H.
  - rewrite app_assoc, !pigz_hash_snoc, IH by lia. reflexivity.
Qed.

Lemma pigz_cut : forall b d cs, 0 <= b -> cuts_of (ends_at (per_chunk (pigz_rule b))) [] d cs -> forall q, (1 <= q <= length d)%nat ->
  (In q cs <-> pigz_rule b (firstn q d)).
Proof.
  intros b d cs Hb H q. induction q as [q IH] using lt_wf_ind. intros Hq.
  destruct (last_cut cs q ltac:(lia)) as (p & Hp & Hpq & HB).
  rewrite (cuts_of_at _ _ _ _ H p q Hp ltac:(cbn [length]; lia) HB). unfold per_chunk.
  assert (E : firstn q d = firstn p d ++ firstn (q - p) (skipn p d)) by (apply skipn_firstn_split; lia).
  assert (R : pigz_hash b (firstn p d) = (2 ^ b - 1) / 2).
  { destruct (Nat.eq_dec p 0) as [->|G]; [cbn [firstn]; apply pigz_hash_nil; lia|].
    apply (IH p); [lia|lia|]. destruct Hp as [Hp|Hp]; [lia|exact Hp]. }
  rewrite E. change (pigz_rule b) with (fun c => pigz_hash b c = (2 ^ b - 1) / 2). cbv beta. rewrite (pigz_hash_app b _ _ Hb R). reflexivity.
Qed.

(** ** Gear32 *)
Lemma fold_le : forall A (f g : A -> Z) l, (forall x, In x l -> f x <= g x) -> fold_right Z.add 0 (map f l) <= fold_right Z.add 0 (map g l).
Proof.
  intros A f g l H. induction l as [|x l IH]; cbn [map fold_right]; [lia|].
  assert (X := H x (or_introl eq_refl)). assert (Y := IH (fun y Hy => H y (or_intror Hy))). lia.
Qed.
Lemma bsum_le : forall f g, (forall b, f b <= g b) -> bsum f <= bsum g.
Proof. intros f g H. apply fold_le. intros b _. apply H. Qed.
Lemma total_le : forall n f g, (forall l, length l = n -> f l <= g l) -> total n f <= total n g.
Proof. intros n f g H. apply fold_le. intros l Hl. apply H, strings_complete, Hl. Qed.
Lemma total_swap : forall n m F, total n (fun u => total m (F u)) = total m (fun v => total n (fun u => F u v)).
Proof.
  induction n as [|n IH]; intros m F.
  - rewrite total_0. apply total_ext. intros v _. now rewrite total_0.
  - rewrite total_S, (bsum_ext _ (fun b => total m (fun v => total n (fun u => F (b :: u) v)))) by (intros b; apply IH).
    rewrite bsum_total. apply total_ext. intros v _. now rewrite total_S.
Qed.

Lemma sum_count_step : forall k a X t, 0 <= t < 2 ^ (k + 1) -> 0 <= k ->
  ((a + 2 * X) mod 2 ^ (k + 1) =? t) = andb (a mod 2 =? t mod 2) (X mod 2 ^ k =? ((t - a) / 2) mod 2 ^ k).
Proof.
  intros k a X t Ht Hk. assert (P : 0 < 2 ^ k) by (apply Z.pow_pos_nonneg; lia).
  assert (E2 : 2 ^ (k + 1) = 2 * 2 ^ k) by (rewrite Z.pow_add_r by lia; change (2 ^ 1) with 2; ring). rewrite E2 in *.
  assert (D1 := Z.div_mod (a + 2 * X) (2 * 2 ^ k) ltac:(lia)). assert (Da := Z.div_mod a 2 ltac:(lia)). assert (Dt := Z.div_mod t 2 ltac:(lia)).
  assert (Ra := Z.mod_pos_bound a 2 ltac:(lia)). assert (Rt := Z.mod_pos_bound t 2 ltac:(lia)).
  assert (DX := Z.div_mod X (2 ^ k) ltac:(lia)). assert (RX := Z.mod_pos_bound X (2 ^ k) ltac:(lia)).
  set (q := (a + 2 * X) / (2 * 2 ^ k)) in *.
  destruct (Z.eqb_spec ((a + 2 * X) mod (2 * 2 ^ k)) t) as [G|G], (Z.eqb_spec (a mod 2) (t mod 2)) as [G1|G1],
    (Z.eqb_spec (X mod 2 ^ k) (((t - a) / 2) mod 2 ^ k)) as [G2|G2]; try reflexivity; exfalso.
  - apply G2. rewrite G in D1. replace (t - a) with ((X - 2 ^ k * q) * 2) by lia. rewrite Z.div_mul by lia.
    replace (X - 2 ^ k * q) with (X + (- q) * 2 ^ k) by ring. symmetry. apply Z.mod_add. lia.
  - rewrite G in D1. lia.
  - rewrite G in D1. lia.
  - apply G. replace (t - a) with ((t / 2 - a / 2) * 2) in G2 by lia. rewrite Z.div_mul in G2 by lia.
    assert (Dd := Z.div_mod (t / 2 - a / 2) (2 ^ k) ltac:(lia)). rewrite <- G2 in Dd.
    set (q2 := (t / 2 - a / 2) / 2 ^ k) in *. set (x := X / 2 ^ k) in *. symmetry. apply Z.mod_unique with (x - q2); [left; lia|].
    rewrite Z.mul_sub_distr_l. lia.
Qed.

Lemma sum_count : forall f lo hi, 0 <= lo ->
  (forall r, 0 <= r < 2 -> lo <= bsum (fun v => if f v mod 2 =? r then 1 else 0) <= hi) -> forall k t, 0 <= t < 2 ^ Z.of_nat k ->
  lo ^ Z.of_nat k <= total k (fun l => if power_sum 2 f 0 (rev l) mod 2 ^ Z.of_nat k =? t then 1 else 0) <= hi ^ Z.of_nat k.
Proof.
  intros f lo hi Hlo H. assert (Hhi : 0 <= hi) by (specialize (H 0 ltac:(lia)); lia). induction k as [|k IH]; intros t Ht.
  - rewrite total_0. cbn [rev power_sum]. change (2 ^ Z.of_nat 0) with 1 in *. replace t with 0 by lia. cbn. lia.
  - rewrite total_snoc, swap_sums. replace (Z.of_nat (S k)) with (Z.of_nat k + 1) in * by lia.
    rewrite (bsum_ext _ (fun v => if f v mod 2 =? t mod 2
      then total k (fun l => if power_sum 2 f 0 (rev l) mod 2 ^ Z.of_nat k =? ((t - f v) / 2) mod 2 ^ Z.of_nat k then 1 else 0) else 0)).
    + assert (B := H (t mod 2) ltac:(apply Z.mod_pos_bound; lia)). rewrite !Z.pow_add_r, !Z.pow_1_r by lia.
      assert (P1 : 0 <= lo ^ Z.of_nat k) by (apply Z.pow_nonneg; lia). assert (P2 : 0 <= hi ^ Z.of_nat k) by (apply Z.pow_nonneg; lia).
      assert (I := fun v => IH (((t - f v) / 2) mod 2 ^ Z.of_nat k) ltac:(apply Z.mod_pos_bound; lia)). split.
      * transitivity (lo ^ Z.of_nat k * bsum (fun v => if f v mod 2 =? t mod 2 then 1 else 0)); [nia|]. rewrite <- bsum_mul.
        apply bsum_le. intros v. specialize (I v). destruct (f v mod 2 =? t mod 2); lia.
      * transitivity (hi ^ Z.of_nat k * bsum (fun v => if f v mod 2 =? t mod 2 then 1 else 0)); [|nia]. rewrite <- bsum_mul.
        apply bsum_le. intros v. specialize (I v). destruct (f v mod 2 =? t mod 2); lia.
    + intros v. destruct (f v mod 2 =? t mod 2) eqn:G.
      * apply total_ext. intros l _. rewrite rev_app_distr. cbn [rev app]. rewrite power_sum_cons, sum_count_step by lia. rewrite G. reflexivity.
      * rewrite (total_ext k _ (fun _ => 0)); [rewrite total_const; ring|]. intros l _.
        rewrite rev_app_distr. cbn [rev app]. rewrite power_sum_cons, sum_count_step by lia. rewrite G. reflexivity.
Qed.

Lemma gear_parity : forall r, 0 <= r < 2 -> 126 <= bsum (fun v => if table_at GEAR_32 v mod 2 =? r then 1 else 0) <= 130.
Proof. intros r Hr. assert (r = 0 \/ r = 1) as [-> | ->] by lia; vm_compute; split; discriminate. Qed.

Theorem gear_density : forall k n P, 0 <= k <= 32 -> (32 <= n)%nat -> decides P (gear_rule k) ->
  126 ^ k * 256 ^ (Z.of_nat n - k) <= count n P <= 130 ^ k * 256 ^ (Z.of_nat n - k).
Proof.
  intros k n P Hk Hn D. rewrite count_total. set (m := Z.to_nat k). assert (Em : k = Z.of_nat m) by lia.
  replace n with ((n - 32) + (m + (32 - m)))%nat by lia. rewrite total_app. set (a := (n - 32)%nat).
  replace (256 ^ (Z.of_nat (a + (m + (32 - m))) - k)) with (256 ^ Z.of_nat a * 256 ^ Z.of_nat (32 - m)) by (rewrite <- Z.pow_add_r by lia; f_equal; lia).
  assert (In1 : forall u rest, length rest = (32 - m)%nat ->
    126 ^ k <= total m (fun old => if P (u ++ old ++ rest) then 1 else 0) <= 130 ^ k).
  { intros u rest Lr. set (R := power_sum 2 (table_at GEAR_32) 0 (rev rest)). set (q := R / 2 ^ (32 - k)).
    rewrite (total_ext m _ (fun old => if power_sum 2 (table_at GEAR_32) 0 (rev old) mod 2 ^ Z.of_nat m =? (- q) mod 2 ^ Z.of_nat m then 1 else 0)).
    - replace (126 ^ k) with (126 ^ Z.of_nat m) by now rewrite Em. replace (130 ^ k) with (130 ^ Z.of_nat m) by now rewrite Em. apply sum_count; [lia|exact gear_parity|]. apply Z.mod_pos_bound. lia.
    - intros old Lo. apply (decides_if P (gear_rule k)); [exact D|]. unfold gear_rule, gear_fingerprint.
      rewrite !rev_app_distr. rewrite firstn_app_le by (rewrite app_length, !rev_length; lia). rewrite firstn_all2 by (rewrite app_length, !rev_length; lia).
      rewrite power_sum_app, rev_length, Lr, (power_sum_age _ _ (rev old)). fold R. set (G := power_sum 2 _ 0 (rev old)).
      replace (Z.of_nat (0 + (32 - m))) with (32 - k) by lia. rewrite Z.eqb_eq, <- Em.
      assert (P1 : 0 < 2 ^ k) by (apply Z.pow_pos_nonneg; lia). assert (P2 : 0 < 2 ^ (32 - k)) by (apply Z.pow_pos_nonneg; lia).
      assert (E32 : 2 ^ 32 = 2 ^ (32 - k) * 2 ^ k) by (rewrite <- Z.pow_add_r by lia; f_equal; lia). rewrite E32.
      assert (DR := Z.div_mod R (2 ^ (32 - k)) ltac:(lia)). fold q in DR. assert (RR := Z.mod_pos_bound R (2 ^ (32 - k)) P2).
      set (A := 2 ^ (32 - k)) in *. set (B := 2 ^ k) in *.
      assert (DG := Z.div_mod (q + G) B ltac:(lia)). assert (RG := Z.mod_pos_bound (q + G) B P1).
      assert (E : (R + A * G) mod (A * B) = A * ((q + G) mod B) + R mod A).
      { symmetry. apply Z.mod_unique with ((q + G) / B); [left; nia|]. transitivity (A * (q + G) + R mod A); [lia|]. rewrite DG at 1. ring. }
      rewrite E. transitivity ((q + G) mod B = 0); [split; intros X; nia|].
      split; intros X.
      + replace G with ((- q) + (q + G)) by ring. rewrite DG, X, Z.add_0_r, (Z.mul_comm B). apply Z.mod_add. lia.
      + rewrite Zplus_mod, X, <- Zplus_mod, Z.add_opp_diag_r. apply Z.mod_0_l. lia. }
  assert (In2 : forall u, 126 ^ k * 256 ^ Z.of_nat (32 - m) <= total (m + (32 - m)) (fun v => if P (u ++ v) then 1 else 0) <= 130 ^ k * 256 ^ Z.of_nat (32 - m)).
  { intros u. rewrite total_app, total_swap. rewrite (Z.mul_comm (126 ^ k)), (Z.mul_comm (130 ^ k)), <- !total_const. 
    split; apply total_le; intros rest Lr; apply (In1 u rest Lr). }
  replace (126 ^ k * (256 ^ Z.of_nat a * 256 ^ Z.of_nat (32 - m))) with (256 ^ Z.of_nat a * (126 ^ k * 256 ^ Z.of_nat (32 - m))) by ring.
  replace (130 ^ k * (256 ^ Z.of_nat a * 256 ^ Z.of_nat (32 - m))) with (256 ^ Z.of_nat a * (130 ^ k * 256 ^ Z.of_nat (32 - m))) by ring.
  rewrite <- !total_const. split; apply total_le; intros u _; apply In2.
Qed.

(** ** From rules to cuts *)
Lemma count_prefix : forall L n P Q, (n <= L)%nat -> (forall d, length d = L -> P d = Q (firstn n d)) -> count L P = 256 ^ (Z.of_nat L - Z.of_nat n) * count n Q.
Proof.
  intros L n P Q Hn H. rewrite !count_total. replace L with (n + (L - n))%nat at 1 by lia. rewrite total_app, <- total_mul. apply total_ext.
  intros u Lu. rewrite (total_ext _ _ (fun _ => if Q u then 1 else 0)).
  - rewrite total_const. f_equal. f_equal. lia.
  - intros v Lv. rewrite H by (rewrite app_length; lia). rewrite firstn_app_le, firstn_all2 by lia. reflexivity.
Qed.

Lemma count_le : forall n P Q, (forall d, length d = n -> P d = true -> Q d = true) -> count n P <= count n Q.
Proof.
  intros n P Q H. rewrite !count_total. apply total_le. intros d Ld. specialize (H d Ld). destruct (P d), (Q d); lia.
Qed.

Lemma strictly_above_nodup : forall cs lo, strictly_above lo cs -> NoDup cs.
Proof.
  induction cs as [|p cs IH]; intros lo H; [constructor|]. cbn [strictly_above] in H. destruct H as [_ H]. constructor; [|exact (IH _ H)].
  intros I. assert (X := strictly_above_lt _ _ _ H I). lia.
Qed.

Lemma sum_indicator : forall (f : nat -> bool) l, fold_right Z.add 0 (map (fun n => if f n then 1 else 0) l) = Z.of_nat (length (filter f l)).
Proof. intros f l. induction l as [|n l IH]; [reflexivity|]. cbn [map fold_right filter]. rewrite IH. destruct (f n); cbn [length]; lia. Qed.

Lemma cuts_by_position : forall a L cs, NoDup cs -> (forall x, In x cs -> (x <= L)%nat) ->
  Z.of_nat (length (filter (Nat.leb a) cs)) = fold_right Z.add 0 (map (fun n => if existsb (Nat.eqb n) cs then 1 else 0) (seq a (S L - a))).
Proof.
  intros a L cs N B. rewrite sum_indicator. f_equal. apply Permutation_length. apply NoDup_Permutation.
  - now apply NoDup_filter.
  - apply NoDup_filter, seq_NoDup.
  - intros x. rewrite !filter_In, in_seq, existsb_exists, Nat.leb_le. split.
    + intros [I H]. specialize (B x I). split; [lia|]. exists x. split; [exact I|apply Nat.eqb_refl].
    + intros [H (y & I & E)]. apply Nat.eqb_eq in E. subst y. split; [exact I|lia].
Qed.

Lemma total_sum : forall n A (F : list byte -> A -> Z) l, total n (fun d => fold_right Z.add 0 (map (F d) l)) = fold_right Z.add 0 (map (fun x => total n (fun d => F d x)) l).
Proof.
  intros n A F l. induction l as [|x l IH]; cbn [map fold_right].
  - rewrite total_const. ring.
  - rewrite total_add, IH. reflexivity.
Qed.

Lemma average_cuts : forall D L a (cuts : list byte -> list nat), (a <= L)%nat ->
  (forall d, length d = L -> NoDup (cuts d) /\ forall x, In x (cuts d) -> (x <= L)%nat) ->
  (forall n, (a <= n <= L)%nat -> D * count L (fun d => existsb (Nat.eqb n) (cuts d)) = 256 ^ Z.of_nat L) ->
  D * total L (fun d => Z.of_nat (length (filter (Nat.leb a) (cuts d)))) = 256 ^ Z.of_nat L * (Z.of_nat L - Z.of_nat a + 1).
Proof.
  intros D L a cuts Ha H C.
  rewrite (total_ext L _ (fun d => fold_right Z.add 0 (map (fun n => if existsb (Nat.eqb n) (cuts d) then 1 else 0) (seq a (S L - a))))).
  - rewrite (total_sum L nat (fun d n => if existsb (Nat.eqb n) (cuts d) then 1 else 0)).
    assert (X : forall m b, (a <= b)%nat -> (b + m <= S L)%nat -> D * fold_right Z.add 0 (map (fun n => total L (fun d => if existsb (Nat.eqb n) (cuts d) then 1 else 0)) (seq b m)) = 256 ^ Z.of_nat L * Z.of_nat m).
    { induction m as [|m IH]; intros b Hb Hm; [cbn [seq map fold_right]; ring|]. cbn [seq map fold_right].
      rewrite Z.mul_add_distr_l, (IH (S b)) by lia. rewrite <- (count_total L (fun d => existsb (Nat.eqb b) (cuts d))), C by lia. lia. }
    rewrite X by lia. f_equal. lia.
  - intros d Ld. destruct (H d Ld) as [N B]. now apply cuts_by_position.
Qed.
