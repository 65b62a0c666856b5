(** * PropsBuzSeed: C81. *)

From Verif Require Import Base Api Tables Spec Lists Contract Rot CutFacts BuzHash BuzProofs BuzWindow BuzSeed.
From Verif Require Import Builtin BuiltinProofs Agree CutProps Cases Count Density Density2 PropsDensity PropsBuz PropsHash.

(** ** What the seed of [borg_buzhash_table] does *)

(** The table of a seed: every entry of [h] xor the seed. *)
Definition seeded (h : byte -> Z) (seed : Z) : byte -> Z := fun b => Z.lxor (h b) seed.
Definition words (h : byte -> Z) : Prop := forall b, 0 <= h b < 2 ^ 32.

Lemma buz_seeded : forall h s k c, words h -> word32 s -> buz_hash (seeded h s) k c = Z.lxor (rots (map snd (terms k c)) s) (buz_hash h k c).
Proof. intros h s k c Hh Hs. rewrite !buz_hash_terms. now apply hash_seed. Qed.

Lemma lxor_cancel : forall a b x, Z.lxor a x = Z.lxor b x -> a = b.
Proof. intros a b x E. rewrite <- (Z.lxor_0_r a), <- (Z.lxor_0_r b), <- (Z.lxor_nilpotent x), <- !Z.lxor_assoc. now rewrite E. Qed.

(** The hash of a chunk of [n] bytes has [n + (n - k)] terms.  If their number is odd, every hash is that of exactly one seed. *)
Theorem C81_seed_permutes : forall h k c, words h -> Nat.odd (length c + (length c - k)) = true ->
  forall y, 0 <= y < 2 ^ 32 -> exists! s, 0 <= s < 2 ^ 32 /\ buz_hash (seeded h s) k c = y.
Proof.
  intros h k c Hh O y Hy. rewrite <- terms_length, <- (map_length snd) in O.
  assert (W : word32 (buz_hash h k c)) by (rewrite buz_hash_terms; now apply hash_of_word).
  destruct (rots_onto _ (Z.lxor y (buz_hash h k c)) O (word32_lxor _ _ Hy W)) as (s & Hs & E). exists s. split.
  - split; [exact Hs|]. rewrite buz_seeded, E by assumption. now rewrite Z.lxor_assoc, Z.lxor_nilpotent, Z.lxor_0_r.
  - intros s' [Hs' E']. rewrite buz_seeded in E' by assumption. apply (rots_inj _ _ _ O Hs Hs'). rewrite E, <- E'.
    now rewrite Z.lxor_assoc, Z.lxor_nilpotent, Z.lxor_0_r.
Qed.
Print Assumptions C81_seed_permutes.

(** Once the window is full this is so exactly for the odd capacities: for an even one, no seed and the seed of ones give the same hash. *)
Theorem C81_seed_odd : forall h k c, words h -> (k <= length c)%nat ->
  ((forall s t, 0 <= s < 2 ^ 32 -> 0 <= t < 2 ^ 32 -> buz_hash (seeded h s) k c = buz_hash (seeded h t) k c -> s = t) <-> Nat.odd k = true).
Proof.
  intros h k c Hh Hk. assert (P : Nat.odd (length c + (length c - k)) = Nat.odd k).
  { replace (length c + (length c - k))%nat with (k + 2 * (length c - k))%nat by lia. now rewrite Nat.odd_add_mul_2. }
  split.
  - intros H. destruct (Nat.odd k) eqn:O; [reflexivity|]. exfalso. assert (W : word32 (2 ^ 32 - 1)) by (split; [discriminate|reflexivity]).
    assert (X : 2 ^ 32 - 1 = 0); [|discriminate X]. apply H; [exact W|exact word32_0|]. rewrite !buz_seeded by (auto using word32_0).
    rewrite rots_ones, map_length, terms_length, P. now rewrite rots_zero.
  - intros O s t Hs Ht E. rewrite <- P in O. rewrite <- terms_length, <- (map_length snd) in O. apply (rots_inj _ _ _ O Hs Ht).
    rewrite !buz_seeded in E by assumption. exact (lxor_cancel _ _ _ E).
Qed.
Print Assumptions C81_seed_odd.

(** [k] rotations in a row. *)
Lemma row_period : forall n a w, word32 w -> rots (seq a (64 + n)) w = rots (seq a n) w.
Proof.
  intros n a w H. rewrite Nat.add_comm, seq_app, rots_app.
  assert (Z0 : forall b, rots (seq b 64) w = 0); [|now rewrite Z0, Z.lxor_0_r].
  intros b. change 64%nat with (32 + 32)%nat. rewrite seq_app, rots_app.
  assert (S : forall m x y, (x mod 32 = y mod 32)%nat -> rots (seq x m) w = rots (seq y m) w).
  { induction m as [|m IH]; intros x y E; [reflexivity|]. cbn [seq rots]. rewrite (IH (S x) (S y)).
    - f_equal. apply rot32_mod. change 32 with (Z.of_nat 32). rewrite <- !Nat2Z.inj_mod. now rewrite E.
    - rewrite <- (Nat.add_1_r x), <- (Nat.add_1_r y). rewrite <- (Nat.add_mod_idemp_l x), <- (Nat.add_mod_idemp_l y) by lia. now rewrite E. }
  rewrite (S 32%nat (b + 32)%nat b); [apply Z.lxor_nilpotent|]. rewrite <- (Nat.mul_1_l 32) at 1. apply Nat.mod_add. lia.
Qed.

Lemma row_mod : forall k a w, word32 w -> rots (seq a k) w = rots (seq a (k mod 64)) w.
Proof.
  intros k a w H. rewrite (Nat.div_mod k 64) at 1 by lia. induction (k / 64)%nat as [|q IH]; [reflexivity|].
  replace (64 * S q + k mod 64)%nat with (64 + (64 * q + k mod 64))%nat by lia. now rewrite row_period.
Qed.

Lemma window_row : forall k c s, (k mod 32 < 8)%nat -> (k <= length c)%nat -> word32 s -> rots (map snd (terms k c)) s = rots (seq 0 (k mod 64)) s.
Proof.
  intros k c s Hk Hc Hs. rewrite <- row_mod by exact Hs. assert (E := hash_seed (fun _ => 0) s (terms k c) (fun _ => word32_0) Hs).
  rewrite <- !buz_hash_terms in E. cbv beta in E. rewrite Z.lxor_0_l in E. rewrite !buz_hash_window in E by (auto; intros _; exact word32_0).
  rewrite <- !hash_aged in E. assert (X := hash_seed (fun _ => 0) s (aged 0 (firstn k (rev c))) (fun _ => word32_0) Hs). cbv beta in X. rewrite Z.lxor_0_l in X.
  rewrite X in E. rewrite (aged_snd (firstn k (rev c))) in E. rewrite firstn_length, rev_length, Nat.min_l in E by exact Hc. symmetry. exact (lxor_cancel _ _ _ E).
Qed.

(** Where the hash is that of a window ([C35]), the seed makes no difference at all exactly if the capacity is a multiple of 64. *)
Theorem C81_seed_idle : forall h k c, words h -> (k mod 32 < 8)%nat -> (k <= length c)%nat ->
  ((forall s, 0 <= s < 2 ^ 32 -> buz_hash (seeded h s) k c = buz_hash h k c) <-> (k mod 64 = 0)%nat).
Proof.
  intros h k c Hh Hk Hc. split.
  - intros H. assert (W : word32 1) by (split; [lia|reflexivity]). assert (E := H 1 W). rewrite buz_seeded, window_row in E by assumption.
    rewrite <- (Z.lxor_0_l (buz_hash h k c)) in E at 2. apply lxor_cancel in E.
    assert (T : forallb (fun n => negb (rots (seq 0 n) 1 =? 0)) (seq 1 63) = true) by (vm_compute; reflexivity).
    assert (B := Nat.mod_upper_bound k 64 ltac:(lia)). destruct (Nat.eq_dec (k mod 64) 0) as [G|G]; [exact G|]. exfalso.
    rewrite forallb_forall in T. specialize (T (k mod 64)%nat). rewrite in_seq in T. specialize (T ltac:(lia)). rewrite E in T. discriminate T.
  - intros E s Hs. rewrite buz_seeded, window_row, E by assumption. cbn [seq rots]. apply Z.lxor_0_l.
Qed.
Print Assumptions C81_seed_idle.

(** ** Counting seeds *)

(** Exactly [n] words of 32 bits satisfy [P]. *)
Definition holds_for (P : Z -> Prop) (n : Z) : Prop :=
  exists l, NoDup l /\ (forall s, In s l <-> 0 <= s < 2 ^ 32 /\ P s) /\ Z.of_nat (length l) = n.

Fixpoint with_bits (n : nat) (m : Z) : list Z :=
  match n with
  | O => [0]
  | S n' => let l := with_bits n' (m / 2) in
            map (fun y => 2 * y + 1) l ++ (if Z.odd m then [] else map (fun y => 2 * y) l)
  end.

Lemma bits_set_step : forall x m, bits_set x m <-> (Z.odd m = true -> Z.odd x = true) /\ bits_set (x / 2) (m / 2).
Proof.
  intros x m. unfold bits_set. split.
  - intros H. split.
    + intros O. rewrite <- Z.bit0_odd. apply H; [lia|]. now rewrite Z.bit0_odd.
    + intros i Hi T. rewrite Z.div2_bits in T |- * by exact Hi. apply H; [lia|exact T].
  - intros [H1 H2] i Hi T. destruct (Z.eq_dec i 0) as [ -> |N]; [rewrite Z.bit0_odd in *; auto|].
    assert (X := H2 (i - 1) ltac:(lia)). rewrite !Z.div2_bits in X by lia. replace (Z.succ (i - 1)) with i in X by lia. auto.
Qed.

Lemma half_odd : forall y, (2 * y + 1) / 2 = y /\ Z.odd (2 * y + 1) = true.
Proof. intros y. split; [|now rewrite Z.add_comm, Z.odd_add_mul_2]. rewrite Z.add_comm, Z.mul_comm, Z.div_add by lia. reflexivity. Qed.
Lemma half_even : forall y, (2 * y) / 2 = y /\ Z.odd (2 * y) = false.
Proof. intros y. split; [rewrite Z.mul_comm, Z.div_mul by lia; reflexivity|]. rewrite <- (Z.add_0_l (2 * y)). now rewrite Z.odd_add_mul_2. Qed.

Lemma with_bits_in : forall n m x, 0 <= m < 2 ^ Z.of_nat n -> (In x (with_bits n m) <-> 0 <= x < 2 ^ Z.of_nat n /\ bits_set x m).
Proof.
  induction n as [|n IH]; intros m x Hm.
  - cbn in Hm |- *. split.
    + intros [<-|[]]. split; [lia|]. intros i _ T. replace m with 0 in T by lia. now rewrite Z.bits_0 in T.
    + intros [Hx _]. left. lia.
  - rewrite Nat2Z.inj_succ, Z.pow_succ_r in Hm |- * by lia. cbn [with_bits]. cbv zeta.
    assert (Hm2 : 0 <= m / 2 < 2 ^ Z.of_nat n) by (split; [apply Z.div_pos; lia|apply Z.div_lt_upper_bound; lia]).
    rewrite in_app_iff, in_map_iff. rewrite bits_set_step. split.
    + intros [(y & <- & Hy)|Hx].
      * apply IH in Hy; [|exact Hm2]. destruct (half_odd y) as [-> ->]. split; [lia|]. split; [reflexivity|apply Hy].
      * destruct (Z.odd m) eqn:O; [destruct Hx|]. apply in_map_iff in Hx. destruct Hx as (y & <- & Hy). apply IH in Hy; [|exact Hm2].
        destruct (half_even y) as [-> ->]. split; [lia|]. split; [discriminate|apply Hy].
    + intros [Hx [Ho Hb]]. assert (Hx2 : 0 <= x / 2 < 2 ^ Z.of_nat n) by (split; [apply Z.div_pos; lia|apply Z.div_lt_upper_bound; lia]).
      assert (I2 : In (x / 2) (with_bits n (m / 2))) by (apply IH; auto). assert (D := Z.div_mod x 2 ltac:(lia)). rewrite Zmod_odd in D.
      destruct (Z.odd x) eqn:Ox.
      * left. exists (x / 2). split; [lia|exact I2].
      * right. destruct (Z.odd m); [discriminate (Ho eq_refl)|]. apply in_map_iff. exists (x / 2). split; [lia|exact I2].
Qed.

Lemma with_bits_nodup : forall n m, NoDup (with_bits n m).
Proof.
  induction n as [|n IH]; intros m; cbn [with_bits]; [constructor; [easy|constructor]|]. cbv zeta.
  assert (A : NoDup (map (fun y => 2 * y + 1) (with_bits n (m / 2)))) by (apply FinFun.Injective_map_NoDup; [intros a b; lia|apply IH]).
  destruct (Z.odd m); [now rewrite app_nil_r|].
  assert (B : NoDup (map (fun y => 2 * y) (with_bits n (m / 2)))) by (apply FinFun.Injective_map_NoDup; [intros a b; lia|apply IH]).
  set (l := with_bits n (m / 2)) in *. clearbody l. clear IH.
  assert (D : forall x, In x (map (fun y => 2 * y + 1) l) -> ~ In x (map (fun y => 2 * y) l)).
  { intros x H1 H2. apply in_map_iff in H1, H2. destruct H1 as (a & <- & _), H2 as (b & E & _). lia. }
  induction (map (fun y => 2 * y + 1) l) as [|x xs IH]; [exact B|]. inversion A; subst. cbn [app]. constructor.
  - rewrite in_app_iff. intros [H|H]; [contradiction|]. exact (D x (or_introl eq_refl) H).
  - apply IH; [assumption|]. intros y Hy. apply D. now right.
Qed.

Lemma with_bits_length : forall n m, Z.of_nat (length (with_bits n m)) = 2 ^ (Z.of_nat n - Z.of_nat (ones n m)).
Proof.
  induction n as [|n IH]; intros m; [reflexivity|]. cbn [with_bits ones]. cbv zeta. rewrite app_length, map_length.
  assert (L := ones_le n (m / 2)). specialize (IH (m / 2)). destruct (Z.odd m).
  - cbn [length]. rewrite Nat.add_0_r, IH. f_equal. lia.
  - rewrite map_length, Nat2Z.inj_add, IH. replace (Z.of_nat (S n) - Z.of_nat (0 + ones n (m / 2))) with (Z.succ (Z.of_nat n - Z.of_nat (ones n (m / 2)))) by lia.
    rewrite Z.pow_succ_r by lia. lia.
Qed.

Lemma preimages : forall (f : Z -> Z) l, (forall y, In y l -> exists s, word32 s /\ f s = y) -> exists l', map f l' = l /\ (forall s, In s l' -> word32 s).
Proof.
  intros f. induction l as [|y l IH]; intros H; [exists []; split; [reflexivity|easy]|].
  destruct IH as (l' & E & K); [intros z Hz; apply H; now right|]. destruct (H y (or_introl eq_refl)) as (s & Hs & Es).
  exists (s :: l'). split; [cbn; congruence|]. intros t [<-|Ht]; auto.
Qed.

Lemma holds_for_bits : forall (f : Z -> Z) mask, 0 <= mask < 2 ^ 32 -> (forall s, word32 s -> word32 (f s)) ->
  (forall y, word32 y -> exists s, word32 s /\ f s = y) -> (forall s t, word32 s -> word32 t -> f s = f t -> s = t) ->
  holds_for (fun s => bits_set (f s) mask) (2 ^ (32 - Z.of_nat (ones 32 mask))).
Proof.
  intros f mask Hm Hw Hon Hin.
  assert (IN : forall x, In x (with_bits 32 mask) <-> 0 <= x < 2 ^ 32 /\ bits_set x mask) by (intros x; exact (with_bits_in 32 mask x Hm)).
  assert (ND := with_bits_nodup 32 mask). assert (LE : Z.of_nat (length (with_bits 32 mask)) = 2 ^ (32 - Z.of_nat (ones 32 mask))) by exact (with_bits_length 32 mask).
  revert IN ND LE. generalize (2 ^ (32 - Z.of_nat (ones 32 mask))). generalize (with_bits 32 mask). intros L N IN ND LE.
  destruct (preimages f L) as (l & E & K).
  { intros y Hy. apply Hon. apply IN in Hy. exact (proj1 Hy). }
  exists l. split; [apply (NoDup_map_inv f); now rewrite E|]. split; [|rewrite <- LE, <- E; now rewrite map_length].
  intros s. split.
  - intros Hs. split; [exact (K s Hs)|]. apply (IN (f s)). rewrite <- E. now apply in_map.
  - intros [Hs B]. assert (X : In (f s) L) by (apply IN; split; [exact (Hw s Hs)|exact B]). rewrite <- E in X. apply in_map_iff in X.
    destruct X as (t & Et & Ht). rewrite <- (Hin t s (K t Ht) Hs Et). exact Ht.
Qed.

(** The seeds for which a given chunk ends by the mask: exactly one in [2 ^ b], [b] the number of ones of the mask, whatever the bytes and the table. *)
Theorem C81_seed_count : forall h k mask c, words h -> 0 <= mask < 2 ^ 32 -> Nat.odd (length c + (length c - k)) = true ->
  holds_for (fun s => buz_rule (seeded h s) k mask c) (2 ^ (32 - Z.of_nat (ones 32 mask))).
Proof.
  intros h k mask c Hh Hm O. apply (holds_for_bits (fun s => buz_hash (seeded h s) k c) mask Hm).
  - intros s Hs. rewrite buz_hash_terms. apply hash_of_word. intros b. apply word32_lxor; [apply Hh|exact Hs].
  - intros y Hy. destruct (C81_seed_permutes h k c Hh O y Hy) as (s & X & _). exists s. exact X.
  - intros s t Hs Ht E. assert (W : word32 (buz_hash (seeded h t) k c)).
    { rewrite buz_hash_terms. apply hash_of_word. intros b. apply word32_lxor; [apply Hh|exact Ht]. }
    destruct (C81_seed_permutes h k c Hh O _ W) as (u & _ & U). transitivity u; [symmetry|]; apply U; auto.
Qed.
Print Assumptions C81_seed_count.

(** The same for the runs: for an odd capacity at most one in [2 ^ b] seeds makes the first chunk of a given stream end at a given place past the window. *)
Definition borg (k : nat) (mask max seed : Z) : config := CfgBuzHash k mask (table_hash (borg_buzhash_table seed)) max.

Lemma borg_typed : forall k mask max seed, is_u32 mask -> is_u64 max -> 0 <= seed < 2 ^ 32 -> typed (borg k mask max seed) /\
  forall b, value_of (table_hash (borg_buzhash_table seed)) b = seeded (table_at BORG_BUZHASH_BASE) seed b.
Proof.
  intros k mask max seed Hm Hx Hs. destruct (C38_byte_hashes x00 seed Hs) as (_ & _ & B). split.
  - split; [exact Hm|]. split; [exact Hx|]. intros b. exists (Z.lxor (table_at BORG_BUZHASH_BASE b) seed). exact (B b).
  - intros b. unfold value_of. now rewrite (proj1 (B b)).
Qed.

Lemma base_words : words (table_at BORG_BUZHASH_BASE).
Proof.
  intros b. destruct (C38_byte_hashes x00 0 ltac:(lia)) as (_ & _ & B). destruct (B b) as [_ X]. now rewrite Z.lxor_0_r in X.
Qed.

Lemma few_seeds : forall P n L, holds_for P n -> NoDup L -> (forall s, In s L -> 0 <= s < 2 ^ 32 /\ P s) -> Z.of_nat (length L) <= n.
Proof.
  intros P n L (l & N & I1 & E) NL H. rewrite <- E. apply Nat2Z.inj_le. apply NoDup_incl_length; [exact NL|]. intros s Hs. apply I1. now apply H.
Qed.

Lemma rule_ext : forall h g k mask c, (forall b, h b = g b) -> buz_rule h k mask c -> buz_rule g k mask c.
Proof.
  intros h g k mask c E. unfold buz_rule. replace (buz_hash g k c) with (buz_hash h k c); [auto|]. rewrite !buz_hash_terms.
  induction (terms k c) as [|[b a] ts IH]; [reflexivity|]. cbn [hash_of]. now rewrite E, IH.
Qed.

Theorem C81_seed_first : forall k mask max sh sched data n L, Nat.odd k = true -> is_u32 mask -> is_u64 max -> stream_len (length data) ->
  (k <= n <= length data)%nat -> NoDup L ->
  ((forall s, In s L -> 0 <= s < 2 ^ 32 /\ exists C, chunk_of (borg k mask max s) = Ok C /\ first_cut_at n (edge_cuts sh C sched) data = true) ->
   Z.of_nat (length L) <= 2 ^ (32 - Z.of_nat (ones 32 mask))) /\
  (Z.of_nat n <= max ->
   (forall s, In s L -> 0 <= s < 2 ^ 32 /\ exists C, incr_of (borg k mask max s) = Ok C /\ first_cut_at n (push_cuts 0 C sched) data = true) ->
   Z.of_nat (length L) <= 2 ^ (32 - Z.of_nat (ones 32 mask))).
Proof.
  intros k mask max sh sched data n L O Hm Hx Hl Hn NL.
  assert (Lc : length (firstn n data) = n) by (rewrite firstn_length; lia).
  assert (P : Nat.odd (length (firstn n data) + (length (firstn n data) - k)) = true).
  { rewrite Lc. replace (n + (n - k))%nat with (k + 2 * (n - k))%nat by lia. now rewrite Nat.odd_add_mul_2. }
  assert (H := C81_seed_count _ k mask (firstn n data) base_words Hm P). split.
  - intros G. apply (few_seeds _ _ L H NL). intros s Hs. destruct (G s Hs) as (Rs & C & EC & F). split; [exact Rs|].
    destruct (borg_typed k mask max s Hm Hx Rs) as [T V]. apply (rule_ext _ _ _ _ _ V).
    exact (first_cut_rule _ _ _ _ (edge_cuts_spec (borg k mask max s) C _ sh sched data T EC I eq_refl Hl) F).
  - intros Hmax G. apply (few_seeds _ _ L H NL). intros s Hs. destruct (G s Hs) as (Rs & C & EC & F). split; [exact Rs|].
    destruct (borg_typed k mask max s Hm Hx Rs) as [T V]. apply (rule_ext _ _ _ _ _ V).
    assert (X := first_cut_rule _ _ _ _ (push_cuts_spec (borg k mask max s) C sched data T EC I Hl) F). destruct X as [X|X]; [exact X|]. rewrite Lc in X. lia.
Qed.
Print Assumptions C81_seed_first.

(** ** What one entry of the table does *)

(** If the terms of the byte [v] are odd in number, every hash is that of exactly one value of its entry, and one in [2 ^ b] values makes the chunk end. *)
Theorem C81_entry : forall h k mask c v, words h -> 0 <= mask < 2 ^ 32 -> Nat.odd (occurs v (terms k c)) = true ->
  (forall y, 0 <= y < 2 ^ 32 -> exists! w, 0 <= w < 2 ^ 32 /\ buz_hash (set_entry h v w) k c = y) /\
  holds_for (fun w => buz_rule (set_entry h v w) k mask c) (2 ^ (32 - Z.of_nat (ones 32 mask))).
Proof.
  intros h k mask c v Hh Hm O.
  assert (W : forall w, word32 w -> word32 (buz_hash (set_entry h v w) k c)) by (intros w Hw; rewrite buz_hash_terms; apply hash_of_word; now apply set_entry_word).
  assert (E : forall w, buz_hash (set_entry h v w) k c = Z.lxor (rots (ages_of v (terms k c)) w) (buz_hash (set_entry h v 0) k c)) by (intros w; rewrite !buz_hash_terms; apply hash_entry).
  assert (ON : forall y, word32 y -> exists w, word32 w /\ buz_hash (set_entry h v w) k c = y).
  { intros y Hy. destruct (rots_onto _ (Z.lxor y (buz_hash (set_entry h v 0) k c)) O (word32_lxor _ _ Hy (W 0 word32_0))) as (w & Hw & Ew).
    exists w. split; [exact Hw|]. now rewrite E, Ew, Z.lxor_assoc, Z.lxor_nilpotent, Z.lxor_0_r. }
  assert (IN : forall s t, word32 s -> word32 t -> buz_hash (set_entry h v s) k c = buz_hash (set_entry h v t) k c -> s = t).
  { intros s t Hs Ht X. rewrite (E s), (E t) in X. apply lxor_cancel in X. exact (rots_inj _ _ _ O Hs Ht X). }
  split.
  - intros y Hy. destruct (ON y Hy) as (w & Hw & Ew). exists w. split; [auto|]. intros w' [Hw' Ew']. apply IN; congruence || assumption.
  - now apply (holds_for_bits (fun w => buz_hash (set_entry h v w) k c) mask Hm).
Qed.
Print Assumptions C81_entry.

(** For an odd capacity there is such a byte in every chunk that fills the window. *)
Lemma odd_byte : forall vs l, (forall b, In b l -> In b vs) -> NoDup vs -> Nat.odd (length l) = true -> exists v, Nat.odd (length (filter (fun b => byte_eqb b v) l)) = true.
Proof.
  induction vs as [|v vs IH]; intros l H N O.
  - destruct l as [|b l]; [discriminate O|]. destruct (H b (or_introl eq_refl)).
  - inversion N; subst. destruct (Nat.odd (length (filter (fun b => byte_eqb b v) l))) eqn:E; [now exists v|].
    assert (L : length l = (length (filter (fun b => byte_eqb b v) l) + length (filter (fun b => negb (byte_eqb b v)) l))%nat).
    { clear. induction l as [|b l IHl]; [reflexivity|]. cbn [filter length]. rewrite IHl. destruct (byte_eqb b v); cbn [negb length]; lia. }
    destruct (IH (filter (fun b => negb (byte_eqb b v)) l)) as [u U].
    + intros b Hb. apply filter_In in Hb. destruct Hb as [Hb Nb]. destruct (H b Hb) as [ -> |X]; [|exact X].
      destruct (byte_eqb_spec b b) as [_|F]; [discriminate Nb|now destruct F].
    + assumption.
    + rewrite L, Nat.odd_add, E, xorb_false_l in O. exact O.
    + exists u. rewrite <- U. do 2 f_equal. assert (V : u <> v).
      { intros ->. replace (filter (fun b => byte_eqb b v) (filter (fun b => negb (byte_eqb b v)) l)) with (@nil byte) in U; [discriminate U|].
        clear. induction l as [|b l IHl]; [reflexivity|]. cbn [filter]. destruct (byte_eqb b v) eqn:X; cbn [negb filter]; [exact IHl|]. now rewrite X. }
      clear - V. induction l as [|b l IHl]; [reflexivity|]. cbn [filter]. destruct (byte_eqb_spec b v) as [ -> |X]; cbn [negb].
      * destruct (byte_eqb_spec v u) as [Y|_]; [now destruct V|exact IHl].
      * cbn [filter]. destruct (byte_eqb b u); [now rewrite IHl|exact IHl].
Qed.

Theorem C81_entry_exists : forall k c, Nat.odd k = true -> (k <= length c)%nat -> exists v, Nat.odd (occurs v (terms k c)) = true.
Proof.
  intros k c O Hc. destruct (odd_byte all_bytes (map fst (terms k c))) as [v V].
  - intros b _. apply all_bytes_complete.
  - apply all_bytes_nodup.
  - rewrite map_length, terms_length. replace (length c + (length c - k))%nat with (k + 2 * (length c - k))%nat by lia. now rewrite Nat.odd_add_mul_2.
  - exists v. now rewrite occurs_fst.
Qed.
Print Assumptions C81_entry_exists.

(** ** Total cancellation *)

(** The hash of a chunk is 0 for every table exactly if every byte value occurs an even number of times at every age modulo 32. *)
Theorem C81_cancel : forall k c, (forall h, words h -> buz_hash h k c = 0) <-> (forall v r, Nat.even (occurs_at v r (terms k c)) = true).
Proof.
  intros k c. rewrite <- hash_cancels. split; intros H h Hh; specialize (H h Hh); rewrite buz_hash_terms in *; exact H.
Qed.
Print Assumptions C81_cancel.

(** Some chunk that fills the window cancels for every table exactly if the capacity is a multiple of 64. *)
Lemma cyclic_const : forall v l a h, (forall b, In b l -> b = v) -> cyclic h a l = rots (seq a (length l)) (h v).
Proof.
  intros v. induction l as [|b l IH]; intros a h H; [reflexivity|]. cbn [cyclic length seq rots]. rewrite (H b (or_introl eq_refl)).
  rewrite (IH (S a) h); [reflexivity|]. intros x Hx. apply H. now right.
Qed.

Lemma const_window : forall h k n v, words h -> (k mod 32 < 8)%nat -> (k <= n)%nat -> buz_hash h k (repeat v n) = rots (seq 0 (k mod 64)) (h v).
Proof.
  intros h k n v Hh Hk Hn. rewrite (buz_hash_window h Hh k _ Hk). rewrite (cyclic_const v).
  - rewrite firstn_length, rev_length, repeat_length, Nat.min_l by exact Hn. apply row_mod. apply Hh.
  - intros b Hb. apply (repeat_spec n). apply in_rev. rewrite <- (firstn_skipn k (rev (repeat v n))). apply in_app_iff. now left.
Qed.

Theorem C81_cancel_window : forall k, (k mod 32 < 8)%nat ->
  ((exists c, (k <= length c)%nat /\ forall h, words h -> buz_hash h k c = 0) <-> (k mod 64 = 0)%nat).
Proof.
  intros k Hk. split.
  - intros (c & Hc & H). assert (W0 : words (fun _ => 0)) by (intros b; lia). apply (C81_seed_idle (fun _ => 0) k c W0 Hk Hc).
    intros s Hs. rewrite (H (fun _ => 0) W0). apply H. intros b. unfold seeded. now rewrite Z.lxor_0_l.
  - intros E. exists (repeat x00 k). split; [now rewrite repeat_length|]. intros h Hh. rewrite const_window, E by (auto; lia). reflexivity.
Qed.
Print Assumptions C81_cancel_window.

(** A window of one repeated byte: for odd capacities its hash is 0 only if the entry of the byte is 0 (no entry of the two tables of the crate is); for even ones, also if the entry has all bits set. *)
Theorem C81_cancel_constant : forall k n v, (k mod 32 < 8)%nat -> (k <= n)%nat ->
  ((forall h, words h -> (buz_hash h k (repeat v n) = 0 <-> h v = 0)) <-> Nat.odd k = true).
Proof.
  intros k n v Hk Hn. assert (P : Nat.odd (length (seq 0 (k mod 64))) = Nat.odd k).
  { rewrite seq_length. rewrite (Nat.div_mod k 64) at 2 by lia. replace (64 * (k / 64) + k mod 64)%nat with (k mod 64 + 2 * (32 * (k / 64)))%nat by lia.
    now rewrite Nat.odd_add_mul_2. }
  split.
  - intros H. destruct (Nat.odd k) eqn:O; [reflexivity|]. exfalso. assert (W : words (fun _ => 2 ^ 32 - 1)) by (intros b; split; [discriminate|reflexivity]).
    assert (X := H _ W). rewrite (const_window _ k n v W Hk Hn) in X. rewrite rots_ones, P in X. destruct X as [X _]. discriminate (X eq_refl).
  - intros O h Hh. rewrite const_window by assumption. split.
    + intros E. rewrite <- P in O. apply (rots_inj _ _ _ O (Hh v) word32_0). now rewrite E, rots_zero.
    + intros ->. apply rots_zero.
Qed.
Print Assumptions C81_cancel_constant.

(** So with the tables of the crate and an odd capacity, 67 for one, a repeated byte never cancels. *)
Theorem C81_no_cancel : forall k n v, Nat.odd k = true -> (k mod 32 < 8)%nat -> (k <= n)%nat ->
  buz_hash (table_at GO_BUZHASH) k (repeat v n) <> 0 /\ buz_hash (table_at BORG_BUZHASH_BASE) k (repeat v n) <> 0.
Proof.
  intros k n v O Hk Hn.
  assert (T : forallb (fun b => andb (negb (table_at GO_BUZHASH b =? 0)) (negb (table_at BORG_BUZHASH_BASE b =? 0))) all_bytes = true) by (vm_compute; reflexivity).
  assert (X := forall_bytes _ T v). apply andb_true_iff in X. destruct X as [X Y].
  assert (G : words (table_at GO_BUZHASH)) by (intros b; destruct (C38_byte_hashes x00 0 ltac:(lia)) as (B & _); apply (B b)).
  split; intros E; apply (proj2 (C81_cancel_constant k n v Hk Hn) O) in E; auto using base_words; [rewrite E in X; discriminate X|rewrite E in Y; discriminate Y].
Qed.
Print Assumptions C81_no_cancel.

(** ** Repeating data *)

(** [l] repeats itself after [p] bytes. *)
Definition repeats (p : nat) (l : list byte) : Prop := forall i, (i + p < length l)%nat -> nth_error l i = nth_error l (i + p).

Lemma repeats_skipn : forall p n l, repeats p l -> repeats p (skipn n l).
Proof.
  intros p n l H i Hi. rewrite skipn_length in Hi. rewrite !nth_error_skipn'. rewrite H by lia. f_equal. lia.
Qed.

Lemma nth_error_firstn_lt : forall (l : list byte) n i, (i < n)%nat -> nth_error (firstn n l) i = nth_error l i.
Proof.
  induction l as [|b l IH]; intros n i Hi; [now rewrite firstn_nil|]. destruct n as [|n]; [lia|]. destruct i as [|i]; [reflexivity|]. cbn. apply IH. lia.
Qed.

Lemma repeats_firstn : forall p n l, repeats p l -> repeats p (firstn n l).
Proof.
  intros p n l H i Hi. rewrite firstn_length in Hi. rewrite !nth_error_firstn_lt by lia. apply H. lia.
Qed.

Lemma repeats_rev : forall p l, repeats p l -> repeats p (rev l).
Proof.
  intros p l H i Hi. rewrite rev_length in Hi.
  rewrite (nth_error_nth' (rev l) x00), (nth_error_nth' (rev l) x00 (n := i + p)) by (rewrite rev_length; lia).
  rewrite !rev_nth by lia. assert (X := H (length l - S (i + p))%nat ltac:(lia)).
  rewrite (nth_error_nth' l x00), (nth_error_nth' l x00 (n := _ + p)) in X by lia. injection X as X. rewrite X. do 2 f_equal. lia.
Qed.

Lemma nth_error_same : forall (a b : list byte), (forall i, nth_error a i = nth_error b i) -> a = b.
Proof.
  induction a as [|x a IH]; intros [|y b] H; [reflexivity|discriminate (H 0%nat)|discriminate (H 0%nat)|].
  assert (E := H 0%nat). injection E as ->. f_equal. apply IH. intros i. exact (H (S i)).
Qed.

Lemma repeats_block : forall p l, repeats p l -> (p + p <= length l)%nat -> firstn p (skipn p l) = firstn p l.
Proof.
  intros p l H Hl. apply nth_error_same. intros i. destruct (Nat.lt_ge_cases i p) as [G|G].
  - rewrite !nth_error_firstn_lt by exact G. rewrite nth_error_skipn'. rewrite (H i) by lia. f_equal. lia.
  - assert (A : (length (firstn p (skipn p l)) <= i)%nat) by (rewrite firstn_length; lia).
    assert (B : (length (firstn p l) <= i)%nat) by (rewrite firstn_length; lia). apply nth_error_None in A, B. congruence.
Qed.

Lemma repeats_cancel : forall q h l, words h -> repeats 32 l -> length l = (64 * q)%nat -> cyclic h 0 l = 0.
Proof.
  induction q as [|q IH]; intros h l Hh H L; [destruct l; [reflexivity|cbn in L; lia]|].
  rewrite <- (firstn_skipn 32 l), cyclic_app. rewrite firstn_length, Nat.min_l by lia.
  rewrite <- (firstn_skipn 32 (skipn 32 l)), cyclic_app. rewrite (repeats_block 32 l H) by lia. rewrite firstn_length, Nat.min_l by lia.
  rewrite (cyclic_mod h Hh _ (0 + 32) 0), (cyclic_mod h Hh _ (0 + 32 + 32) 0) by reflexivity.
  rewrite skipn_skipn'. rewrite (IH h (skipn (32 + 32) l) Hh (repeats_skipn _ _ _ H)) by (rewrite skipn_length; lia).
  rewrite Z.lxor_0_r. apply Z.lxor_nilpotent.
Qed.

(** Data that repeats itself after 32 bytes (so after 1, 2, 4, 8 or 16 as well), a capacity that is a multiple of 64 and a mask with a bit: [find_chunk_edge] ends no chunk of [k]
    bytes or more, whatever the table; [push] ends such a chunk only by the maximum. *)
Theorem C81_repeating : forall k mask h max p hv sh data sched, buzhash_new k mask h max = Ok p -> byte_hash h hv -> (k mod 64 = 0)%nat -> 0 < mask ->
  repeats 32 data ->
  (forall r, run_chunk sh (buz_chunk p) data sched = Ok r -> Forall (fun n => (n < k)%nat) (sizes 0 (r_cuts r))) /\
  (forall r, below_2_64 (length data) -> run_incr 0 (buz_incr p) data sched = Ok r ->
    Forall (fun n => (n < k)%nat \/ max < Z.of_nat n) (sizes 0 (r_cuts r))).
Proof.
  intros k mask h max p hv sh data sched Ep Hb Hk Hm Hd.
  assert (Hv : words hv) by (intros b; apply (Hb b)).
  assert (K32 : (k mod 32 < 8)%nat).
  { rewrite (Nat.div_mod k 64), Hk, Nat.add_0_r by lia. replace (64 * (k / 64))%nat with (2 * (k / 64) * 32)%nat by lia. rewrite Nat.mod_mul by lia. lia. }
  assert (R : forall c, repeats 32 c -> (k <= length c)%nat -> ~ buz_rule hv k mask c).
  { intros c Hc Lc B. unfold buz_rule in B. rewrite (buz_hash_window hv Hv k c K32) in B. rewrite (repeats_cancel (k / 64)) in B.
    - specialize (B (Z.log2 mask) (Z.log2_nonneg _) (Z.bit_log2 _ Hm)). now rewrite Z.bits_0 in B.
    - exact Hv.
    - now apply repeats_firstn, repeats_rev.
    - rewrite firstn_length, rev_length, Nat.min_l by exact Lc. rewrite (Nat.div_mod k 64) at 1 by lia. lia. }
  assert (S : forall (rule : list byte -> Prop) (Q : nat -> Prop), (forall c, repeats 32 c -> rule c -> Q (length c)) ->
    forall h0 d cs, repeats 32 d -> cuts_of (ends_at (per_chunk rule)) h0 d cs -> Forall Q (sizes (length h0) cs)).
  { intros rule Q HQ h0 d cs Hrep C. induction C as [h0 d N|h0 d n cs F C IH]; cbn [sizes]; constructor.
    - destruct F as (L & F & _). replace (length h0 + n - length h0)%nat with (length (firstn n d)) by (rewrite firstn_length; lia). apply HQ; [now apply repeats_firstn|exact F].
    - replace (length h0 + n)%nat with (length (h0 ++ firstn n d)); [now apply IH, repeats_skipn|]. destruct F as (L & _). rewrite app_length, firstn_length. lia. }
  assert (PRE : forall (Q : nat -> Prop) a b, Forall Q (sizes 0 (a ++ b)) -> Forall Q (sizes 0 a)).
  { intros Q a b F. destruct (sizes_app a b 0) as [x E]. rewrite E in F. apply Forall_app in F. apply F. }
  split.
  - intros r Er. destruct (chunk_cuts_prefix _ _ _ _ _ _ _ _ (C33_buz_edges k mask h max p hv sh Ep Hb) I Er) as [later C].
    apply (PRE _ _ later). apply (S _ _ (fun c Hc B => proj1 (Nat.nle_gt _ _) (fun G => R c Hc G B)) [] data _ Hd C).
  - intros r Hl Er. destruct (incr_cuts_prefix _ _ _ _ _ _ _ (proj1 (C34_buz_push k mask h max p hv Ep Hb)) Hl Er) as [later C].
    apply (PRE _ _ later). refine (S _ _ _ [] data _ Hd C). intros c Hc [B|B]; [left|now right]. apply Nat.nle_gt. intros G. exact (R c Hc G B).
Qed.
Print Assumptions C81_repeating.

(** The capacity 67 of [new_nom]: the seed changes the hash of the window; with 64 it does not.  The byte 1 repeated: only the maximum cuts. *)
Definition window64 : list byte := buz_demo ++ buz_demo ++ buz_demo ++ buz_demo.
Example C81_case :
  buz_hash (seeded (table_at BORG_BUZHASH_BASE) 1) 67 (repeat x07 70) <> buz_hash (table_at BORG_BUZHASH_BASE) 67 (repeat x07 70) /\
  buz_hash (seeded (table_at BORG_BUZHASH_BASE) 1) 64 window64 = buz_hash (table_at BORG_BUZHASH_BASE) 64 window64 /\
  buz_hash (table_at BORG_BUZHASH_BASE) 64 (repeat x07 70) = 0 /\
  (exists p, buzhash_new 64 4095 (table_hash GO_BUZHASH) 90 = Ok p /\
     cuts_seen (run_chunk false (buz_chunk p) (repeat x01 200) (drain (repeat x01 200))) = Some [] /\
     cuts_seen (run_incr 0 (buz_incr p) (repeat x01 200) (drain (repeat x01 200))) = Some [91; 182]%nat).
Proof. repeat apply conj; [vm_compute; congruence..|]. eexists. split; [reflexivity|]. split; vm_compute; reflexivity. Qed.
