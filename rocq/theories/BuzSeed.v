(** * BuzSeed: xors of rotations, and what an entry of the byte table contributes to the hash of BuzHash. *)

From Verif Require Import Base Api Spec Lists Words Rot BuzProofs.

(** The xor of the rotations of [w] by the amounts in [ages]. *)
Fixpoint rots (ages : list nat) (w : Z) : Z :=
  match ages with
  | [] => 0
  | a :: l => Z.lxor (rot32 (Z.of_nat a) w) (rots l w)
  end.

Lemma word32_0 : word32 0.
Proof. split; [lia|reflexivity]. Qed.

Lemma rots_word : forall l w, word32 w -> word32 (rots l w).
Proof. induction l as [|a l IH]; intros w H; cbn [rots]; [exact word32_0|]. apply word32_lxor; auto using rot32_word. Qed.

Lemma rots_zero : forall l, rots l 0 = 0.
Proof. induction l as [|a l IH]; [reflexivity|]. cbn [rots]. now rewrite rot32_zero, IH. Qed.

Lemma rots_app : forall l1 l2 w, rots (l1 ++ l2) w = Z.lxor (rots l1 w) (rots l2 w).
Proof. induction l1 as [|a l IH]; intros l2 w; cbn [app rots]; [now rewrite Z.lxor_0_l|]. now rewrite IH, Z.lxor_assoc. Qed.

Lemma lxor_4 : forall a b c d, Z.lxor (Z.lxor a b) (Z.lxor c d) = Z.lxor (Z.lxor a c) (Z.lxor b d).
Proof. intros. rewrite !Z.lxor_assoc. f_equal. rewrite <- !Z.lxor_assoc. f_equal. apply Z.lxor_comm. Qed.

Lemma rots_lxor : forall l x y, word32 x -> word32 y -> rots l (Z.lxor x y) = Z.lxor (rots l x) (rots l y).
Proof.
  induction l as [|a l IH]; intros x y Hx Hy; cbn [rots]; [reflexivity|]. rewrite rot32_lxor, IH by assumption. apply lxor_4.
Qed.

Lemma rots_rot : forall l a w, word32 w -> rots l (rot32 a w) = rot32 a (rots l w).
Proof.
  induction l as [|b l IH]; intros a w H; cbn [rots]; [now rewrite rot32_zero|].
  rewrite rot32_lxor, IH, !rot32_rot32 by auto using rot32_word, rots_word. do 2 f_equal. lia.
Qed.

(** Applying the xor of rotations twice doubles the ages: the mixed terms cancel. *)
Definition twice (l : list nat) : list nat := map (fun a => a + a)%nat l.

Lemma rots_twice : forall l w, word32 w -> rots l (rots l w) = rots (twice l) w.
Proof.
  induction l as [|a l IH]; intros w H; cbn [rots twice map]; [reflexivity|].
  rewrite rot32_lxor, rots_lxor, rots_rot by auto using rot32_word, rots_word. rewrite rot32_rot32 by assumption.
  rewrite IH by assumption. fold (twice l).
  set (p := rot32 (Z.of_nat a) (rots l w)). set (q := rots (twice l) w).
  rewrite Z.lxor_assoc. f_equal; [f_equal; lia|]. rewrite <- Z.lxor_assoc, Z.lxor_nilpotent. apply Z.lxor_0_l.
Qed.

Lemma rots_all_32 : forall l w, word32 w -> (forall a, In a l -> (a mod 32 = 0)%nat) -> rots l w = if Nat.odd (length l) then w else 0.
Proof.
  induction l as [|a l IH]; intros w H Ha; [reflexivity|]. cbn [rots length]. rewrite IH by (auto; intros b Hb; apply Ha; now right).
  assert (E : Z.of_nat a mod 32 = 0) by (change 32 with (Z.of_nat 32); rewrite <- Nat2Z.inj_mod, (Ha a (or_introl eq_refl)); reflexivity).
  rewrite (rot32_mod (Z.of_nat a) 0), rot32_0 by (exact H || exact E).
  rewrite Nat.odd_succ, <- Nat.negb_odd. destruct (Nat.odd (length l)); cbn [negb]; [apply Z.lxor_nilpotent|apply Z.lxor_0_r].
Qed.

Definition times32 (l : list nat) : list nat := twice (twice (twice (twice (twice l)))).

Lemma rots_times32 : forall l w, word32 w -> rots (times32 l) w = if Nat.odd (length l) then w else 0.
Proof.
  intros l w H. rewrite rots_all_32; [|exact H|].
  - unfold times32, twice. now rewrite !map_length.
  - intros a Ha. unfold times32, twice in Ha. rewrite !map_map in Ha. apply in_map_iff in Ha. destruct Ha as (b & <- & _).
    match goal with |- (?x mod _ = _)%nat => replace x with (b * 32)%nat by lia end. apply Nat.mod_mul. lia.
Qed.

(** An odd number of rotations: a permutation of the words. *)
Lemma rots_inj : forall l x y, Nat.odd (length l) = true -> word32 x -> word32 y -> rots l x = rots l y -> x = y.
Proof.
  intros l x y O Hx Hy E.
  assert (T : forall m, rots m x = rots m y -> rots (twice m) x = rots (twice m) y) by (intros m Em; rewrite <- !rots_twice by assumption; now rewrite Em).
  apply T in E. do 4 apply T in E. fold (times32 l) in E. rewrite !rots_times32, O in E by assumption. exact E.
Qed.

Lemma rots_onto : forall l y, Nat.odd (length l) = true -> word32 y -> exists x, word32 x /\ rots l x = y.
Proof.
  intros l y O Hy.
  assert (T : forall m, (exists x, word32 x /\ rots (twice m) x = y) -> exists x, word32 x /\ rots m x = y).
  { intros m (x & Hx & E). exists (rots m x). split; [now apply rots_word|]. now rewrite rots_twice. }
  do 5 apply T. exists y. split; [exact Hy|]. fold (times32 l). now rewrite rots_times32, O.
Qed.

(** An even number: the word of ones is sent to 0. *)
Lemma rot32_ones : forall a, rot32 a (2 ^ 32 - 1) = 2 ^ 32 - 1.
Proof.
  intros a. assert (W : word32 (2 ^ 32 - 1)) by (split; [discriminate|reflexivity]). apply word32_ext; auto using rot32_word. intros i Hi.
  rewrite rot32_bits by assumption. change (2 ^ 32 - 1) with (Z.ones 32). rewrite !Z.ones_spec_low; auto. apply Z.mod_pos_bound. lia.
Qed.

Lemma rots_ones : forall l, rots l (2 ^ 32 - 1) = if Nat.odd (length l) then 2 ^ 32 - 1 else 0.
Proof.
  induction l as [|a l IH]; [reflexivity|]. cbn [rots length]. rewrite rot32_ones, IH, Nat.odd_succ, <- Nat.negb_odd.
  destruct (Nat.odd (length l)); reflexivity.
Qed.

(** ** The terms of the hash *)

(** The bytes of [l] with their ages, the first of age [a]. *)
Fixpoint aged (a : nat) (l : list byte) : list (byte * nat) :=
  match l with
  | [] => []
  | b :: l' => (b, a) :: aged (S a) l'
  end.

Fixpoint hash_of (h : byte -> Z) (ts : list (byte * nat)) : Z :=
  match ts with
  | [] => 0
  | (b, a) :: ts' => Z.lxor (rot32 (Z.of_nat a) (h b)) (hash_of h ts')
  end.

Definition terms (k : nat) (c : list byte) : list (byte * nat) := aged 0 (rev c) ++ aged (k mod 8) (skipn k (rev c)).

Lemma hash_of_app : forall h t1 t2, hash_of h (t1 ++ t2) = Z.lxor (hash_of h t1) (hash_of h t2).
Proof. intros h. induction t1 as [|[b a] t IH]; intros t2; cbn [app hash_of]; [now rewrite Z.lxor_0_l|]. now rewrite IH, Z.lxor_assoc. Qed.

Lemma hash_aged : forall h l a, hash_of h (aged a l) = cyclic h a l.
Proof. intros h. induction l as [|b l IH]; intros a; cbn [aged hash_of cyclic]; [reflexivity|]. now rewrite IH. Qed.

Lemma buz_hash_terms : forall h k c, buz_hash h k c = hash_of h (terms k c).
Proof. intros h k c. unfold buz_hash, terms. now rewrite hash_of_app, !hash_aged. Qed.

Lemma aged_length : forall l a, length (aged a l) = length l.
Proof. induction l as [|b l IH]; intros a; cbn; [reflexivity|]. now rewrite IH. Qed.

Lemma aged_fst : forall l a, map fst (aged a l) = l.
Proof. induction l as [|b l IH]; intros a; cbn; [reflexivity|]. now rewrite IH. Qed.

Lemma aged_snd : forall l a, map snd (aged a l) = seq a (length l).
Proof. induction l as [|b l IH]; intros a; cbn; [reflexivity|]. now rewrite IH. Qed.

Lemma terms_length : forall k c, length (terms k c) = (length c + (length c - k))%nat.
Proof. intros k c. unfold terms. now rewrite app_length, !aged_length, skipn_length, rev_length. Qed.

Lemma hash_of_word : forall h ts, (forall b, word32 (h b)) -> word32 (hash_of h ts).
Proof.
  intros h ts H. induction ts as [|[b a] ts IH]; cbn [hash_of]; [exact word32_0|]. apply word32_lxor; auto using rot32_word.
Qed.

(** ** One seed for all entries; one entry *)
Lemma hash_seed : forall h s ts, (forall b, word32 (h b)) -> word32 s ->
  hash_of (fun b => Z.lxor (h b) s) ts = Z.lxor (rots (map snd ts) s) (hash_of h ts).
Proof.
  intros h s ts H Hs. induction ts as [|[b a] ts IH]; [reflexivity|]. cbn [hash_of map snd rots].
  rewrite rot32_lxor, IH by auto. rewrite (Z.lxor_comm (rot32 _ (h b)) _). apply lxor_4.
Qed.

Definition set_entry (h : byte -> Z) (v : byte) (w : Z) : byte -> Z := fun b => if byte_eqb b v then w else h b.

Definition ages_of (v : byte) (ts : list (byte * nat)) : list nat := map snd (filter (fun t => byte_eqb (fst t) v) ts).

Lemma set_entry_word : forall h v w, (forall b, word32 (h b)) -> word32 w -> forall b, word32 (set_entry h v w b).
Proof. intros h v w H Hw b. unfold set_entry. destruct (byte_eqb b v); auto. Qed.

Lemma hash_entry : forall h v w ts, hash_of (set_entry h v w) ts = Z.lxor (rots (ages_of v ts) w) (hash_of (set_entry h v 0) ts).
Proof.
  intros h v w ts. induction ts as [|[b a] ts IH]; [reflexivity|]. cbn [hash_of]. rewrite IH. unfold set_entry at 1 3, ages_of. cbn [filter fst].
  destruct (byte_eqb b v); cbn [map snd rots]; fold (ages_of v ts).
  - now rewrite rot32_zero, Z.lxor_0_l, Z.lxor_assoc.
  - rewrite <- !Z.lxor_assoc. f_equal. apply Z.lxor_comm.
Qed.

(** How many terms have the byte [v]; how many have also an age congruent to [r] modulo 32. *)
Definition occurs (v : byte) (ts : list (byte * nat)) : nat := length (ages_of v ts).
Definition occurs_at (v : byte) (r : nat) (ts : list (byte * nat)) : nat :=
  length (filter (fun t => andb (byte_eqb (fst t) v) (Nat.eqb (snd t mod 32) r)) ts).

Lemma occurs_fst : forall v ts, occurs v ts = length (filter (fun b => byte_eqb b v) (map fst ts)).
Proof.
  intros v. unfold occurs, ages_of. induction ts as [|[b a] ts IH]; [reflexivity|]. cbn [map fst filter]. destruct (byte_eqb b v); cbn [map length]; now rewrite IH.
Qed.

(** ** When every table gives 0 *)
Lemma hash_filter : forall h (f : byte * nat -> bool) ts, hash_of h ts = Z.lxor (hash_of h (filter f ts)) (hash_of h (filter (fun t => negb (f t)) ts)).
Proof.
  intros h f. induction ts as [|[b a] ts IH]; [reflexivity|]. cbn [hash_of filter]. rewrite IH.
  destruct (f (b, a)); cbn [negb hash_of]; rewrite <- !Z.lxor_assoc; [reflexivity|]. f_equal. apply Z.lxor_comm.
Qed.

Definition key (t : byte * nat) : byte * nat := (fst t, (snd t mod 32)%nat).
Definition same (k1 k2 : byte * nat) : bool := andb (byte_eqb (fst k1) (fst k2)) (Nat.eqb (snd k1) (snd k2)).

Lemma same_spec : forall x y, same x y = true <-> x = y.
Proof.
  intros [b a] [b' a']. unfold same. cbn [fst snd]. rewrite andb_true_iff, Nat.eqb_eq. destruct (byte_eqb_spec b b') as [ -> |N].
  - split; [now intros [_ -> ]|intros E; now injection E].
  - split; [now intros [X _]|intros E; injection E; congruence].
Qed.

Lemma occurs_at_key : forall v r ts, occurs_at v r ts = length (filter (fun t => same (key t) (v, r)) ts).
Proof. intros v r ts. reflexivity. Qed.

Lemma hash_one_key : forall h v r ts, (forall b, word32 (h b)) -> (forall t, In t ts -> key t = (v, r)) ->
  hash_of h ts = if Nat.odd (length ts) then rot32 (Z.of_nat r) (h v) else 0.
Proof.
  intros h v r ts Hh. induction ts as [|[b a] ts IH]; intros H; [reflexivity|]. cbn [hash_of length].
  rewrite IH by (intros t Ht; apply H; now right). assert (E := H _ (or_introl eq_refl)). unfold key in E. cbn [fst snd] in E. injection E as -> <-.
  rewrite (rot32_mod (Z.of_nat a) (Z.of_nat (a mod 32))).
  - rewrite Nat.odd_succ, <- Nat.negb_odd. destruct (Nat.odd (length ts)); cbn [negb]; [apply Z.lxor_nilpotent|apply Z.lxor_0_r].
  - rewrite <- !(Nat2Z.inj_mod _ 32). now rewrite Nat.mod_mod by lia.
Qed.

Lemma hash_even : forall ks h ts, (forall b, word32 (h b)) -> (forall t, In t ts -> In (key t) ks) ->
  (forall v r, Nat.even (occurs_at v r ts) = true) -> hash_of h ts = 0.
Proof.
  induction ks as [|[v r] ks IH]; intros h ts Hh K E.
  - destruct ts as [|t ts]; [reflexivity|]. destruct (K t (or_introl eq_refl)).
  - rewrite (hash_filter h (fun t => same (key t) (v, r))). rewrite (hash_one_key h v r).
    + rewrite <- occurs_at_key. rewrite <- Nat.negb_even, E. cbn [negb]. rewrite Z.lxor_0_l. apply IH.
      * exact Hh.
      * intros t Ht. apply filter_In in Ht. destruct Ht as [Ht N]. destruct (K t Ht) as [X|X]; [|exact X].
        assert (Y : same (key t) (v, r) = true) by now apply same_spec. cbv beta in N. rewrite Y in N. discriminate N.
      * intros v' r'. rewrite occurs_at_key. specialize (E v' r'). rewrite occurs_at_key in E.
        destruct (same (v, r) (v', r')) eqn:S.
        -- apply same_spec in S. injection S as <- <-. replace (filter _ (filter _ ts)) with (@nil (byte * nat)); [reflexivity|].
           clear. induction ts as [|t ts IH]; [reflexivity|]. cbn [filter]. destruct (same (key t) (v, r)) eqn:S; cbn [negb]; [exact IH|].
           cbn [filter]. now rewrite S.
        -- rewrite <- E. do 2 f_equal. clear - S. induction ts as [|t ts IH]; [reflexivity|]. cbn [filter].
           destruct (same (key t) (v, r)) eqn:S1; cbn [negb filter].
           ++ destruct (same (key t) (v', r')) eqn:S2; [|exact IH]. apply same_spec in S1, S2. rewrite <- S1, <- S2 in S.
              assert (Y : same (key t) (key t) = true) by now apply same_spec. congruence.
           ++ destruct (same (key t) (v', r')); [now rewrite IH|exact IH].
    + exact Hh.
    + intros t Ht. apply filter_In in Ht. now apply same_spec.
Qed.

Lemma rots_one_bits : forall l r, (r < 32)%nat ->
  Z.testbit (rots l 1) (Z.of_nat r) = Nat.odd (length (filter (fun a => Nat.eqb (a mod 32) r) l)).
Proof.
  assert (W : word32 1) by (split; [lia|reflexivity]).
  induction l as [|a l IH]; intros r Hr; [apply Z.bits_0|]. cbn [rots filter]. rewrite Z.lxor_spec, IH by exact Hr. rewrite rot32_bits by (auto; lia).
  assert (T : Z.testbit 1 ((Z.of_nat r - Z.of_nat a) mod 32) = Nat.eqb (a mod 32) r).
  { rewrite <- (Zminus_mod_idemp_r _ (Z.of_nat a)). change 32 with (Z.of_nat 32) at 1; rewrite <- Nat2Z.inj_mod. assert (B := Nat.mod_upper_bound a 32 ltac:(lia)).
    destruct (Nat.eqb_spec (a mod 32) r) as [ -> |N]; [now rewrite Z.sub_diag|].
    assert (G : (Z.of_nat r - Z.of_nat (a mod 32)) mod 32 <> 0).
    { intros G. apply Z.mod_divide in G; [|lia]. destruct G as [q G]. nia. }
    assert (P := Z.mod_pos_bound (Z.of_nat r - Z.of_nat (a mod 32)) 32 ltac:(lia)). apply Z.bits_above_log2; [lia|]. change (Z.log2 1) with 0. lia. }
  rewrite T. destruct (Nat.eqb (a mod 32) r); cbn [length]; [|now rewrite xorb_false_l].
  rewrite Nat.odd_succ, <- Nat.negb_odd. now destruct (Nat.odd _).
Qed.

Lemma occurs_at_ages : forall v r ts, occurs_at v r ts = length (filter (fun a => Nat.eqb (a mod 32) r) (ages_of v ts)).
Proof.
  intros v r. unfold occurs_at, ages_of. induction ts as [|[b a] ts IH]; [reflexivity|]. cbn [filter fst snd].
  destruct (byte_eqb b v); cbn [andb map filter snd]; [|exact IH]. destruct (Nat.eqb (a mod 32) r); cbn [length]; now rewrite IH.
Qed.

Lemma occurs_at_big : forall v r ts, (32 <= r)%nat -> occurs_at v r ts = 0%nat.
Proof.
  intros v r ts Hr. unfold occurs_at. induction ts as [|t ts IH]; [reflexivity|]. cbn [filter]. assert (B := Nat.mod_upper_bound (snd t) 32 ltac:(lia)).
  destruct (Nat.eqb_spec (snd t mod 32) r) as [X|X]; [lia|]. now rewrite andb_false_r.
Qed.

Theorem hash_cancels : forall ts, (forall h, (forall b, word32 (h b)) -> hash_of h ts = 0) <-> (forall v r, Nat.even (occurs_at v r ts) = true).
Proof.
  intros ts. split.
  - intros H v r. destruct (Nat.lt_ge_cases r 32) as [Hr|Hr].
    + assert (W : word32 1) by (split; [lia|reflexivity]).
      assert (E := H (set_entry (fun _ => 0) v 1) (set_entry_word _ _ _ (fun _ => word32_0) W)). rewrite hash_entry in E.
      rewrite (H (set_entry (fun _ => 0) v 0) (set_entry_word _ _ _ (fun _ => word32_0) word32_0)) in E. rewrite Z.lxor_0_r in E.
      assert (B := rots_one_bits (ages_of v ts) r Hr). rewrite E, Z.bits_0 in B. rewrite occurs_at_ages. rewrite <- Nat.negb_odd, <- B. reflexivity.
    + now rewrite occurs_at_big.
  - intros E h Hh. apply (hash_even (map key ts)); auto. intros t Ht. now apply in_map.
Qed.
