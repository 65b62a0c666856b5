(** * FastCdcExact: which FastCdc configurations do not depend on the slicing. *)

From Verif Require Import Base Api Tables Spec Lists Contract Step Words CutFacts FastCdc FastCdcProofs FastCdcTotal.
From Verif Require Import Builtin BuiltinProofs.

(** One call of [push] with any sizes.  [a]: the first offset looked at. *)
Lemma fc_call : forall p s c d, length (fc_gear p) = 256%nat -> 0 <= fc_min_size p -> fc_rel p s c -> below_2_64 (length (c ++ d)) ->
  (Z.of_nat (length (c ++ d)) <= fc_min_size p /\ exists s', fastcdc_state_push p s d = Ok (s', None) /\ fc_rel p s' (c ++ d)) \/
  (fc_min_size p < Z.of_nat (length (c ++ d)) /\ let a := Nat.max (Z.to_nat (fc_min_size p)) (length c) in
   (exists k, let o := (length c + k)%nat in (a <= o < length (c ++ d))%nat /\ fc_hit p (c ++ d) o /\ (Z.of_nat o < fc_normal_size p \/ Z.of_nat o < fc_max_size p) /\
      (forall j, (a <= j < o)%nat -> ~ fc_hit p (c ++ d) j /\ (Z.of_nat j < fc_normal_size p \/ Z.of_nat j < fc_max_size p)) /\
      fastcdc_state_push p s d = Ok (fastcdc_state_default, Some k)) \/
   (exists k, let o := (length c + k)%nat in (a <= o <= length (c ++ d))%nat /\ fc_max_size p <= Z.of_nat o /\
      (o = length (c ++ d) \/ fc_normal_size p <= Z.of_nat o) /\
      (forall j, (a <= j < o)%nat -> ~ fc_hit p (c ++ d) j /\ (Z.of_nat j < fc_normal_size p \/ Z.of_nat j < fc_max_size p)) /\
      fastcdc_state_push p s d = Ok (fastcdc_state_default, Some k)) \/
   (exists s', Z.of_nat (length (c ++ d)) < fc_max_size p /\ (forall j, (a <= j < length (c ++ d))%nat -> ~ fc_hit p (c ++ d) j) /\
      fastcdc_state_push p s d = Ok (s', None) /\ fc_rel p s' (c ++ d))).
Proof.
  intros p s c d Hg Hmin (El & Ef) Hlim. unfold below_2_64 in Hlim.
  assert (LD : length (c ++ d) = (length c + length d)%nat) by apply app_length.
  unfold fastcdc_state_push, add_u64, two64. rewrite El.
  replace (Z.of_nat (length d) + Z.of_nat (length c) <? 2 ^ 64) with true by (symmetry; apply Z.ltb_lt; lia).
  cbn [bind].
  destruct (Z.leb_spec (Z.of_nat (length d) + Z.of_nat (length c)) (fc_min_size p)) as [G|G].
  { left. split; [lia|]. eexists. split; [reflexivity|]. split; cbn [fc_l fc_fp]; [lia|]. rewrite Ef, !fc_hash_short by lia. reflexivity. }
  right. split; [lia|]. cbv zeta. set (a := Nat.max (Z.to_nat (fc_min_size p)) (length c)).
  set (i0 := if Z.of_nat (length c) <=? fc_min_size p then Z.to_nat (fc_min_size p - Z.of_nat (length c)) else 0%nat).
  assert (Ha : a = (length c + i0)%nat) by (unfold a, i0; destruct (Z.leb_spec (Z.of_nat (length c)) (fc_min_size p)); lia).
  assert (Hi0 : (i0 <= length d)%nat) by (unfold i0; destruct (Z.leb_spec (Z.of_nat (length c)) (fc_min_size p)); lia).
  assert (Hm0 : (Z.to_nat (fc_min_size p) <= length c + i0)%nat)
    by (unfold i0; destruct (Z.leb_spec (Z.of_nat (length c)) (fc_min_size p)); lia).
  match goal with |- context[bind ?m _] => assert (E0 : m = Ok (Z.of_nat (length c + i0), i0)) end.
  { unfold i0. destruct (Z.leb_spec (Z.of_nat (length c)) (fc_min_size p)) as [G1|G1].
    - unfold sub_u64. replace (Z.of_nat (length c) <=? fc_min_size p) with true by (symmetry; apply Z.leb_le; lia). cbn [bind].
      replace (Z.of_nat (length c) + (fc_min_size p - Z.of_nat (length c)) <? 2 ^ 64) with true by (symmetry; apply Z.ltb_lt; lia).
      cbn [bind]. do 2 f_equal. lia.
    - do 2 f_equal. lia. }
  rewrite E0. cbn [bind]. clear E0.
  assert (EX : {| fl_gi := Z.of_nat (length c + i0); fl_i := i0; fl_fp := fc_fp s |} = fc_at p c d i0).
  { unfold fc_at. f_equal. rewrite Ef. unfold i0. destruct (Z.leb_spec (Z.of_nat (length c)) (fc_min_size p)) as [G1|G1].
    - rewrite !fc_hash_short; [reflexivity| |lia]. rewrite firstn_length. lia.
    - rewrite Nat.add_0_r, firstn_app_le, firstn_all by lia. reflexivity. }
  rewrite EX. clear EX. rewrite Ha. clear a Ha.
  assert (Off : forall j, (length c + i0 <= j)%nat -> j = (length c + (j - length c))%nat) by (intros; lia).
  destruct (fc_loop1 p c d Hg Hlim (S (length d)) i0) as [(k & x & A1 & A2 & A3 & A4 & E1)|(k & A1 & A2 & A3 & E1)]; try lia; rewrite E1; cbn [bind].
  - left. exists k. cbv zeta. split; [lia|]. split; [exact A3|]. split; [left; lia|]. split; [|reflexivity].
    intros j Hj. rewrite (Off j) by lia. split; [apply A4; lia|left; lia].
  - destruct (fc_loop2 p c d Hg Hlim (S (length d)) k) as [(k2 & x & B1 & B2 & B3 & E2)|(B1 & B2 & E2)]; try lia; rewrite E2; cbn [bind].
    + assert (Q : forall j, (length c + i0 <= j < length c + k2)%nat -> ~ fc_hit p (c ++ d) j /\ (Z.of_nat j < fc_normal_size p \/ Z.of_nat j < fc_max_size p)).
      { intros j Hj. rewrite (Off j) by lia. destruct (Nat.lt_ge_cases (j - length c) k) as [X|X].
        - destruct (A3 (j - length c)%nat) as [Y1 Y2]; [lia|]. split; [exact Y2|left; exact Y1].
        - destruct (B3 (j - length c)%nat) as [Y1 Y2]; [lia|]. split; [exact Y2|right; exact Y1]. }
      destruct (Z.le_gt_cases (fc_max_size p) (Z.of_nat (length c + k2))) as [X|X].
      * right. left. exists k2. cbv zeta. split; [lia|]. split; [exact X|]. split; [lia|]. split; [exact Q|reflexivity].
      * left. exists k2. cbv zeta. destruct B2 as [B2|[B2 B4]]; [lia|]. split; [lia|]. split; [exact B4|]. split; [right; exact X|]. split; [exact Q|reflexivity].
    + right. right. eexists. split; [lia|]. split; [|split; [reflexivity|]].
      * intros j Hj. rewrite (Off j) by lia. destruct (Nat.lt_ge_cases (j - length c) k) as [X|X]; [apply A3; lia|apply B2; lia].
      * split; cbn [fc_l fc_fp fc_at fl_fp]; [lia|]. rewrite <- LD, firstn_all. reflexivity.
Qed.

(** A word none of whose initial parts has the bits of MASK_S clear. *)
Definition misses (g : list Z) (u : list byte) : Prop :=
  forall i, (i < length u)%nat -> ~ bits_clear (power_sum 2 (table_at g) 0 (rev (firstn (S i) u)) mod 2 ^ 64) MASK_S.

(** Where a chunk is forced when [max < normal]. *)
Definition forced_at (min max : Z) : Z := Z.max (min + 1) max.

(** The configuration with the same cuts, if there is one. *)
Definition fc_same (p : FastCdc) : FastCdc :=
  let m := if fc_normal_size p <=? fc_min_size p then fc_min_size p else forced_at (fc_min_size p) (fc_max_size p) in
  fastcdc_new (fc_gear p) (fc_min_size p) m m.

Lemma fc_hit_misses : forall p D o, 0 <= fc_min_size p -> (Z.to_nat (fc_min_size p) <= o < length D)%nat -> Z.of_nat o < fc_normal_size p ->
  (forall j, (Z.to_nat (fc_min_size p) <= j <= o)%nat -> ~ fc_hit p D j) <->
  misses (fc_gear p) (skipn (Z.to_nat (fc_min_size p)) (firstn (S o) D)).
Proof.
  intros p D o Hm Ho Hn. set (m := Z.to_nat (fc_min_size p)) in *.
  assert (L : length (skipn m (firstn (S o) D)) = (S o - m)%nat) by (rewrite skipn_length, firstn_length; lia).
  assert (E : forall i, (i < S o - m)%nat -> firstn (S i) (skipn m (firstn (S o) D)) = skipn m (firstn (S (m + i)) D)).
  { intros i Hi. rewrite firstn_skipn_comm, firstn_firstn. do 2 f_equal. lia. }
  assert (M : forall j, (j <= o)%nat -> fastcdc_mask (fc_normal_size p) j = MASK_S).
  { intros j Hj. unfold fastcdc_mask. destruct (Z.ltb_spec (Z.of_nat j) (fc_normal_size p)); [reflexivity|lia]. }
  split.
  - intros A i Hi. rewrite L in Hi. rewrite E by lia. specialize (A (m + i)%nat ltac:(lia)). unfold fc_hit, fastcdc_fingerprint in A. fold m in A. rewrite M in A by lia. exact A.
  - intros A j Hj. unfold fc_hit, fastcdc_fingerprint. fold m. rewrite M by lia. specialize (A (j - m)%nat ltac:(lia)). rewrite E in A by lia.
    replace (S (m + (j - m)))%nat with (S j) in A by lia. exact A.
Qed.

Section Same.
  Variable p : FastCdc.
  Let min := fc_min_size p.
  Let m := Z.to_nat min.
  Let stop := fc_stop (fc_same p).
  Hypothesis Hg : length (fc_gear p) = 256%nat.
  Hypothesis Hmin : 0 <= fc_min_size p.
  Hypothesis Hmax : fc_max_size p < fc_normal_size p.

  (** The order does not matter, or at most one byte is pushed. *)
  Lemma fc_same_call : forall s h c d, fc_rel p s c -> (forall n, ~ fc_first (fc_same p) h c n) -> below_2_64 (length (h ++ c ++ d)) ->
    (fc_normal_size p <= fc_min_size p + 1 \/
     forall u, Z.of_nat (length u) = forced_at (fc_min_size p) (fc_max_size p) + 1 - fc_min_size p -> ~ misses (fc_gear p) u) \/ (length d <= 1)%nat ->
    (exists n k s', fc_first (fc_same p) h (c ++ d) n /\ n = (length c + k + 0)%nat /\ fastcdc_state_push p s d = Ok (s', Some k) /\ fc_rel p s' []) \/
    (exists s', (forall n, ~ fc_first (fc_same p) h (c ++ d) n) /\ fastcdc_state_push p s d = Ok (s', None) /\ fc_rel p s' (c ++ d)).
  Proof.
    intros s h c d R HN Hlim Hsame. assert (Hcd : below_2_64 (length (c ++ d))) by (unfold below_2_64 in *; rewrite app_length in Hlim; lia).
    assert (LD : length (c ++ d) = (length c + length d)%nat) by apply app_length.
    set (q := fc_same p) in *. assert (Qm : fc_min_size q = fc_min_size p) by reflexivity.
    assert (None_stop : forall j, (Z.to_nat (fc_min_size p) <= j < Nat.max (Z.to_nat (fc_min_size p)) (length c))%nat -> ~ fc_stop q (c ++ d) j).
    { intros j Hj. rewrite fc_stop_app by lia. apply (fc_none_stop q h); [rewrite Qm; lia|exact HN|rewrite Qm; lia]. }
    assert (Mk : forall o, fc_min_size p < Z.of_nat (length (c ++ d)) -> fc_min_size p <= Z.of_nat o -> (o <= length (c ++ d))%nat -> fc_stop q (c ++ d) o ->
              (forall j, (Nat.max (Z.to_nat (fc_min_size p)) (length c) <= j < o)%nat -> ~ fc_stop q (c ++ d) j) -> fc_first q h (c ++ d) o).
    { intros o G1 G2 G3 G4 G5. split; [exact G1|]. split; [change (fc_min_size p <= Z.of_nat o <= Z.of_nat (length (c ++ d))); lia|]. split; [exact G4|].
      intros j Hj. change (fc_min_size q) with (fc_min_size p) in Hj. destruct (Nat.lt_ge_cases j (Nat.max (Z.to_nat (fc_min_size p)) (length c))) as [X|X]; [apply None_stop; lia|apply G5; lia]. }
    destruct (fc_call p s c d Hg Hmin R Hcd) as [(G & s' & E & R')|(G & H)].
    { right. exists s'. split; [|split; [exact E|exact R']]. intros n (X & _). change (fc_min_size q) with (fc_min_size p) in X. lia. }
    cbv zeta in H. set (a := Nat.max (Z.to_nat (fc_min_size p)) (length c)) in *.
    destruct (Z.leb_spec (fc_normal_size p) (fc_min_size p)) as [Hn|Hn].
    - (* every chunk has [min] bytes *)
      assert (Qmax : fc_max_size q = fc_min_size p) by (unfold q, fc_same; cbn [fastcdc_new fc_max_size]; destruct (Z.leb_spec (fc_normal_size p) (fc_min_size p)); [reflexivity|lia]).
      assert (Hc : (length c <= Z.to_nat (fc_min_size p))%nat).
      { destruct (Nat.le_gt_cases (length c) (Z.to_nat (fc_min_size p))) as [X|X]; [exact X|]. exfalso.
        apply (fc_none_stop q h c ltac:(rewrite Qm; lia) HN (Z.to_nat (fc_min_size p))); [rewrite Qm; lia|]. left. change (fc_max_size q <= Z.of_nat (Z.to_nat (fc_min_size p))). lia. }
      assert (Ha : a = Z.to_nat (fc_min_size p)) by (unfold a; lia).
      destruct H as [(k & K1 & _ & K3 & _)|[(k & K1 & K2 & K3 & K4 & E)|(s' & K1 & _)]]; [lia| |lia].
      left. exists (length c + k)%nat, k, fastcdc_state_default. split; [|split; [lia|split; [exact E|apply fc_default_rel]]].
      assert (O : (length c + k)%nat = a). { destruct (Nat.eq_dec (length c + k) a) as [X|X]; [exact X|]. destruct (K4 a ltac:(lia)) as [_ Y]. lia. }
      apply Mk; [exact G|lia|lia|left; change (fc_max_size q <= Z.of_nat (length c + k)); lia|intros j Hj; lia].
    - set (L1 := forced_at (fc_min_size p) (fc_max_size p)) in *.
      assert (Qmax : fc_max_size q = L1 /\ fc_normal_size q = L1) by (unfold q, fc_same; cbn [fastcdc_new fc_max_size fc_normal_size]; destruct (Z.leb_spec (fc_normal_size p) (fc_min_size p)); [lia|split; reflexivity]).
      destruct Qmax as [Qmax Qnorm]. assert (HL1 : fc_min_size p < L1 <= fc_normal_size p) by (unfold L1, forced_at; lia).
      assert (HLm : fc_max_size p <= L1) by (unfold L1, forced_at; lia).
      assert (Hits : forall o, Z.of_nat o < L1 -> (fc_hit q (c ++ d) o <-> fc_hit p (c ++ d) o)).
      { intros o Ho. unfold fc_hit. rewrite Qnorm. change (fc_gear q) with (fc_gear p). change (fc_min_size q) with (fc_min_size p).
        unfold fastcdc_mask. destruct (Z.ltb_spec (Z.of_nat o) L1), (Z.ltb_spec (Z.of_nat o) (fc_normal_size p)); try lia; reflexivity. }
      assert (Stop : forall o, Z.of_nat o < L1 -> ~ fc_hit p (c ++ d) o -> ~ fc_stop q (c ++ d) o).
      { intros o Ho A [X|[_ X]]; [change (fc_max_size q <= Z.of_nat o) in X; lia|]. apply A, (Hits o Ho), X. }
      assert (Hc : (a <= Z.to_nat L1)%nat).
      { unfold a. destruct (Nat.le_gt_cases (length c) (Z.to_nat L1)) as [X|X]; [lia|]. exfalso.
        apply (fc_none_stop q h c ltac:(rewrite Qm; lia) HN (Z.to_nat L1)); [rewrite Qm; lia|]. left. change (fc_max_size q <= Z.of_nat (Z.to_nat L1)). lia. }
      assert (Bef : forall j, (Z.to_nat (fc_min_size p) <= j < a)%nat -> ~ fc_hit p (c ++ d) j).
      { intros j Hj X. apply (None_stop j Hj). right. split; [unfold a in Hj; lia|]. apply Hits; [lia|exact X]. }
      (* no chunk goes beyond [L1] *)
      assert (Cap : forall o, (a <= o <= length (c ++ d))%nat -> (forall j, (a <= j < o)%nat -> ~ fc_hit p (c ++ d) j /\ (Z.of_nat j < fc_normal_size p \/ Z.of_nat j < fc_max_size p)) -> Z.of_nat o <= L1).
      { intros o Ho A. destruct (Z.le_gt_cases (Z.of_nat o) L1) as [X|X]; [exact X|]. exfalso.
        destruct Hsame as [Hsame|Hone].
        2: { assert (fc_min_size p < Z.of_nat (length c)) by (unfold a in *; lia).
             apply (fc_none_stop q h c ltac:(rewrite Qm; lia) HN (Z.to_nat L1)); [rewrite Qm; lia|]. left. change (fc_max_size q <= Z.of_nat (Z.to_nat L1)). lia. }
        destruct (A (Z.to_nat L1) ltac:(lia)) as [_ Y]. destruct Hsame as [Hs|Hs]; [lia|].
        apply (Hs (skipn (Z.to_nat (fc_min_size p)) (firstn (S (Z.to_nat L1)) (c ++ d)))); [rewrite skipn_length, firstn_length; fold L1; lia|].
        apply fc_hit_misses; [exact Hmin|lia|lia|]. intros j Hj. destruct (Nat.lt_ge_cases j a) as [Z|Z]; [apply Bef; lia|apply A; lia]. }
      destruct H as [(k & K1 & K2 & K3 & K4 & E)|[(k & K1 & K2 & K3 & K4 & E)|(s' & K1 & K2 & E & R')]].
      + left. exists (length c + k)%nat, k, fastcdc_state_default. split; [|split; [lia|split; [exact E|apply fc_default_rel]]].
        assert (C := Cap (length c + k)%nat ltac:(lia) K4). apply Mk; [exact G|lia|lia| |].
        * destruct (Z.eq_dec (Z.of_nat (length c + k)) L1) as [X|X]; [left; change (fc_max_size q <= Z.of_nat (length c + k)); lia|].
          right. split; [lia|]. apply Hits; [lia|exact K2].
        * intros j Hj. apply Stop; [lia|]. apply K4. lia.
      + left. exists (length c + k)%nat, k, fastcdc_state_default. split; [|split; [lia|split; [exact E|apply fc_default_rel]]].
        assert (C := Cap (length c + k)%nat ltac:(lia) K4).
        assert (O : Z.of_nat (length c + k) = L1) by (unfold L1, forced_at in *; lia).
        apply Mk; [exact G|lia|lia|left; change (fc_max_size q <= Z.of_nat (length c + k)); lia|].
        intros j Hj. apply Stop; [lia|]. apply K4. lia.
      + right. exists s'. split; [|split; [exact E|exact R']]. intros n (X1 & X2 & X3 & X4). change (fc_min_size q) with (fc_min_size p) in *.
        destruct X3 as [X3|[X3 X5]]; [change (fc_max_size q <= Z.of_nat n) in X3; lia|].
        change (fc_hit q (c ++ d) n) in X5. rewrite Hits in X5 by lia.
        destruct (Nat.lt_ge_cases n a) as [Y|Y]; [apply (Bef n); [lia|exact X5]|apply (K2 n); [lia|exact X5]].
  Qed.

  Hypothesis Hsame : fc_normal_size p <= fc_min_size p + 1 \/
    forall u, Z.of_nat (length u) = forced_at (fc_min_size p) (fc_max_size p) + 1 - fc_min_size p -> ~ misses (fc_gear p) u.

  Lemma fc_same_push : push_ok 0 (fastcdc_state_push p) (fc_first (fc_same p)) below_2_64 (fun s _ c => fc_rel p s c).
  Proof. intros s h c d R HN Hlim. exact (fc_same_call s h c d R HN Hlim (or_introl Hsame)). Qed.
End Same.

(** ** No empty chunks *)
Definition fc_moves (p : FastCdc) : Prop :=
  1 <= fc_min_size p \/
  ((0 < fc_normal_size p \/ 0 < fc_max_size p) /\ forall b, ~ bits_clear (table_at (fc_gear p) b) (fastcdc_mask (fc_normal_size p) 0)).

Lemma fc_hit_first : forall p b d, fc_min_size p = 0 -> (forall x, In x (fc_gear p) -> is_u64 x) ->
  (fc_hit p (b :: d) 0 <-> bits_clear (table_at (fc_gear p) b) (fastcdc_mask (fc_normal_size p) 0)).
Proof.
  intros p b d Hm Hu. unfold fc_hit, fastcdc_fingerprint. rewrite Hm. cbn [Z.to_nat skipn firstn rev app power_sum Z.of_nat]. change (2 ^ 0) with 1.
  rewrite Z.mul_1_l, Z.add_0_r, Z.mod_small; [reflexivity|]. unfold table_at. destruct (nth_in_or_default (Z.to_nat (b2z b)) (fc_gear p) 0) as [X| ->]; [exact (Hu _ X)|lia].
Qed.

Lemma fc_moves_progressive : forall p, 0 <= fc_min_size p -> fc_normal_size p <= fc_max_size p -> (forall x, In x (fc_gear p) -> is_u64 x) -> fc_moves p -> progressive (fc_first p).
Proof.
  intros p Hm Hn Hu M h d n F. destruct n as [|n]; [|lia]. exfalso. destruct F as (F1 & F2 & F3 & _). destruct M as [M|[M1 M2]]; [lia|].
  destruct F3 as [F3|[F3 F4]]; [lia|]. destruct d as [|b d]; [cbn in F3; lia|]. apply (M2 b). apply (fc_hit_first p b d); [lia|exact Hu|exact F4].
Qed.

Definition slicing_free (p : FastCdc) : Prop := forall data sched1 sched2, below_2_64 (length data) -> exists r1 r2,
  run_incr 0 (fastcdc_incr p) data (sched1 ++ drain data) = Ok r1 /\ run_incr 0 (fastcdc_incr p) data (sched2 ++ drain data) = Ok r2 /\ r_cuts r1 = r_cuts r2.

Lemma conforms_free : forall p first, incr_conforms 0 (fastcdc_incr p) first below_2_64 -> slicing_free p.
Proof.
  intros p first H data sched1 sched2 Hl. destruct (H data Hl) as (cs & _ & K).
  destruct (K sched1) as [_ (r1 & E1 & C1 & _)], (K sched2) as [_ (r2 & E2 & C2 & _)]. exists r1, r2. split; [exact E1|]. split; [exact E2|congruence].
Qed.

(** No empty chunk, and the sizes in order, or a chunk always ended before the order matters. *)
Definition fc_independent (p : FastCdc) : Prop :=
  fc_moves p /\
  (fc_normal_size p <= fc_max_size p \/ fc_normal_size p <= fc_min_size p + 1 \/
   forall u, Z.of_nat (length u) = forced_at (fc_min_size p) (fc_max_size p) + 1 - fc_min_size p -> ~ misses (fc_gear p) u).

Lemma fc_independent_free : forall p, length (fc_gear p) = 256%nat -> (forall x, In x (fc_gear p) -> is_u64 x) -> 0 <= fc_min_size p -> 0 <= fc_max_size p ->
  fc_independent p -> slicing_free p.
Proof.
  intros p Hg Hu Hm Hmx [M O]. destruct (Z.le_gt_cases (fc_normal_size p) (fc_max_size p)) as [X|X].
  - apply (conforms_free p (fc_first p)).
    exact (incr_conforms_of 0 (fastcdc_incr p) _ _ _ (fc_laws p Hm) (fc_moves_progressive p Hm X Hu M) below_down (fc_push_ok p (conj Hg (conj Hm X))) (fc_default_rel p)).
  - assert (O' : fc_normal_size p <= fc_min_size p + 1 \/ forall u, Z.of_nat (length u) = forced_at (fc_min_size p) (fc_max_size p) + 1 - fc_min_size p -> ~ misses (fc_gear p) u)
      by (destruct O as [O|O]; [lia|exact O]).
    apply (conforms_free p (fc_first (fc_same p))).
    refine (incr_conforms_of 0 (fastcdc_incr p) _ _ _ (fc_laws (fc_same p) Hm) (fc_moves_progressive (fc_same p) Hm _ Hu _) below_down (fc_same_push p Hg Hm X O') (fc_default_rel p)).
    + unfold fc_same. cbn [fastcdc_new fc_normal_size fc_max_size]. lia.
    + destruct M as [M|[_ M2]]; [now left|]. destruct (Z.le_gt_cases 1 (fc_min_size p)) as [Y|Y]; [now left|]. right.
      unfold fc_same. cbn [fastcdc_new fc_normal_size fc_max_size fc_gear]. destruct (Z.leb_spec (fc_normal_size p) (fc_min_size p)) as [W|W]; [lia|].
      assert (F : 0 < forced_at (fc_min_size p) (fc_max_size p)) by (unfold forced_at; lia). split; [left; exact F|].
      intros b B. apply (M2 b). unfold fastcdc_mask in *. cbn [Z.of_nat] in *. destruct (Z.ltb_spec 0 (forced_at (fc_min_size p) (fc_max_size p))); [|lia].
      destruct (Z.ltb_spec 0 (fc_normal_size p)); [exact B|lia].
Qed.

(** *** The converse *)
Lemma run_head : forall p data n sched k s, (n <= length data)%nat -> fastcdc_state_push p fastcdc_state_default (firstn n data) = Ok (s, Some k) -> (k <= n)%nat ->
  forall r, run_incr 0 (fastcdc_incr p) data (n :: sched) = Ok r -> exists t, r_cuts r = k :: t.
Proof.
  intros p data n sched k s Hn E Hk r H. unfold run_incr in H. cbn [fastcdc_incr incr_push incr_new incr_state drive_push skipn] in H. rewrite E in H. cbn [bind] in H.
  rewrite firstn_length, Nat.min_l in H by lia. destruct (Nat.ltb_spec n (k + 0)) as [X|X]; [lia|]. cbn [Nat.add] in H. rewrite Nat.add_0_r in H.
  destruct (drive_push 0 _ _ _ _ _ _ _) as [r'| |]; cbn [bind] in H; try discriminate H. inversion H. exists (r_cuts r'). reflexivity.
Qed.

Lemma free_order : forall p u, length (fc_gear p) = 256%nat -> 0 <= fc_min_size p -> 0 <= fc_max_size p -> fc_normal_size p < 2 ^ 64 ->
  fc_max_size p < fc_normal_size p -> fc_min_size p + 1 < fc_normal_size p ->
  Z.of_nat (length u) = forced_at (fc_min_size p) (fc_max_size p) + 1 - fc_min_size p -> misses (fc_gear p) u -> ~ slicing_free p.
Proof.
  intros p u Hg Hm Hmx Hn X1 X2 Hu Mu Free. set (L1 := forced_at (fc_min_size p) (fc_max_size p)) in *.
  assert (HL : fc_min_size p < L1 < fc_normal_size p /\ fc_max_size p <= L1) by (unfold L1, forced_at; lia).
  set (data := repeat x00 (Z.to_nat (fc_min_size p)) ++ u).
  assert (Ld : Z.of_nat (length data) = L1 + 1) by (unfold data; rewrite app_length, repeat_length; lia).
  assert (Hit : forall j e, (Z.to_nat (fc_min_size p) <= j < e)%nat -> (e <= length data)%nat -> ~ fc_hit p (firstn e data) j).
  { intros j e Hj He F.
    assert (K := proj2 (fc_hit_misses p data (Z.to_nat L1) Hm ltac:(lia) ltac:(lia))). apply (fun H => K H j ltac:(lia)).
    - rewrite (firstn_all2 (n := S (Z.to_nat L1))) by lia. unfold data. rewrite skipn_app_ge by (rewrite repeat_length; lia). rewrite repeat_length, Nat.sub_diag. exact Mu.
    - rewrite <- (firstn_skipn e data). unfold fc_hit in *. rewrite fc_fingerprint_app; [exact F|]. rewrite firstn_length. lia. }
  assert (Call : forall e, L1 <= Z.of_nat e -> (e <= length data)%nat -> fastcdc_state_push p fastcdc_state_default (firstn e data) = Ok (fastcdc_state_default, Some e)).
  { intros e He1 He2. assert (Le : length (firstn e data) = e) by (rewrite firstn_length; lia).
    destruct (fc_call p fastcdc_state_default [] (firstn e data) Hg Hm (fc_default_rel p) ltac:(unfold below_2_64; cbn [app]; rewrite Le; lia)) as [(G & _)|(G & H)];
      cbn [app] in *; rewrite ?Le in *; [lia|]. cbv zeta in H. cbn [length Nat.add] in H. rewrite Nat.max_0_r in H.
    destruct H as [(k & K1 & K2 & _)|[(k & K1 & K2 & K3 & K4 & E)|(s' & K1 & _)]]; [elim (Hit k e ltac:(lia) He2 K2)| |lia].
    assert (k = e) by lia. subst k. exact E. }
  destruct (Free data [length data] [Z.to_nat L1] ltac:(unfold below_2_64; lia)) as (r1 & r2 & E1 & E2 & C).
  cbn [app] in E1, E2.
  destruct (run_head p data (length data) _ (length data) fastcdc_state_default ltac:(lia) (Call (length data) ltac:(lia) ltac:(lia)) ltac:(lia) r1 E1) as [t1 T1].
  destruct (run_head p data (Z.to_nat L1) _ (Z.to_nat L1) fastcdc_state_default ltac:(lia) (Call (Z.to_nat L1) ltac:(lia) ltac:(lia)) ltac:(lia) r2 E2) as [t2 T2].
  rewrite T1, T2 in C. inversion C. lia.
Qed.

Lemma stuck_cuts : forall p b, fastcdc_state_push p fastcdc_state_default [b] = Ok (fastcdc_state_default, Some 0%nat) ->
  forall n seen none r, drive_push 0 (fastcdc_state_push p) [b] (repeat 1%nat n) fastcdc_state_default 0 seen none = Ok r -> length (r_cuts r) = n.
Proof.
  intros p b E. induction n as [|n IH]; intros seen none r H; cbn [repeat drive_push skipn firstn] in H; [inversion H; reflexivity|].
  rewrite E in H. cbn [bind length Nat.add Nat.ltb Nat.leb] in H.
  destruct (drive_push 0 _ _ _ _ _ _ _) as [r'| |] eqn:D; cbn [bind] in H; try discriminate H. inversion H. cbn [add_cut r_cuts length]. f_equal. exact (IH _ _ _ D).
Qed.

Lemma free_moves : forall p b, length (fc_gear p) = 256%nat -> fc_min_size p = 0 ->
  fc_hit p [b] 0 \/ (fc_normal_size p <= 0 /\ fc_max_size p <= 0) -> ~ slicing_free p.
Proof.
  intros p b Hg Hm H Free.
  assert (E : fastcdc_state_push p fastcdc_state_default [b] = Ok (fastcdc_state_default, Some 0%nat)).
  { destruct (fc_call p fastcdc_state_default [] [b] Hg ltac:(lia) (fc_default_rel p) ltac:(unfold below_2_64; cbn; lia)) as [(G & _)|(G & K)]; cbn [app] in *; [cbn [length] in G; lia|].
    cbv zeta in K. rewrite Hm in K. cbn [length Nat.add Z.to_nat Nat.max] in K.
    destruct K as [(k & K1 & _ & _ & _ & E)|[(k & K1 & K2 & K3 & K4 & E)|(s' & K1 & K2 & _)]].
    - assert (k = 0%nat) by lia. now subst k.
    - destruct k as [|k]; [exact E|]. exfalso. destruct (K4 0%nat ltac:(lia)) as [Y1 Y2]. destruct H as [H|H]; [exact (Y1 H)|lia].
    - exfalso. destruct H as [H|H]; [exact (K2 0%nat ltac:(lia) H)|cbn [length Z.of_nat] in K1; lia]. }
  destruct (Free [b] [] [1%nat] ltac:(unfold below_2_64; cbn; lia)) as (r1 & r2 & E1 & E2 & C). unfold run_incr in E1, E2.
  assert (A1 : length (r_cuts r1) = 2%nat) by exact (stuck_cuts p b E 2 _ _ _ E1). assert (A2 : length (r_cuts r2) = 3%nat) by exact (stuck_cuts p b E 3 _ _ _ E2).
  rewrite C in A1. congruence.
Qed.

Theorem fc_free_iff : forall p, length (fc_gear p) = 256%nat -> (forall x, In x (fc_gear p) -> is_u64 x) -> 0 <= fc_min_size p -> 0 <= fc_max_size p -> fc_normal_size p < 2 ^ 64 ->
  (slicing_free p <-> fc_independent p).
Proof.
  intros p Hg Hu Hm Hmx Hn. split; [|now apply fc_independent_free]. intros Free. split.
  - destruct (Z.le_gt_cases 1 (fc_min_size p)) as [X|X]; [now left|]. right. split.
    + destruct (Z.lt_ge_cases 0 (fc_normal_size p)) as [Y|Y]; [now left|]. destruct (Z.lt_ge_cases 0 (fc_max_size p)) as [W|W]; [now right|]. exfalso.
      apply (free_moves p x00 Hg ltac:(lia) (or_intror (conj Y W)) Free).
    + intros b B. apply (free_moves p b Hg ltac:(lia)); [|exact Free]. left. apply (fc_hit_first p b []); [lia|exact Hu|exact B].
  - destruct (Z.le_gt_cases (fc_normal_size p) (fc_max_size p)) as [X|X]; [now left|]. right.
    destruct (Z.le_gt_cases (fc_normal_size p) (fc_min_size p + 1)) as [Y|Y]; [now left|]. right. intros u Lu Mu.
    exact (free_order p u Hg Hm Hmx Hn X ltac:(lia) Lu Mu Free).
Qed.

(** The crate's own table has words without a stop of every length. *)
Lemma power_sum_repeat : forall f b n age, power_sum 2 f age (repeat b n) = 2 ^ Z.of_nat age * f b * (2 ^ Z.of_nat n - 1).
Proof.
  intros f b. induction n as [|n IH]; intros age; cbn [repeat power_sum]; [change (2 ^ Z.of_nat 0) with 1; lia|].
  rewrite IH, !Nat2Z.inj_succ, !Z.pow_succ_r by lia. lia.
Qed.
Lemma rev_repeat_byte : forall (b : byte) n, rev (repeat b n) = repeat b n.
Proof.
  intros b. induction n as [|n IH]; [reflexivity|]. cbn [repeat rev]. rewrite IH. symmetry. apply repeat_cons.
Qed.
Lemma gear64_misses : forall n, misses GEAR_64 (repeat x00 n).
Proof.
  intros n i Hi C. rewrite repeat_length in Hi. assert (E : firstn (S i) (repeat x00 n) = repeat x00 (S i)).
  { replace n with (S i + (n - S i))%nat by lia. rewrite repeat_app, firstn_app_le by (rewrite repeat_length; lia). rewrite firstn_all2; [reflexivity|rewrite repeat_length; lia]. }
  rewrite E, rev_repeat_byte, power_sum_repeat in C. apply land_zero_clear in C; [|unfold MASK_S; lia]. revert C.
  change (2 ^ Z.of_nat 0) with 1. rewrite Z.mul_1_l.
  destruct (Nat.le_gt_cases (S i) 64) as [G|G].
  - assert (F : forallb (fun k => negb (Z.land ((table_at GEAR_64 x00 * (2 ^ Z.of_nat k - 1)) mod 2 ^ 64) MASK_S =? 0)) (seq 1 64) = true) by (vm_compute; reflexivity).
    rewrite forallb_forall in F. specialize (F (S i) ltac:(apply in_seq; lia)). intros C. rewrite C in F. discriminate F.
  - replace ((table_at GEAR_64 x00 * (2 ^ Z.of_nat (S i) - 1)) mod 2 ^ 64) with ((- table_at GEAR_64 x00) mod 2 ^ 64); [vm_compute; discriminate|].
    replace (Z.of_nat (S i)) with (64 + (Z.of_nat (S i) - 64)) by lia. rewrite Z.pow_add_r by lia.
    replace (table_at GEAR_64 x00 * (2 ^ 64 * 2 ^ (Z.of_nat (S i) - 64) - 1)) with (- table_at GEAR_64 x00 + table_at GEAR_64 x00 * 2 ^ (Z.of_nat (S i) - 64) * 2 ^ 64) by ring.
    symmetry. apply Z.mod_add. lia.
Qed.
