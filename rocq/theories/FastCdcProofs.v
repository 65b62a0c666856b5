(** * FastCdcProofs: the cut rule of FastCdc. *)

From Verif Require Import Base Api Tables Spec Lists Contract Step Words FastCdc.

(** What [push] needs of a configuration. *)
Definition fastcdc_ok (p : FastCdc) : Prop :=
  length (fc_gear p) = 256%nat /\ 0 <= fc_min_size p /\ fc_normal_size p <= fc_max_size p.

Definition fc_first (p : FastCdc) : first_rel := fastcdc_first (fc_gear p) (fc_min_size p) (fc_normal_size p) (fc_max_size p).
Definition fc_stop (p : FastCdc) := fastcdc_stop (fc_gear p) (fc_min_size p) (fc_normal_size p) (fc_max_size p).
Definition fc_hit (p : FastCdc) (D : list byte) (i : nat) : Prop :=
  bits_clear (fastcdc_fingerprint (fc_gear p) (Z.to_nat (fc_min_size p)) i D) (fastcdc_mask (fc_normal_size p) i).

(** The hash of the bytes from [min] on. *)
Definition fc_hash (p : FastCdc) (c : list byte) : Z :=
  power_sum 2 (table_at (fc_gear p)) 0 (rev (skipn (Z.to_nat (fc_min_size p)) c)) mod 2 ^ 64.

(** ** The laws of the cut relation *)
Lemma fc_fingerprint_app : forall gear min i D e, (i < length D)%nat ->
  fastcdc_fingerprint gear min i (D ++ e) = fastcdc_fingerprint gear min i D.
Proof. intros gear min i D e H. unfold fastcdc_fingerprint. now rewrite firstn_app_le by lia. Qed.

Lemma fc_stop_app : forall p D e i, (i < length D)%nat -> (fc_stop p (D ++ e) i <-> fc_stop p D i).
Proof.
  intros p D e i H. unfold fc_stop, fastcdc_stop. rewrite fc_fingerprint_app, app_length by exact H.
  split; intros [X|[_ X]]; auto; right; (split; [lia|exact X]).
Qed.

Lemma fc_stop_ext : forall p D e i, fc_stop p D i -> fc_stop p (D ++ e) i.
Proof.
  intros p D e i [X|[Y X]]; [now left|]. apply fc_stop_app; [exact Y|]. now right.
Qed.

Lemma fc_laws : forall p, 0 <= fc_min_size p -> first_laws (fc_first p).
Proof.
  intros p Hmin. constructor.
  - intros h d n (H1 & H2 & _). lia.
  - intros h n (H1 & _). simpl in H1. lia.
  - intros h d n m (_ & H2 & Hs & Hn) (_ & H2' & Hs' & Hn').
    destruct (lt_eq_lt_dec n m) as [[G|G]|G]; [|exact G|]; exfalso.
    + apply (Hn' n); [lia|exact Hs].
    + apply (Hn m); [lia|exact Hs'].
  - intros h d e n (H1 & H2 & Hs & Hn). unfold fc_first, fastcdc_first. rewrite app_length. split; [lia|]. split; [lia|].
    split; [now apply fc_stop_ext|]. intros m Hm X. apply (Hn m Hm). apply (fc_stop_app p d e); [lia|exact X].
  - intros h d e n (H1 & H2 & Hs & Hn) Hl. split; [lia|]. split; [lia|].
    split; [now apply (fc_stop_app p d e)|]. intros m Hm X. apply (Hn m Hm). now apply (fc_stop_ext p d e).
Qed.

Lemma fc_progressive : forall p, 1 <= fc_min_size p -> progressive (fc_first p).
Proof. intros p H h d n (_ & X & _). lia. Qed.

Lemma fc_none_stop : forall p h c, fc_min_size p < Z.of_nat (length c) -> (forall n, ~ fc_first p h c n) ->
  forall m, fc_min_size p <= Z.of_nat m <= Z.of_nat (length c) -> ~ fc_stop p c m.
Proof.
  intros p h c Hc HN m. induction m as [m IH] using lt_wf_ind. intros Hm Hs.
  apply (HN m). split; [exact Hc|]. split; [lia|]. split; [exact Hs|]. intros j Hj. apply IH; lia.
Qed.

(** ** One step of the hash *)
Lemma fc_roll : forall p D gi v, length (fc_gear p) = 256%nat -> (Z.to_nat (fc_min_size p) <= gi)%nat ->
  nth_error D gi = Some v ->
  fastcdc_roll p (fc_hash p (firstn gi D)) v = Ok (fc_hash p (firstn (S gi) D)).
Proof.
  intros p D gi v Hg Hm Hv. unfold fastcdc_roll. rewrite index_table by exact Hg. cbn [bind]. f_equal.
  unfold fc_hash. rewrite (firstn_S_snoc _ _ _ _ Hv).
  assert (Hl : (gi < length D)%nat) by (apply nth_error_Some; congruence).
  rewrite skipn_app_le by (rewrite firstn_length; lia). rewrite rev_app_distr. cbn [rev app]. rewrite power_sum_cons.
  unfold wrap64, two64. rewrite Z.shiftl_mul_pow2 by lia. change (2 ^ 1) with 2. solve_mod.
Qed.

Lemma fc_hit_spec : forall p D gi, (fc_hit p D gi <-> Z.land (fc_hash p (firstn (S gi) D)) (fastcdc_mask (fc_normal_size p) gi) = 0).
Proof.
  intros p D gi. unfold fc_hit. symmetry. apply land_zero_clear. unfold fastcdc_mask. destruct (_ <? _); lia.
Qed.

Lemma nth_error_app_shift : forall A (c d : list A) i, nth_error (c ++ d) (length c + i) = nth_error d i.
Proof. intros A c d i. rewrite nth_error_app2 by lia. f_equal. lia. Qed.

(** ** The two loops *)
Section Loops.
  Variable p : FastCdc.
  Variables c d : list byte.
  Let D := c ++ d.
  Hypothesis Hg : length (fc_gear p) = 256%nat.
  Hypothesis Hlim : Z.of_nat (length D) < 2 ^ 64.

  Definition fc_at (i : nat) : FcLocals :=
    {| fl_gi := Z.of_nat (length c + i); fl_i := i; fl_fp := fc_hash p (firstn (length c + i) D) |}.

  Lemma fc_next : forall i v, (i < length d)%nat -> nth_error d i = Some v -> (Z.to_nat (fc_min_size p) <= length c + i)%nat ->
    fastcdc_roll p (fl_fp (fc_at i)) v = Ok (fl_fp (fc_at (S i))) /\ add_u64 (fl_gi (fc_at i)) 1 = Ok (fl_gi (fc_at (S i))).
  Proof.
    intros i v Hi Hv Hm. cbn [fc_at fl_fp fl_gi]. split.
    - rewrite (fc_roll p D (length c + i) v Hg Hm); [|unfold D; now rewrite nth_error_app_shift].
      do 3 f_equal. lia.
    - unfold add_u64, two64. unfold D in Hlim. rewrite app_length in Hlim.
      replace (Z.of_nat (length c + i) + 1 <? 2 ^ 64) with true by (symmetry; apply Z.ltb_lt; lia).
      f_equal. lia.
  Qed.

  Lemma fc_loop1 : forall fuel i, (i <= length d)%nat -> (length d - i < fuel)%nat ->
    (Z.to_nat (fc_min_size p) <= length c + i)%nat ->
    (exists k x, (i <= k < length d)%nat /\ Z.of_nat (length c + k) < fc_normal_size p /\ fc_hit p D (length c + k) /\
       (forall j, (i <= j < k)%nat -> ~ fc_hit p D (length c + j)) /\
       loop fuel (fastcdc_loop1 p d) (fc_at i) = Ok (Return x k)) \/
    (exists k, (i <= k <= length d)%nat /\ (k = length d \/ fc_normal_size p <= Z.of_nat (length c + k)) /\
       (forall j, (i <= j < k)%nat -> Z.of_nat (length c + j) < fc_normal_size p /\ ~ fc_hit p D (length c + j)) /\
       loop fuel (fastcdc_loop1 p d) (fc_at i) = Ok (Break (fc_at k))).
  Proof.
    induction fuel as [|fuel IH]; intros i Hi Hf Hm; [lia|]. cbn [loop]. unfold fastcdc_loop1 at 1 3.
    change (fl_i (fc_at i)) with i. change (fl_gi (fc_at i)) with (Z.of_nat (length c + i)).
    destruct (Nat.leb_spec (length d) i) as [G|G]; cbn [bind].
    { right. exists i. split; [lia|]. split; [left; lia|]. split; [intros; lia|reflexivity]. }
    destruct (Z.leb_spec (fc_normal_size p) (Z.of_nat (length c + i))) as [G2|G2]; cbn [bind].
    { right. exists i. split; [lia|]. split; [right; lia|]. split; [intros; lia|reflexivity]. }
    destruct (index_lt _ d i G) as (v & Hv & ->). cbn [bind].
    destruct (fc_next i v G Hv Hm) as [-> E2]. cbn [bind].
    change (fl_gi (fc_at i)) with (Z.of_nat (length c + i)) in E2.
    assert (EM : fastcdc_mask (fc_normal_size p) (length c + i) = MASK_S).
    { unfold fastcdc_mask. now replace (Z.of_nat (length c + i) <? fc_normal_size p) with true by (symmetry; apply Z.ltb_lt; lia). }
    assert (HH := fc_hit_spec p D (length c + i)). rewrite EM in HH.
    replace (firstn (S (length c + i)) D) with (firstn (length c + S i) D) in HH by (f_equal; lia).
    change (fc_hash p (firstn (length c + S i) D)) with (fl_fp (fc_at (S i))) in HH.
    destruct (Z.eqb_spec (Z.land (fl_fp (fc_at (S i))) MASK_S) 0) as [G3|G3].
    - cbn [bind]. left. exists i, (fc_at i). split; [lia|]. split; [exact G2|]. split; [tauto|]. split; [intros; lia|reflexivity].
    - rewrite E2. cbn [bind].
      replace {| fl_gi := fl_gi (fc_at (S i)); fl_i := (i + 1)%nat; fl_fp := fl_fp (fc_at (S i)) |} with (fc_at (S i))
        by (unfold fc_at; cbn [fl_gi fl_i fl_fp]; f_equal; lia).
      destruct (IH (S i)) as [(k & x & A1 & A2 & A3 & A4 & A5)|(k & A1 & A2 & A3 & A4)]; try lia.
      + left. exists k, x. split; [lia|]. split; [exact A2|]. split; [exact A3|]. split; [|exact A5].
        intros j Hj. destruct (Nat.eq_dec j i) as [->|]; [tauto|]. apply A4. lia.
      + right. exists k. split; [lia|]. split; [exact A2|]. split; [|exact A4].
        intros j Hj. destruct (Nat.eq_dec j i) as [->|]; [tauto|]. apply A3. lia.
  Qed.

  Lemma fc_loop2 : forall fuel i, (i <= length d)%nat -> (length d - i < fuel)%nat ->
    (Z.to_nat (fc_min_size p) <= length c + i)%nat -> (i = length d \/ fc_normal_size p <= Z.of_nat (length c + i)) ->
    (exists k x, (i <= k <= length d)%nat /\
       (fc_max_size p <= Z.of_nat (length c + k) \/ (k < length d)%nat /\ fc_hit p D (length c + k)) /\
       (forall j, (i <= j < k)%nat -> Z.of_nat (length c + j) < fc_max_size p /\ ~ fc_hit p D (length c + j)) /\
       loop fuel (fastcdc_loop2 p d) (fc_at i) = Ok (Return x k)) \/
    (Z.of_nat (length c + length d) < fc_max_size p /\
       (forall j, (i <= j < length d)%nat -> Z.of_nat (length c + j) < fc_max_size p /\ ~ fc_hit p D (length c + j)) /\
       loop fuel (fastcdc_loop2 p d) (fc_at i) = Ok (Break (fc_at (length d)))).
  Proof.
    induction fuel as [|fuel IH]; intros i Hi Hf Hm Hn; [lia|]. cbn [loop]. unfold fastcdc_loop2 at 1 3.
    change (fl_i (fc_at i)) with i. change (fl_gi (fc_at i)) with (Z.of_nat (length c + i)).
    destruct (Z.leb_spec (fc_max_size p) (Z.of_nat (length c + i))) as [G2|G2]; cbn [bind].
    { left. exists i, (fc_at i). split; [lia|]. split; [left; lia|]. split; [intros; lia|reflexivity]. }
    destruct (Nat.leb_spec (length d) i) as [G|G]; cbn [bind].
    { right. assert (i = length d) as -> by lia. split; [lia|]. split; [intros; lia|reflexivity]. }
    destruct (index_lt _ d i G) as (v & Hv & ->). cbn [bind].
    destruct (fc_next i v G Hv Hm) as [-> E2]. cbn [bind].
    change (fl_gi (fc_at i)) with (Z.of_nat (length c + i)) in E2.
    assert (EM : fastcdc_mask (fc_normal_size p) (length c + i) = MASK_L).
    { unfold fastcdc_mask. now replace (Z.of_nat (length c + i) <? fc_normal_size p) with false by (symmetry; apply Z.ltb_ge; lia). }
    assert (HH := fc_hit_spec p D (length c + i)). rewrite EM in HH.
    replace (firstn (S (length c + i)) D) with (firstn (length c + S i) D) in HH by (f_equal; lia).
    change (fc_hash p (firstn (length c + S i) D)) with (fl_fp (fc_at (S i))) in HH.
    destruct (Z.eqb_spec (Z.land (fl_fp (fc_at (S i))) MASK_L) 0) as [G3|G3].
    - cbn [bind]. left. exists i, (fc_at i). split; [lia|]. split; [right; split; [lia|tauto]|]. split; [intros; lia|reflexivity].
    - rewrite E2. cbn [bind].
      replace {| fl_gi := fl_gi (fc_at (S i)); fl_i := (i + 1)%nat; fl_fp := fl_fp (fc_at (S i)) |} with (fc_at (S i))
        by (unfold fc_at; cbn [fl_gi fl_i fl_fp]; f_equal; lia).
      destruct (IH (S i)) as [(k & x & A1 & A2 & A3 & A4)|(A1 & A2 & A3)]; try lia.
      + left. exists k, x. split; [lia|]. split; [exact A2|]. split; [|exact A4].
        intros j Hj. destruct (Nat.eq_dec j i) as [->|]; [split; [lia|tauto]|]. apply A3. lia.
      + right. split; [exact A1|]. split; [|exact A3].
        intros j Hj. destruct (Nat.eq_dec j i) as [->|]; [split; [lia|tauto]|]. apply A2. lia.
  Qed.
End Loops.

(** ** [push] *)
Definition fc_rel (p : FastCdc) (s : FastCdcState) (c : list byte) : Prop :=
  fc_l s = Z.of_nat (length c) /\ fc_fp s = fc_hash p c.

Lemma fc_hash_short : forall p c, Z.of_nat (length c) <= fc_min_size p -> fc_hash p c = 0.
Proof. intros p c H. unfold fc_hash. rewrite skipn_all2 by lia. reflexivity. Qed.

Lemma fc_default_rel : forall p, fc_rel p fastcdc_state_default [].
Proof. intros p. split; [reflexivity|]. unfold fc_hash. rewrite skipn_nil. reflexivity. Qed.

Lemma fc_push_ok : forall p, fastcdc_ok p ->
  push_ok 0 (fastcdc_state_push p) (fc_first p) below_2_64 (fun s _ c => fc_rel p s c).
Proof.
  intros p (Hg & Hmin & Hnm) s h c d (El & Ef) HN Hlim. unfold below_2_64 in Hlim.
  assert (HD : Z.of_nat (length (c ++ d)) < 2 ^ 64) by (rewrite app_length in Hlim; lia).
  assert (LD : length (c ++ d) = (length c + length d)%nat) by apply app_length.
  unfold fastcdc_state_push, add_u64, two64. rewrite El.
  replace (Z.of_nat (length d) + Z.of_nat (length c) <? 2 ^ 64) with true by (symmetry; apply Z.ltb_lt; lia).
  cbn [bind].
  destruct (Z.leb_spec (Z.of_nat (length d) + Z.of_nat (length c)) (fc_min_size p)) as [G|G].
  { right. eexists. split; [|split; [reflexivity|]].
    - intros n (X & _). lia.
    - split; cbn [fc_l fc_fp]; [lia|]. rewrite Ef, !fc_hash_short by lia. reflexivity. }
  set (i0 := if Z.of_nat (length c) <=? fc_min_size p then Z.to_nat (fc_min_size p - Z.of_nat (length c)) else 0%nat).
  assert (Hi0 : (i0 <= length d)%nat) by (unfold i0; destruct (Z.leb_spec (Z.of_nat (length c)) (fc_min_size p)); lia).
  assert (Hm0 : (Z.to_nat (fc_min_size p) <= length c + i0)%nat)
    by (unfold i0; destruct (Z.leb_spec (Z.of_nat (length c)) (fc_min_size p)); lia).
  match goal with |- context[bind ?m _] => assert (E0 : m = Ok (Z.of_nat (length c + i0), i0)) end.
  { unfold i0. destruct (Z.leb_spec (Z.of_nat (length c)) (fc_min_size p)) as [G1|G1].
    - unfold sub_u64. replace (Z.of_nat (length c) <=? fc_min_size p) with true by (symmetry; apply Z.leb_le; lia). cbn [bind].
      replace (Z.of_nat (length c) + (fc_min_size p - Z.of_nat (length c)) <? 2 ^ 64) with true by (symmetry; apply Z.ltb_lt; lia).
      cbn [bind]. do 2 f_equal. lia.
    - do 2 f_equal. lia. }
  rewrite E0. cbn [bind]. clear E0.
  assert (EX : {| fl_gi := Z.of_nat (length c + i0); fl_i := i0; fl_fp := fc_fp s |} = fc_at p c d i0).
  { unfold fc_at. f_equal. rewrite Ef. unfold i0. destruct (Z.leb_spec (Z.of_nat (length c)) (fc_min_size p)) as [G1|G1].
    - rewrite !fc_hash_short; [reflexivity| |lia]. rewrite firstn_length. lia.
    - rewrite Nat.add_0_r, firstn_app_le, firstn_all by lia. reflexivity. }
  rewrite EX. clear EX.
  assert (Hbefore : forall m, fc_min_size p <= Z.of_nat m -> (m < length c + i0)%nat -> ~ fc_stop p (c ++ d) m).
  { intros m A B. unfold i0 in B. destruct (Z.leb_spec (Z.of_nat (length c)) (fc_min_size p)) as [G1|G1]; [lia|].
    rewrite fc_stop_app by lia. apply (fc_none_stop p h); [lia|exact HN|lia]. }
  assert (Hfirst : forall k, (i0 <= k <= length d)%nat -> fc_stop p (c ++ d) (length c + k)%nat ->
            (forall j, (i0 <= j < k)%nat -> ~ fc_stop p (c ++ d) (length c + j)%nat) -> fc_first p h (c ++ d) (length c + k)%nat).
  { intros k Hk Hs Hb. split; [lia|]. split; [lia|]. split; [exact Hs|]. intros m Hmm.
    destruct (Nat.lt_ge_cases m (length c + i0)) as [A|A]; [apply Hbefore; lia|].
    replace m with (length c + (m - length c))%nat by lia. apply Hb. lia. }
  assert (Hstop : forall j, Z.of_nat (length c + j) < fc_max_size p -> ~ fc_hit p (c ++ d) (length c + j) ->
            ~ fc_stop p (c ++ d) (length c + j)%nat).
  { intros j A B [X|[_ X]]; [lia|]. exact (B X). }
  destruct (fc_loop1 p c d Hg HD (S (length d)) i0) as [(k & x & A1 & A2 & A3 & A4 & ->)|(k & A1 & A2 & A3 & ->)]; try lia; cbn [bind].
  - left. exists (length c + k)%nat, k. eexists. split; [|split; [lia|split; [reflexivity|apply fc_default_rel]]].
    apply Hfirst; [lia|right; split; [lia|exact A3]|]. intros j Hj. apply Hstop; [lia|]. now apply A4.
  - destruct (fc_loop2 p c d Hg HD (S (length d)) k) as [(k2 & x & B1 & B2 & B3 & ->)|(B1 & B2 & ->)]; try lia; cbn [bind].
    + left. exists (length c + k2)%nat, k2. eexists. split; [|split; [lia|split; [reflexivity|apply fc_default_rel]]].
      apply Hfirst; [lia| |].
      * destruct B2 as [B2|[B2 B4]]; [now left|right; split; [lia|exact B4]].
      * intros j Hj. destruct (Nat.lt_ge_cases j k) as [A|A].
        -- destruct (A3 j) as [X1 X2]; [lia|]. apply Hstop; [lia|exact X2].
        -- destruct (B3 j) as [X1 X2]; [lia|]. now apply Hstop.
    + right. eexists. split; [|split; [reflexivity|]].
      * intros n (X1 & X2 & X3 & X4).
        destruct (Nat.lt_ge_cases n (length c + i0)) as [A|A]; [apply (Hbefore n); [lia|exact A|exact X3]|].
        destruct (Nat.eq_dec n (length c + length d)) as [->|Hne].
        { destruct X3 as [X3|[X3 _]]; lia. }
        replace n with (length c + (n - length c))%nat in X3 by lia.
        destruct (Nat.lt_ge_cases (n - length c) k) as [B|B].
        -- destruct (A3 (n - length c)%nat) as [Y1 Y2]; [lia|]. revert X3. apply Hstop; [lia|exact Y2].
        -- destruct (B2 (n - length c)%nat) as [Y1 Y2]; [lia|]. revert X3. now apply Hstop.
      * split; cbn [fc_l fc_fp fc_at fl_fp]; [lia|]. rewrite <- LD, firstn_all. reflexivity.
Qed.

Lemma fc_incr_conforms : forall p, fastcdc_ok p -> 1 <= fc_min_size p ->
  incr_conforms 0 (fastcdc_incr p) (fc_first p) below_2_64.
Proof.
  intros p H H1. exact (incr_conforms_of 0 (fastcdc_incr p) _ _ _ (fc_laws p (proj1 (proj2 H))) (fc_progressive p H1)
    below_down (fc_push_ok p H) (fc_default_rel p)).
Qed.

(** Chunk sizes. *)
Lemma fc_first_bounds : forall p h d n, 0 <= fc_min_size p <= fc_max_size p -> fc_first p h d n ->
  fc_min_size p <= Z.of_nat n <= fc_max_size p.
Proof.
  intros p h d n H (_ & A & _ & B). split; [lia|].
  destruct (Z.le_gt_cases (Z.of_nat n) (fc_max_size p)) as [G|G]; [exact G|]. exfalso.
  apply (B (Z.to_nat (fc_max_size p))); [lia|]. left. lia.
Qed.

(** ** [find_chunk_edge]: the cut is one past the offset at which [push] stops *)
Definition fc_edge (p : FastCdc) : first_rel := fun h d m => exists n, m = S n /\ (n < length d)%nat /\ fc_first p h d n.

Lemma fc_edge_laws : forall p, 0 <= fc_min_size p -> first_laws (fc_edge p).
Proof.
  intros p H. assert (L := fc_laws p H). constructor.
  - intros h d m (n & -> & Hn & _). lia.
  - intros h m (n & -> & Hn & _). simpl in Hn. lia.
  - intros h d m1 m2 (n1 & -> & _ & F1) (n2 & -> & _ & F2). f_equal. eapply (fl_fun _ L); eauto.
  - intros h d e m (n & -> & Hn & F). exists n. split; [reflexivity|]. split; [rewrite app_length; lia|]. now apply (fl_ext _ L).
  - intros h d e m (n & -> & Hn & F) Hm. exists n. split; [reflexivity|]. split; [lia|]. apply (fl_mono _ L _ _ e); [exact F|lia].
Qed.
Lemma fc_edge_progressive : forall p, progressive (fc_edge p).
Proof. intros p h d m (n & -> & _). lia. Qed.
Lemma fc_edge_local : forall p, 0 <= fc_min_size p -> local_first (fc_edge p).
Proof.
  intros p H h d m (n & -> & Hn & F). exists n. split; [reflexivity|]. split; [rewrite firstn_length; lia|].
  apply (fl_mono _ (fc_laws p H) _ _ (skipn (S n) d)); [|rewrite firstn_length; lia]. now rewrite firstn_skipn.
Qed.

(** One call: a cut one past [push]'s offset (which can be past the end of the buffer), or no cut. *)
Lemma fc_find_spec : forall p s h c d, fastcdc_ok p -> fc_rel p s c -> (forall n, ~ fc_first p h c n) ->
  below_2_64 (length (h ++ c ++ d)) ->
  (exists n k, fc_first p h (c ++ d) n /\ n = (length c + k)%nat /\
     fastcdc_find_chunk_edge p s d = Ok (fastcdc_state_default, (Some (k + 1)%nat, (k + 1)%nat))) \/
  (exists s', (forall n, ~ fc_first p h (c ++ d) n) /\
     fastcdc_find_chunk_edge p s d = Ok (s', (None, length d)) /\ fc_rel p s' (c ++ d)).
Proof.
  intros p s h c d Hp HR HN Hl. unfold fastcdc_find_chunk_edge.
  destruct (fc_push_ok p Hp s h c d HR HN Hl) as [(n & k & s' & F & En & E & HR')|(s' & N & E & HR')]; rewrite E; cbn [bind].
  - left. exists n, k. split; [exact F|]. split; [lia|].
    assert (s' = fastcdc_state_default) as -> by (destruct s', HR' as [A B]; cbn in *; subst; rewrite fc_hash_short by (simpl; destruct Hp as (_ & X & _); lia); reflexivity).
    reflexivity.
  - right. exists s'. auto.
Qed.

(** Without [first], as long as the stream stays below the maximal size. *)
Lemma fc_find_ok : forall p, fastcdc_ok p ->
  find_ok (fastcdc_find_chunk_edge p) (fc_edge p) (fun n => below_2_64 n /\ Z.of_nat n < fc_max_size p) 0
    (no_lookback (fun s _ c => fc_rel p s c)).
Proof.
  intros p Hp s h c k d [HR ->] _ HN [Hl Hmax]. rewrite lastn_0. cbn [app].
  assert (LL := app_length c d). rewrite (app_length h) in Hmax.
  assert (HN' : forall n, ~ fc_first p h c n).
  { intros n F. apply (HN (S n)). exists n. split; [reflexivity|]. split; [|exact F].
    assert (Hn := fl_len _ (fc_laws p (proj1 (proj2 Hp))) _ _ _ F).
    destruct (Nat.eq_dec n (length c)) as [->|]; [|lia]. exfalso.
    destruct F as (_ & _ & [F|[F _]] & _); lia. }
  destruct (fc_find_spec p s h c d Hp HR HN' Hl) as [(n & j & F & En & E)|(s' & N & E & HR')]; rewrite E.
  - assert (Hn := fl_len _ (fc_laws p (proj1 (proj2 Hp))) _ _ _ F).
    assert (n < length (c ++ d))%nat.
    { destruct (Nat.eq_dec n (length (c ++ d))) as [->|]; [|lia]. exfalso.
      destruct F as (_ & _ & [F|[F _]] & _); lia. }
    left. exists (S n), (j + 1)%nat, fastcdc_state_default. split; [exists n; auto|]. split; [lia|]. split; [lia|].
    split; [reflexivity|]. split; [apply fc_default_rel|reflexivity].
  - right. exists s', (length d). rewrite Nat.sub_diag. split; [|split; [lia|split; [lia|split; [reflexivity|now split]]]].
    intros m (n & -> & _ & F). exact (N n F).
Qed.

Lemma fc_chunk_conforms : forall shrink p, fastcdc_ok p ->
  chunk_conforms shrink (fastcdc_chunk p) (fc_edge p) (fun n => below_2_64 n /\ Z.of_nat n < fc_max_size p) 0.
Proof.
  intros shrink p Hp. refine (chunk_conforms_of shrink (fastcdc_chunk p) _ _ _ _ (fc_edge_laws p _) (fc_edge_progressive p)
    (fc_edge_local p _) _ (fc_find_ok p Hp) _).
  - exact (proj1 (proj2 Hp)).
  - exact (proj1 (proj2 Hp)).
  - intros a b H [X Y]. split; [exact (below_down a b H X)|lia].
  - split; [apply fc_default_rel|reflexivity].
Qed.

(** For every stream: unless the caller panics on an answer past the end of its buffer, the cuts are right. *)
Lemma fc_drive_partial : forall p shrink data, fastcdc_ok p -> below_2_64 (length data) -> forall sched s h c base lo seen none r,
  fc_rel p s c -> (forall n, ~ fc_first p h c n) -> firstn base data = h ++ c -> base = length (h ++ c) ->
  (base <= lo <= length data)%nat ->
  drive_chunk shrink (fastcdc_find_chunk_edge p) data sched s base lo seen none = Ok r ->
  exists h', cut_path (fc_edge p) h (skipn (length h) data) (r_cuts r) h' (skipn (length h') data).
Proof.
  intros p shrink data Hp Hl. assert (L := fc_edge_laws p (proj1 (proj2 Hp))).
  induction sched as [|g sched IH]; intros s h c base lo seen none r HR HN HE HB HL E.
  - cbn [drive_chunk] in E. inversion E. exists h. constructor.
  - cbn [drive_chunk] in E. set (hi := Nat.min (length data) (Nat.max lo (base + g))) in E.
    assert (Hhi : (base <= hi <= length data)%nat) by (unfold hi; lia).
    set (d := firstn (hi - base) (skipn base data)) in *.
    assert (Ld : length d = (hi - base)%nat) by (unfold d; rewrite firstn_length, skipn_length; lia).
    assert (Ehi : firstn hi data = h ++ c ++ d).
    { rewrite (skipn_firstn_split _ base hi) by lia. now rewrite HE, <- app_assoc. }
    assert (Esk : skipn (length h) data = (c ++ d) ++ skipn hi data).
    { rewrite <- (firstn_skipn hi data) at 1. rewrite Ehi, <- app_assoc, skipn_app_ge, Nat.sub_diag by lia. reflexivity. }
    assert (Hlim : below_2_64 (length (h ++ c ++ d))).
    { rewrite <- Ehi. eapply below_down; [|exact Hl]. rewrite firstn_length. lia. }
    destruct (fc_find_spec p s h c d Hp HR HN Hlim) as [(n & k & F & En & Ef)|(s' & N & Ef & HR')];
      rewrite Ef in E; cbn [bind] in E.
    + destruct (Nat.ltb_spec (length d) (k + 1)) as [G|G]; [discriminate|].
      apply bind_inv in E. destruct E as (r2 & E2 & E3).
      apply (f_equal (fun x => match x with Ok a => r_cuts a | _ => [] end)) in E3. cbv beta iota in E3. rewrite <- E3. clear E3.
      rewrite app_length in HB.
      assert (Hh' : length (h ++ firstn (S n) (c ++ d)) = (length h + S n)%nat) by (rewrite app_length, firstn_length, app_length; lia).
      apply (IH _ (h ++ firstn (S n) (c ++ d)) []) in E2.
      * destruct E2 as [h' P]. exists h'. cbn [add_cut r_cuts].
        replace (base + (k + 1))%nat with (length h + S n)%nat by lia. econstructor.
        -- rewrite Esk. apply (fl_ext _ L). exists n. split; [reflexivity|]. split; [rewrite app_length; lia|exact F].
        -- rewrite skipn_skipn', <- Hh'. rewrite Esk at 1. rewrite (firstn_app_le _ (S n)) by (rewrite app_length; lia). exact P.
      * apply fc_default_rel.
      * intros m Fm. apply (fl_nil _ (fc_laws p (proj1 (proj2 Hp))) _ _ Fm).
      * rewrite app_nil_r. replace (base + (k + 1))%nat with (length h + S n)%nat by lia. rewrite <- Hh'.
        assert (Y : firstn (length (h ++ firstn (S n) (c ++ d))) data = firstn (length (h ++ firstn (S n) (c ++ d))) (firstn hi data)).
        { rewrite firstn_firstn, Nat.min_l; [reflexivity|]. rewrite Hh'. lia. }
        rewrite Y, Ehi. rewrite <- (firstn_skipn (S n) (c ++ d)) at 2. rewrite app_assoc.
        rewrite firstn_app_le by lia. apply firstn_all2. lia.
      * rewrite app_nil_r. lia.
      * destruct shrink; lia.
    + destruct (Nat.ltb_spec (length d) (length d)) as [G|G]; [lia|].
      apply (IH _ h (c ++ d)) in E; [exact E|exact HR'|exact N| | |lia].
      * replace (base + length d)%nat with hi by lia. exact Ehi.
      * rewrite app_assoc, (app_length (h ++ c)). lia.
Qed.

Lemma fc_chunk_partial : forall p shrink data sched r, fastcdc_ok p -> below_2_64 (length data) ->
  run_chunk shrink (fastcdc_chunk p) data sched = Ok r ->
  exists h, cut_path (fc_edge p) [] data (r_cuts r) h (skipn (length h) data).
Proof.
  intros p shrink data sched r Hp Hl E.
  eapply (fc_drive_partial p shrink data Hp Hl) with (h := []) (c := []) in E; eauto.
  - apply fc_default_rel.
  - intros n F. apply (fl_nil _ (fc_laws p (proj1 (proj2 Hp))) _ _ F).
  - simpl. lia.
Qed.
