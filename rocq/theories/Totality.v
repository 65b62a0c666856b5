(** * Totality: exactly which configurations make [push] panic or [iter_slices] run forever. *)

From Verif Require Import Base Api Tables Range Spec Lists Contract Step Words Rot Ring CutFacts IterProofs.
From Verif Require Import Mii Ram Gear Pigz Gzip FastCdc Bup BuzHash Zpaq Zstd.
From Verif Require Import MiiProofs RamProofs GearProofs PigzProofs GzipProofs FastCdcProofs FastCdcTotal BupProofs BupAny BuzProofs ZpaqProofs ZpaqCtor ZstdProofs ZstdIter.
From Verif Require Import Builtin BuiltinProofs IterAll.

(** ** FastCdc with [min_size = 0] *)
Lemma bits_clear_land : forall x m, bits_clear x m <-> Z.land x m = 0.
Proof.
  intros x m. split.
  - intros H. apply Z.bits_inj'. intros i Hi. rewrite Z.land_spec, Z.bits_0.
    destruct (Z.testbit m i) eqn:E; [|apply andb_false_r]. now rewrite (H i Hi E).
  - intros H i Hi E. assert (X := Z.land_spec x m i). rewrite H, Z.bits_0, E, andb_true_r in X. now symmetry.
Qed.

Section Min0.
  Variable p : FastCdc.
  Hypothesis Hg : length (fc_gear p) = 256%nat.
  Hypothesis Hu : forall x, In x (fc_gear p) -> is_u64 x.
  Hypothesis H0 : fc_min_size p = 0.

  Lemma fc_first_roll : forall b, fastcdc_roll p 0 b = Ok (table_at (fc_gear p) b).
  Proof.
    intros b. assert (Hb := b2z_range b). unfold fastcdc_roll, index. rewrite (nth_error_nth' _ 0) by (rewrite Hg; lia).
    cbn [bind]. change (Z.shiftl 0 1) with 0. fold (table_at (fc_gear p) b).
    assert (is_u64 (table_at (fc_gear p) b)) by (apply Hu; apply nth_In; rewrite Hg; lia).
    unfold wrap64, two64, is_u64 in *. rewrite Z.mod_0_l, Z.add_0_l, Z.mod_small by lia. reflexivity.
  Qed.

  (** The first byte decides whether the chunk is empty. *)
  Lemma fc_min0_push : forall b d, Z.of_nat (length (b :: d)) < 2 ^ 64 ->
    exists s' o, fastcdc_state_push p fastcdc_state_default (b :: d) = Ok (s', o) /\
      match o with
      | Some k => s' = fastcdc_state_default /\ (k <= length (b :: d))%nat /\
          (k = 0%nat -> (fc_normal_size p <= 0 /\ fc_max_size p <= 0) \/
                        bits_clear (table_at (fc_gear p) b) (fastcdc_mask (fc_normal_size p) 0))
      | None => True
      end.
  Proof.
    intros b d Hl. set (l := b :: d) in *. unfold fastcdc_state_push. cbn [fc_l fc_fp fastcdc_state_default].
    unfold add_u64 at 1, two64. rewrite Z.add_0_r. replace (Z.of_nat (length l) <? 2 ^ 64) with true by (symmetry; apply Z.ltb_lt; lia).
    cbn [bind]. rewrite H0. assert (Ll : (1 <= length l)%nat) by (cbn; lia).
    replace (Z.of_nat (length l) <=? 0) with false by (symmetry; apply Z.leb_gt; lia).
    cbn [Z.leb Z.compare]. unfold sub_u64. cbn [Z.leb Z.compare Z.sub Z.add Z.opp bind].
    replace (add_u64 0 0) with (Ok 0) by reflexivity. cbn [bind]. change (Z.to_nat 0) with 0%nat.
    set (x := {| fl_gi := 0; fl_i := 0; fl_fp := 0 |}).
    assert (E1 : index l 0 = Ok b) by reflexivity.
    destruct (fc_loop1_total p l Hg (S (length l)) x) as (c1 & L1 & H1); [split; cbn [fl_i fl_gi x]; lia|cbn [fl_i x]; lia|].
    rewrite L1. cbn [bind]. cbn [fl_i fl_gi x] in H1. destruct c1 as [y|y k|y]; [destruct H1| |].
    - exists (fastcdc_state_reset fastcdc_state_default), (Some k). split; [reflexivity|]. split; [reflexivity|]. split; [lia|]. intros ->. right.
      cbn [loop] in L1. unfold fastcdc_loop1 at 1 in L1. cbn [fl_i fl_gi fl_fp x] in L1.
      replace (Nat.leb (length l) 0) with false in L1 by (symmetry; apply Nat.leb_gt; lia).
      destruct (Z.leb_spec (fc_normal_size p) 0) as [G|G]; [cbn [bind] in L1; discriminate|].
      rewrite E1 in L1. cbn [bind] in L1. rewrite fc_first_roll in L1. cbn [bind] in L1.
      unfold fastcdc_mask. replace (Z.of_nat 0 <? fc_normal_size p) with true by (symmetry; apply Z.ltb_lt; lia).
      apply bits_clear_land. change 0x0003590703530000 with MASK_S.
      destruct (Z.eqb_spec (Z.land (table_at (fc_gear p) b) MASK_S) 0) as [G2|G2]; [exact G2|exfalso].
      replace (add_u64 0 1) with (Ok 1) in L1 by reflexivity. cbn [bind] in L1.
      match type of L1 with loop _ _ ?z = _ => destruct (fc_loop1_total p l Hg (length l) z) as (c3 & L3 & H3) end.
      { split; cbn [fl_i fl_gi]; lia. }
      { cbn [fl_i]. lia. }
      rewrite L1 in L3. inversion L3; subst c3. cbn [fl_i] in H3. lia.
    - destruct (fc_loop2_total p l Hg (S (length l)) y) as (c2 & L2 & H2); [split; lia|lia|]. rewrite L2. cbn [bind].
      destruct c2 as [z|z k|z]; [destruct H2| |exists {| fc_l := Z.of_nat (length l); fc_fp := fl_fp z |}, None; auto].
      exists (fastcdc_state_reset fastcdc_state_default), (Some k). split; [reflexivity|]. split; [reflexivity|]. split; [lia|]. intros ->.
      assert (Ey : fl_i y = 0%nat) by lia. assert (Gy : fl_gi y = 0) by lia.
      (* the first loop stopped at once *)
      cbn [loop] in L1. unfold fastcdc_loop1 at 1 in L1. cbn [fl_i fl_gi fl_fp x] in L1.
      replace (Nat.leb (length l) 0) with false in L1 by (symmetry; apply Nat.leb_gt; lia).
      destruct (Z.leb_spec (fc_normal_size p) 0) as [G|G].
      + cbn [bind] in L1. inversion L1; subst y. clear L1 H1.
        cbn [loop] in L2. unfold fastcdc_loop2 at 1 in L2. cbn [fl_i fl_gi fl_fp x] in L2.
        destruct (Z.leb_spec (fc_max_size p) 0) as [G2|G2]; [left; lia|right].
        replace (Nat.leb (length l) 0) with false in L2 by (symmetry; apply Nat.leb_gt; lia).
        rewrite E1 in L2. cbn [bind] in L2. rewrite fc_first_roll in L2. cbn [bind] in L2.
        unfold fastcdc_mask. replace (Z.of_nat 0 <? fc_normal_size p) with false by (symmetry; apply Z.ltb_ge; lia).
        apply bits_clear_land. change 0x0000d90003530000 with MASK_L.
        destruct (Z.eqb_spec (Z.land (table_at (fc_gear p) b) MASK_L) 0) as [G3|G3]; [exact G3|exfalso].
        replace (add_u64 0 1) with (Ok 1) in L2 by reflexivity. cbn [bind] in L2.
        match type of L2 with loop _ _ ?z = _ => destruct (fc_loop2_total p l Hg (length l) z) as (c3 & L3 & H3) end.
        { split; cbn [fl_i fl_gi]; lia. }
        { cbn [fl_i]. lia. }
        rewrite L2 in L3. inversion L3; subst c3. cbn [fl_i] in H3. lia.
      + exfalso. rewrite E1 in L1. cbn [bind] in L1. rewrite fc_first_roll in L1. cbn [bind] in L1.
        destruct (Z.eqb_spec (Z.land (table_at (fc_gear p) b) MASK_S) 0) as [G2|G2]; [cbn [bind] in L1; discriminate|].
        replace (add_u64 0 1) with (Ok 1) in L1 by reflexivity. cbn [bind] in L1.
        match type of L1 with loop _ _ ?z = _ => destruct (fc_loop1_total p l Hg (length l) z) as (c3 & L3 & H3) end.
        { split; cbn [fl_i fl_gi]; lia. }
        { cbn [fl_i]. lia. }
        rewrite L1 in L3. inversion L3; subst c3. cbn [fl_i] in H3. lia.
  Qed.

  (** An empty first chunk: [push] answers [Some(0)] and is where it was. *)
  Lemma fc_min0_stuck : forall b, (fc_normal_size p <= 0 /\ fc_max_size p <= 0) \/
      bits_clear (table_at (fc_gear p) b) (fastcdc_mask (fc_normal_size p) 0) ->
    fastcdc_state_push p fastcdc_state_default [b] = Ok (fastcdc_state_default, Some 0%nat).
  Proof.
    intros b H. unfold fastcdc_state_push. cbn [fc_l fc_fp fastcdc_state_default length].
    replace (add_u64 (Z.of_nat 1) 0) with (Ok 1) by reflexivity. cbn [bind]. rewrite H0. cbn [Z.leb Z.compare].
    unfold sub_u64. cbn [Z.leb Z.compare Z.sub Z.add Z.opp bind].
    replace (add_u64 0 0) with (Ok 0) by reflexivity. cbn [bind]. change (Z.to_nat 0) with 0%nat.
    cbn [loop]. unfold fastcdc_loop1 at 1. cbn [fl_i fl_gi fl_fp length Nat.leb]. unfold fastcdc_mask in H.
    change (Z.of_nat 0) with 0 in H. rewrite !bits_clear_land in H.
    change 0x0003590703530000 with MASK_S in H. change 0x0000d90003530000 with MASK_L in H.
    destruct (Z.leb_spec (fc_normal_size p) 0) as [G|G]; cbn [bind].
    - unfold fastcdc_loop2 at 1. cbn [fl_i fl_gi fl_fp length Nat.leb].
      destruct (Z.leb_spec (fc_max_size p) 0) as [G2|G2]; cbn [bind]; [reflexivity|].
      cbn [index nth_error]. unfold index. cbn [nth_error bind]. rewrite fc_first_roll. cbn [bind].
      replace (0 <? fc_normal_size p) with false in H by (symmetry; apply Z.ltb_ge; lia).
      destruct H as [H|H]; [lia|]. rewrite H. reflexivity.
    - unfold index. cbn [nth_error bind]. rewrite fc_first_roll. cbn [bind].
      replace (0 <? fc_normal_size p) with true in H by (symmetry; apply Z.ltb_lt; lia).
      destruct H as [H|H]; [lia|]. rewrite H. reflexivity.
  Qed.

  Lemma fc_min0_ends : (0 < fc_normal_size p \/ 0 < fc_max_size p) ->
    (forall b, ~ bits_clear (table_at (fc_gear p) b) (fastcdc_mask (fc_normal_size p) 0)) ->
    forall n rem, (length rem < n)%nat -> Z.of_nat (length rem) < 2 ^ 64 -> exists out it,
    collect iter_slices_next (S n) (@Build_SliceIter (fastcdc_incr p) rem fastcdc_state_default) = Ok (out, it).
  Proof.
    intros Hs Hb. induction n as [|n IH]; intros rem Hn Hl; [lia|]. rewrite collect_S. unfold iter_slices_next at 1.
    cbn [it_rem it_chunker]. destruct rem as [|b rem]; [cbn [bind]; eauto|].
    destruct (fc_min0_push b rem Hl) as (s' & o & E & H). cbn [incr_push fastcdc_incr]. rewrite E. cbn [bind]. destruct o as [k|].
    - destruct H as (-> & Hk & H). assert (k <> 0%nat) by (intros ->; destruct (H eq_refl) as [X|X]; [lia|exact (Hb b X)]).
      unfold split_at. replace (Nat.leb k (length (b :: rem))) with true by (symmetry; apply Nat.leb_le; lia). cbn [bind].
      destruct (IH (skipn k (b :: rem))) as (out & it & E2); [rewrite skipn_length; lia|rewrite skipn_length; lia|].
      setoid_rewrite E2. cbn [bind]. eauto.
    - cbn [collect it_rem iter_slices_next bind]. eauto.
  Qed.
End Min0.

(** ** Iterating over slices: exactly when it always ends *)
Theorem iter_ends_iff : forall c C, typed c -> incr_of c = Ok C ->
  ((forall data, stream_len (length data) -> iter_ends C data) <-> iter_good c).
Proof.
  intros c C T E. split.
  - intros H. assert (L1 : forall b, stream_len (length [b : byte])) by (intros b; unfold stream_len; cbn; lia).
    destruct c; cbn [iter_good]; try exact I.
    + cbn [incr_of] in E. destruct (gear_with_average_size_log2 average_size_log2) as [p| |] eqn:Ep; cbn [bind] in E; try discriminate.
      inversion E; subst C. apply (gear_iter_ends_iff _ _ Ep). exact H.
    + cbn [incr_of] in E. inversion E; subst C. clear E. cbn [typed] in T. unfold is_u64 in T.
      destruct (H [x01] (L1 _)) as (fuel & out & it & X). destruct fuel as [|fuel]; [discriminate|].
      rewrite collect_S in X. unfold iter_slices_next, iter_slices in X. cbn [it_rem it_chunker incr_push incr_new gzip_incr] in X.
      unfold gzip_push in X. cbn [for_enum] in X. unfold gzip_push_body in X.
      cbn [gzi_window gzip_incr_new length gzip_window_len gzip_with_window_and_modulus] in X.
      destruct window as [|window]; cbn [Nat.leb bind] in X; [discriminate|]. split; [lia|].
      unfold rem_u64 in X. cbn [gzip_modulus gzip_with_window_and_modulus] in X.
      destruct (Z.eqb_spec modulus 0) as [->|N]; [|lia]. cbn [bind] in X. discriminate.
    + cbn [incr_of] in E. inversion E; subst C. clear E. destruct T as (Tg & Tu & Tmin & Tn & Tm). unfold is_u64 in *.
      set (p := fastcdc_new gear min normal max) in *.
      destruct (Z.le_gt_cases 1 min) as [G|G]; [now left|right]. assert (E0 : fc_min_size p = 0) by (cbn; lia).
      assert (K : forall b, ~ ((normal <= 0 /\ max <= 0) \/ bits_clear (table_at gear b) (fastcdc_mask normal 0))).
      { intros b X. destruct (H [b] (L1 b)) as (fuel & out & it & Y).
        assert (Q := fc_min0_stuck p Tg Tu E0 b X).
        rewrite (collect_stuck _ _ iter_slices_next _ []) in Y; [discriminate|].
        unfold iter_slices_next, iter_slices. cbn [it_rem it_chunker incr_push incr_new fastcdc_incr]. rewrite Q. reflexivity. }
      split.
      * destruct (Z.le_gt_cases normal 0); [|lia]. destruct (Z.le_gt_cases max 0); [|lia]. exfalso. apply (K x00). left. lia.
      * intros b X. apply (K b). now right.
    + cbn [incr_of] in E. inversion E; subst C. clear E.
      destruct (H [x01] (L1 _)) as (fuel & out & it & X). destruct fuel as [|fuel]; [discriminate|].
      rewrite collect_S in X. unfold iter_slices_next, iter_slices in X. cbn [it_rem it_chunker incr_push incr_new rollsum_incr] in X.
      unfold rollsum_push in X. cbn [for_enum] in X. unfold rollsum_push_body, roll_byte in X.
      destruct window as [|window]; [cbn in X; discriminate|lia].
  - intros G data Hl. destruct c; cbn [iter_good] in G;
      try (apply (iter_all_ends _ C T E); [exact G|exact Hl]); try (apply (iter_all_ends _ C T E); [exact I|exact Hl]).
    + cbn [incr_of] in E. inversion E; subst C. clear E. destruct T as (Tg & Tu & Tmin & Tn & Tm). unfold is_u64 in *.
      set (p := fastcdc_new gear min normal max) in *. apply stream_below in Hl.
      destruct (Z.le_gt_cases 1 min) as [G1|G1]; [exact (fastcdc_iter_ends p Tg G1 data Hl)|].
      destruct G as [G|[Ga Gb]]; [lia|].
      destruct (fc_min0_ends p Tg Tu ltac:(cbn; lia) Ga Gb (S (length data)) data ltac:(lia) Hl) as (out & it & X).
      exists (S (S (length data))), out, it. exact X.
Qed.

(** ** [push]: exactly when no caller sees a panic *)
Theorem push_total_iff : forall c C, typed c -> incr_of c = Ok C ->
  ((forall data sched, stream_len (length data) -> exists r, run_incr (incr_adj c) C data sched = Ok r /\ (r_base r <= length data)%nat)
   <-> push_good c).
Proof.
  intros c C T E. split.
  - intros H. assert (L1 : stream_len (length [x01])) by (unfold stream_len; cbn; lia).
    destruct (H [x01] [1%nat] L1) as (r & X & _).
    destruct c; cbn [push_good]; try exact I.
    + cbn [incr_of] in E. inversion E; subst C. clear E. cbn [typed] in T. unfold is_u64 in T.
      unfold run_incr in X. cbn [incr_adj drive_push skipn firstn incr_push gzip_incr incr_new] in X.
      unfold gzip_push in X. cbn [for_enum] in X. unfold gzip_push_body in X.
      cbn [gzi_window gzip_incr_new length gzip_window_len gzip_with_window_and_modulus] in X.
      destruct window as [|window]; cbn [Nat.leb bind] in X; [discriminate|]. split; [lia|].
      unfold rem_u64 in X. cbn [gzip_modulus gzip_with_window_and_modulus] in X.
      destruct (Z.eqb_spec modulus 0) as [->|N]; [|lia]. cbn [bind] in X. discriminate.
    + cbn [incr_of] in E. inversion E; subst C. clear E.
      destruct window as [|window]; [cbn in X; discriminate|lia].
  - intros G data sched Hl.
    assert (S : incr_sound c -> exists r, run_incr (incr_adj c) C data sched = Ok r /\ (r_base r <= length data)%nat).
    { intros S. destruct (incr_all c C T E S data Hl) as (cs & _ & K). destruct (K sched) as ((r & later & X & Y & _) & _). eauto. }
    destruct c; cbn [push_good] in G; try (apply S; exact G); try (apply S; exact I).
    + cbn [incr_of] in E. inversion E; subst C. clear E S. destruct T as (Tg & Tu & Tmin & Tn & Tm). unfold is_u64 in *.
      destruct (fastcdc_incr_total (fastcdc_new gear min normal max) data sched Tg ltac:(cbn; lia) (stream_below _ Hl)) as (r & X & Y & _).
      exists r. split; [exact X|exact Y].
Qed.
