(** * FastCdcTotal: FastCdc with any sizes, also [normal_size > max_size]. *)

From Verif Require Import Base Api Tables Spec Lists Contract Step Words IterProofs FastCdc FastCdcProofs CutFacts.

(** The largest chunk any caller can get. *)
Definition fc_cap (p : FastCdc) : Z := Z.max (fc_min_size p) (Z.max (fc_normal_size p) (fc_max_size p)).

Section Total.
  Variable p : FastCdc.
  Variable d : list byte.
  Hypothesis Hg : length (fc_gear p) = 256%nat.

  Lemma fc_roll_total : forall fp v, exists fp', fastcdc_roll p fp v = Ok fp'.
  Proof.
    intros fp v. unfold fastcdc_roll. destruct (index_lt _ (fc_gear p) (Z.to_nat (b2z v))) as (g & _ & ->).
    - rewrite Hg. assert (H := b2z_range v). lia.
    - cbn [bind]. eauto.
  Qed.

  Definition fc_room (x : FcLocals) : Prop :=
    (fl_i x <= length d)%nat /\ fl_gi x + Z.of_nat (length d - fl_i x) < 2 ^ 64.

  Lemma fc_loop1_total : forall fuel x, fc_room x -> (length d - fl_i x < fuel)%nat ->
    exists c, loop fuel (fastcdc_loop1 p d) x = Ok c /\
      match c with
      | Return _ k => (fl_i x <= k < length d)%nat /\ fl_gi x + Z.of_nat (k - fl_i x) < fc_normal_size p
      | Break y => (fl_i x <= fl_i y <= length d)%nat /\ fl_gi y = fl_gi x + Z.of_nat (fl_i y - fl_i x) /\
                   (fl_gi y <= fc_normal_size p \/ fl_gi y = fl_gi x)
      | Next _ => False
      end.
  Proof.
    induction fuel as [|fuel IH]; intros x [R1 R2] Hf; [lia|]. cbn [loop]. unfold fastcdc_loop1 at 1.
    destruct (Nat.leb_spec (length d) (fl_i x)) as [G|G]; cbn [bind].
    { eexists. split; [reflexivity|]. cbn beta iota. lia. }
    destruct (Z.leb_spec (fc_normal_size p) (fl_gi x)) as [G2|G2]; cbn [bind].
    { eexists. split; [reflexivity|]. cbn beta iota. lia. }
    destruct (index_lt _ d _ G) as (v & _ & ->). cbn [bind].
    destruct (fc_roll_total (fl_fp x) v) as (fp & ->). cbn [bind].
    destruct (Z.land fp MASK_S =? 0); cbn [bind].
    { eexists. split; [reflexivity|]. cbn beta iota. lia. }
    unfold add_u64, two64. replace (fl_gi x + 1 <? 2 ^ 64) with true by (symmetry; apply Z.ltb_lt; lia). cbn [bind].
    match goal with |- context[loop fuel _ ?y] => destruct (IH y) as (c & -> & H) end.
    { split; cbn [fl_i fl_gi]; lia. }
    { cbn [fl_i]. lia. }
    exists c. split; [reflexivity|]. cbn [fl_i fl_gi] in H. destruct c; [exact H|lia|lia].
  Qed.

  Lemma fc_loop2_total : forall fuel x, fc_room x -> (length d - fl_i x < fuel)%nat ->
    exists c, loop fuel (fastcdc_loop2 p d) x = Ok c /\
      match c with
      | Return _ k => (fl_i x <= k <= length d)%nat /\
                      (fl_gi x + Z.of_nat (k - fl_i x) <= fc_max_size p \/ k = fl_i x)
      | Break y => fl_i y = length d /\ fl_gi y = fl_gi x + Z.of_nat (length d - fl_i x) /\ fl_gi y < fc_max_size p
      | Next _ => False
      end.
  Proof.
    induction fuel as [|fuel IH]; intros x [R1 R2] Hf; [lia|]. cbn [loop]. unfold fastcdc_loop2 at 1.
    destruct (Z.leb_spec (fc_max_size p) (fl_gi x)) as [G2|G2]; cbn [bind].
    { eexists. split; [reflexivity|]. cbn beta iota. lia. }
    destruct (Nat.leb_spec (length d) (fl_i x)) as [G|G]; cbn [bind].
    { eexists. split; [reflexivity|]. cbn beta iota. lia. }
    destruct (index_lt _ d _ G) as (v & _ & ->). cbn [bind].
    destruct (fc_roll_total (fl_fp x) v) as (fp & ->). cbn [bind].
    destruct (Z.land fp MASK_L =? 0); cbn [bind].
    { eexists. split; [reflexivity|]. cbn beta iota. lia. }
    unfold add_u64, two64. replace (fl_gi x + 1 <? 2 ^ 64) with true by (symmetry; apply Z.ltb_lt; lia). cbn [bind].
    match goal with |- context[loop fuel _ ?y] => destruct (IH y) as (c & -> & H) end.
    { split; cbn [fl_i fl_gi]; lia. }
    { cbn [fl_i]. lia. }
    exists c. split; [reflexivity|]. cbn [fl_i fl_gi] in H. destruct c; [exact H|lia|lia].
  Qed.
End Total.

(** One call of [push], whatever the sizes and whatever the fingerprint. *)
Theorem fc_push_total : forall p s d, length (fc_gear p) = 256%nat -> 0 <= fc_min_size p -> 0 <= fc_l s <= fc_cap p ->
  fc_l s + Z.of_nat (length d) < 2 ^ 64 ->
  exists s' o, fastcdc_state_push p s d = Ok (s', o) /\
    match o with
    | Some k => (k <= length d)%nat /\ fc_min_size p <= fc_l s + Z.of_nat k <= fc_cap p /\ s' = fastcdc_state_default
    | None => fc_l s' = fc_l s + Z.of_nat (length d) /\ fc_l s' <= fc_cap p
    end.
Proof.
  intros p s d Hg Hmin Hs Hlim. unfold fastcdc_state_push, add_u64, two64.
  replace (Z.of_nat (length d) + fc_l s <? 2 ^ 64) with true by (symmetry; apply Z.ltb_lt; lia). cbn [bind].
  destruct (Z.leb_spec (Z.of_nat (length d) + fc_l s) (fc_min_size p)) as [G|G].
  { eexists _, None. split; [reflexivity|]. cbn [fc_l]. unfold fc_cap in *. lia. }
  set (i0 := if fc_l s <=? fc_min_size p then Z.to_nat (fc_min_size p - fc_l s) else 0%nat).
  assert (Hi0 : (i0 <= length d)%nat) by (unfold i0; destruct (Z.leb_spec (fc_l s) (fc_min_size p)); lia).
  assert (Hm0 : fc_min_size p <= fc_l s + Z.of_nat i0) by (unfold i0; destruct (Z.leb_spec (fc_l s) (fc_min_size p)); lia).
  assert (Hc0 : fc_l s + Z.of_nat i0 <= fc_cap p) by (unfold fc_cap in *; unfold i0; destruct (Z.leb_spec (fc_l s) (fc_min_size p)); lia).
  match goal with |- context[bind ?m _] => assert (E0 : m = Ok (fc_l s + Z.of_nat i0, i0)) end.
  { unfold i0. destruct (Z.leb_spec (fc_l s) (fc_min_size p)) as [G1|G1].
    - unfold sub_u64. replace (fc_l s <=? fc_min_size p) with true by (symmetry; apply Z.leb_le; lia). cbn [bind].
      replace (fc_l s + (fc_min_size p - fc_l s) <? 2 ^ 64) with true by (symmetry; apply Z.ltb_lt; lia).
      cbn [bind]. do 2 f_equal. lia.
    - do 2 f_equal. lia. }
  rewrite E0. cbn [bind]. clear E0.
  match goal with |- context[loop _ (fastcdc_loop1 p d) ?x] => destruct (fc_loop1_total p d Hg (S (length d)) x) as (c1 & -> & H1) end.
  { split; cbn [fl_i fl_gi]; lia. }
  { cbn [fl_i]. lia. }
  cbn [fl_i fl_gi bind] in *. destruct c1 as [y|y k|y]; [destruct H1| |].
  - exists (fastcdc_state_reset s), (Some k). split; [reflexivity|]. unfold fc_cap in *. split; [lia|]. split; [lia|reflexivity].
  - destruct (fc_loop2_total p d Hg (S (length d)) y) as (c2 & -> & H2).
    { split; lia. }
    { lia. }
    cbn [bind]. destruct c2 as [z|z k|z]; [destruct H2| |].
    + exists (fastcdc_state_reset s), (Some k). split; [reflexivity|]. unfold fc_cap in *. split; [lia|]. split; [lia|reflexivity].
    + eexists _, None. split; [reflexivity|]. cbn [fc_l]. unfold fc_cap in *. lia.
Qed.

(** Any caller of [push]: no panic, and chunk sizes between [min_size] and the largest of the three sizes. *)
Lemma fc_drive_total : forall p data, length (fc_gear p) = 256%nat -> 0 <= fc_min_size p -> below_2_64 (length data) ->
  forall sched s base start seen none, 0 <= fc_l s <= fc_cap p -> (start <= base <= length data)%nat -> fc_l s = Z.of_nat (base - start) ->
  exists r, drive_push 0 (fastcdc_state_push p) data sched s base seen none = Ok r /\ (base <= r_base r <= length data)%nat /\
    Forall (fun n => fc_min_size p <= Z.of_nat n <= fc_cap p) (sizes start (r_cuts r)) /\
    Forall (fun q => q <= length data)%nat (r_cuts r) /\
    (1 <= fc_min_size p -> strictly_above start (r_cuts r)).
Proof.
  intros p data Hg Hmin Hlim sched. induction sched as [|g sched IH]; intros s base start seen none Hs Hb El.
  - cbn [drive_push]. eexists. split; [reflexivity|]. cbn [r_base r_cuts sizes strictly_above]. split; [lia|]. repeat split; constructor.
  - cbn [drive_push]. set (d := firstn g (skipn base data)).
    assert (Ld : (length d <= length data - base)%nat) by (unfold d; rewrite firstn_length, skipn_length; lia).
    unfold below_2_64 in Hlim.
    destruct (fc_push_total p s d Hg Hmin Hs) as (s' & o & -> & H); [lia|]. cbn [bind]. destruct o as [k|].
    + destruct H as (H1 & H2 & ->). rewrite !Nat.add_0_r. replace (Nat.ltb (length d) k) with false by (symmetry; apply Nat.ltb_ge; lia).
      destruct (IH fastcdc_state_default (base + k)%nat (base + k)%nat (base + length d)%nat false) as (r & -> & X1 & X2 & X3 & X4).
      { unfold fastcdc_state_default, fc_cap in *. cbn [fc_l]. lia. }
      { lia. }
      { rewrite Nat.sub_diag. reflexivity. }
      cbn [bind]. eexists. split; [reflexivity|]. cbn [add_cut r_base r_cuts sizes strictly_above].
      split; [lia|]. split; [constructor; [lia|exact X2]|]. split; [constructor; [lia|exact X3]|].
      intros M. split; [lia|]. apply X4. exact M.
    + destruct H as (H1 & H2). destruct (IH s' (base + length d)%nat start (base + length d)%nat true) as (r & -> & X1 & X2 & X3); try lia.
      eexists. split; [reflexivity|]. split; [lia|]. split; assumption.
Qed.

Theorem fastcdc_incr_total : forall p data sched, length (fc_gear p) = 256%nat -> 0 <= fc_min_size p -> below_2_64 (length data) ->
  exists r, run_incr 0 (fastcdc_incr p) data sched = Ok r /\ (r_base r <= length data)%nat /\
    Forall (fun n => fc_min_size p <= Z.of_nat n <= fc_cap p) (sizes 0 (r_cuts r)) /\
    Forall (fun q => q <= length data)%nat (r_cuts r) /\
    (1 <= fc_min_size p -> strictly_above 0 (r_cuts r)).
Proof.
  intros p data sched Hg Hmin Hlim.
  destruct (fc_drive_total p data Hg Hmin Hlim sched fastcdc_state_default 0 0 0 false) as (r & E & X0 & X); try reflexivity; try lia.
  { unfold fastcdc_state_default, fc_cap. cbn [fc_l]. lia. }
  exists r. split; [exact E|]. split; [exact (proj2 X0)|]. exact X.
Qed.

(** Iterating over slices ends as soon as [min_size >= 1]. *)
Theorem fastcdc_iter_ends : forall p, length (fc_gear p) = 256%nat -> 1 <= fc_min_size p -> forall data, below_2_64 (length data) ->
  exists fuel out it, collect iter_slices_next fuel (iter_slices (fastcdc_incr p) (incr_new (fastcdc_incr p)) data) = Ok (out, it).
Proof.
  intros p Hg Hmin data Hlim.
  assert (K : forall n rem, (length rem < n)%nat -> below_2_64 (length rem) -> exists out it,
    collect iter_slices_next (S n) (iter_slices (fastcdc_incr p) (incr_new (fastcdc_incr p)) rem) = Ok (out, it)).
  { induction n as [|n IH]; intros rem Hn Hl; [lia|]. rewrite collect_S. unfold iter_slices_next at 1.
    cbn [iter_slices it_rem it_chunker]. destruct rem as [|b rem]; [cbn [bind]; eauto|].
    set (r := b :: rem) in *. unfold below_2_64 in Hl.
    destruct (fc_push_total p fastcdc_state_default r Hg) as (s' & o & E & H); [lia| |cbn [fc_l fastcdc_state_default]; lia|].
    { unfold fastcdc_state_default, fc_cap. cbn [fc_l]. lia. }
    change (incr_push (fastcdc_incr p)) with (fastcdc_state_push p). cbn [incr_new fastcdc_incr]. rewrite E. cbn [bind].
    destruct o as [k|].
    - destruct H as (H1 & H2 & ->). cbn [fc_l fastcdc_state_default] in H2.
      unfold split_at. replace (Nat.leb k (length r)) with true by (symmetry; apply Nat.leb_le; lia). cbn [bind].
      destruct (IH (skipn k r)) as (out & it & E2).
      { rewrite skipn_length. lia. }
      { unfold below_2_64. rewrite skipn_length. lia. }
      unfold iter_slices in E2. cbn [incr_new fastcdc_incr] in E2. setoid_rewrite E2. cbn [bind]. eauto.
    - cbn [collect it_rem iter_slices_next bind]. eauto. }
  destruct (K (S (length data)) data ltac:(lia) Hlim) as (out & it & E). eauto.
Qed.
