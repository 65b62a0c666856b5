(** * PropsDensity: C66. *)

From Verif Require Import Base Api Tables Spec Lists Contract CutFacts Bup BupAny Pigz PigzProofs Gear GearProofs.
From Verif Require Import Builtin BuiltinProofs Agree CutProps Cases Count Density.

(** The cuts of a caller whose buffering [sched] may depend on the data. *)
Definition push_cuts (adj : nat) (C : Incr) (sched : list byte -> list nat) (data : list byte) : list nat :=
  match run_incr adj C data (sched data ++ drain data) with Ok r => r_cuts r | _ => [] end.
Definition edge_cuts (shrink : bool) (C : Chunk) (sched : list byte -> list nat) (data : list byte) : list nat :=
  match run_chunk shrink C data (sched data ++ drain data) with Ok r => r_cuts r | _ => [] end.
(** There is a cut at position [n]; the first cut is at [n]. *)
Definition cut_at (n : nat) (cuts : list byte -> list nat) (data : list byte) : bool := existsb (Nat.eqb n) (cuts data).
Definition first_cut_at (n : nat) (cuts : list byte -> list nat) (data : list byte) : bool :=
  match cuts data with p :: _ => Nat.eqb n p | [] => false end.
(** How many cuts are at position [a] or later. *)
Definition cuts_from (a : nat) (cuts : list byte -> list nat) (data : list byte) : Z := Z.of_nat (length (filter (Nat.leb a) (cuts data))).

(** What is counted: [count n P] is the number of byte strings of length [n] that pass [P], [total n f] the sum of [f] over them. *)
Theorem C66_count_meaning : forall n, (forall l, In l (strings n) <-> length l = n) /\ NoDup (strings n) /\
  Z.of_nat (length (strings n)) = 256 ^ Z.of_nat n.
Proof.
  intros n. split; [apply strings_complete|]. split; [apply strings_nodup|].
  assert (X := count_total n (fun _ => true)). change (count n (fun _ => true) = total n (fun _ => 1)) in X. rewrite total_const, Z.mul_1_r in X. rewrite <- X. unfold count. do 2 f_equal.
  symmetry. induction (strings n) as [|s l IH]; [reflexivity|]. cbn [filter]. now f_equal.
Qed.
Print Assumptions C66_count_meaning.

Lemma existsb_In : forall n cs, existsb (Nat.eqb n) cs = true <-> In n cs.
Proof.
  intros n cs. rewrite existsb_exists. split.
  - intros (x & I & E). apply Nat.eqb_eq in E. now subst x.
  - intros I. exists n. split; [exact I|apply Nat.eqb_refl].
Qed.

Lemma same_bool : forall (a b : bool), (a = true <-> b = true) -> a = b.
Proof. intros [|] [|] H; try reflexivity; exfalso; assert (false = true) by tauto; discriminate. Qed.

(** ** The cut lists of complete runs *)
Lemma push_cuts_spec : forall c C sched data, typed c -> incr_of c = Ok C -> incr_sound c -> stream_len (length data) ->
  cuts_of (incr_first c) [] data (push_cuts (incr_adj c) C sched data).
Proof.
  intros c C sched data T E S Hl. unfold push_cuts. destruct (incr_all c C T E S data Hl) as (cs & H & A).
  destruct (A (sched data)) as [_ (r & Er & Ec & _)]. rewrite Er, Ec. exact H.
Qed.
Lemma edge_cuts_spec : forall c C rule sh sched data, typed c -> chunk_of c = Ok C -> chunk_sound c -> chunk_rule c = Some rule -> stream_len (length data) ->
  cuts_of (ends_at (per_chunk rule)) [] data (edge_cuts sh C sched data).
Proof.
  intros c C rule sh sched data T E S R Hl. unfold edge_cuts. destruct (chunk_all c C rule sh T E S R data Hl) as (cs & H & A).
  destruct (A (sched data)) as [_ (r & Er & Ec & _)]. rewrite Er, Ec. exact H.
Qed.
Lemma cuts_listed : forall r d cs, cuts_of (ends_at r) [] d cs -> NoDup cs /\ forall x, In x cs -> (x <= length d)%nat.
Proof.
  intros r d cs H. apply (cuts_of_increasing _ (ends_at_laws _) (ends_at_progressive _)) in H. destruct H as [H1 H2].
  split; [exact (strictly_above_nodup _ _ H1)|]. intros x I. rewrite Forall_forall in H2. exact (H2 x I).
Qed.

(** ** RollSum *)
Definition bup_incr_test (w : nat) (c : list byte) : bool := bup_incr_s2 w c mod 8192 =? 8191.
Lemma bup_incr_test_ok : forall w, decides (bup_incr_test w) (bup_incr_rule w).
Proof. intros w c. apply Z.eqb_eq. Qed.

(** Exactly one stream in 8192 has a cut at any given position from 32 on (8192 is the documented average of bup). *)
Theorem C66_rollsum_push : forall w sched n L, (32 <= low_bit w)%nat -> (32 <= n <= L)%nat -> stream_len L ->
  8192 * count L (cut_at n (push_cuts 0 (rollsum_incr (rollsum_with_window w)) sched)) = 256 ^ Z.of_nat L.
Proof.
  intros w sched n L Hw Hn Hl.
  rewrite (count_prefix L n _ (bup_incr_test w)); [|lia|].
  - assert (X := bup_density w n _ Hw ltac:(lia) (bup_incr_test_ok w)).
    replace (Z.of_nat L) with ((Z.of_nat L - Z.of_nat n) + Z.of_nat n) at 2 by lia. rewrite Z.pow_add_r by lia. rewrite <- X. ring.
  - intros d Ld. apply same_bool. unfold cut_at. rewrite existsb_In, (bup_incr_test_ok w (firstn n d)).
    assert (S : incr_sound (CfgRollSum w)) by (cbn; unfold low_bit in Hw; destruct w; [cbn in Hw|]; lia).
    assert (H := push_cuts_spec (CfgRollSum w) _ sched d ltac:(exact I) eq_refl S ltac:(now rewrite Ld)). cbn [incr_first incr_adj] in H.
    apply (stream_cut _ _ _ H). lia.
Qed.
Print Assumptions C66_rollsum_push.

(** So the average number of cuts from position 32 on is the number of positions divided by 8192. *)
Theorem C66_rollsum_average : forall w sched L, (32 <= low_bit w)%nat -> (32 <= L)%nat -> stream_len L ->
  8192 * total L (cuts_from 32 (push_cuts 0 (rollsum_incr (rollsum_with_window w)) sched)) = 256 ^ Z.of_nat L * (Z.of_nat L - 31).
Proof.
  intros w sched L Hw HL Hl. replace (Z.of_nat L - 31) with (Z.of_nat L - Z.of_nat 32 + 1) by (change (Z.of_nat 32) with 32; lia).
  apply (average_cuts 8192 L 32 (push_cuts 0 (rollsum_incr (rollsum_with_window w)) sched)); [exact HL| |].
  - intros d <-. assert (S : incr_sound (CfgRollSum w)) by (cbn; unfold low_bit in Hw; destruct w; [cbn in Hw|]; lia).
    exact (cuts_listed _ _ _ (push_cuts_spec (CfgRollSum w) _ sched d ltac:(exact I) eq_refl S Hl)).
  - intros n Hn. now apply C66_rollsum_push.
Qed.
Print Assumptions C66_rollsum_average.

(** ** PigzRsyncable *)
Definition pigz_test (b : Z) (c : list byte) : bool := pigz_hash b c =? (2 ^ b - 1) / 2.
Lemma pigz_test_ok : forall b, decides (pigz_test b) (pigz_rule b).
Proof. intros b c. apply Z.eqb_eq. Qed.

Lemma pigz_cuts_count : forall b n L (cuts : list byte -> list nat), 0 <= b <= Z.of_nat n -> (1 <= n <= L)%nat ->
  (forall d, length d = L -> cuts_of (ends_at (per_chunk (pigz_rule b))) [] d (cuts d)) ->
  2 ^ b * count L (cut_at n cuts) = 256 ^ Z.of_nat L.
Proof.
  intros b n L cuts Hb Hn H. rewrite (count_prefix L n _ (pigz_test b)); [|lia|].
  - assert (X := pigz_density b n _ Hb (pigz_test_ok b)).
    replace (Z.of_nat L) with ((Z.of_nat L - Z.of_nat n) + Z.of_nat n) at 2 by lia. rewrite Z.pow_add_r by lia. rewrite <- X. ring.
  - intros d Ld. apply same_bool. unfold cut_at. rewrite existsb_In, (pigz_test_ok b (firstn n d)).
    apply (pigz_cut b d (cuts d) ltac:(lia) (H d Ld)). lia.
Qed.

(** Exactly one stream in [2^bits] has a cut at any given position from [bits] on, for both APIs. *)
Theorem C66_pigz : forall b CI CC sh sched n L, 0 <= b <= Z.of_nat n -> (1 <= n <= L)%nat -> stream_len L ->
  incr_of (CfgPigz b) = Ok CI -> chunk_of (CfgPigz b) = Ok CC ->
  2 ^ b * count L (cut_at n (push_cuts 0 CI sched)) = 256 ^ Z.of_nat L /\
  2 ^ b * count L (cut_at n (edge_cuts sh CC sched)) = 256 ^ Z.of_nat L.
Proof.
  intros b CI CC sh sched n L Hb Hn Hl EI EC.
  assert (T : typed (CfgPigz b)). { cbn. cbn in EI. destruct (pigz_with_bits b) as [p| |] eqn:Ep; cbn [bind] in EI; try discriminate EI. apply pigz_ctor_inv in Ep. lia. }
  split; apply (pigz_cuts_count b n L _ Hb Hn); intros d Ld; subst L.
  - exact (push_cuts_spec (CfgPigz b) CI sched d T EI I Hl).
  - exact (edge_cuts_spec (CfgPigz b) CC (pigz_rule b) sh sched d T EC I eq_refl Hl).
Qed.
Print Assumptions C66_pigz.

Theorem C66_pigz_average : forall b CI CC sh sched L, (1 <= Z.to_nat b <= L)%nat -> stream_len L ->
  incr_of (CfgPigz b) = Ok CI -> chunk_of (CfgPigz b) = Ok CC ->
  2 ^ b * total L (cuts_from (Z.to_nat b) (push_cuts 0 CI sched)) = 256 ^ Z.of_nat L * (Z.of_nat L - b + 1) /\
  2 ^ b * total L (cuts_from (Z.to_nat b) (edge_cuts sh CC sched)) = 256 ^ Z.of_nat L * (Z.of_nat L - b + 1).
Proof.
  intros b CI CC sh sched L Hb Hl EI EC. replace (Z.of_nat L - b + 1) with (Z.of_nat L - Z.of_nat (Z.to_nat b) + 1) by lia.
  assert (T : typed (CfgPigz b)). { cbn. cbn in EI. destruct (pigz_with_bits b) as [p| |] eqn:Ep; cbn [bind] in EI; try discriminate EI. apply pigz_ctor_inv in Ep. lia. }
  split; apply average_cuts; try lia.
  - intros d <-. exact (cuts_listed _ _ _ (push_cuts_spec (CfgPigz b) CI sched d T EI I Hl)).
  - intros n Hn. apply (C66_pigz b CI CC sh sched n L); try assumption; lia.
  - intros d <-. exact (cuts_listed _ _ _ (edge_cuts_spec (CfgPigz b) CC (pigz_rule b) sh sched d T EC I eq_refl Hl)).
  - intros n Hn. apply (C66_pigz b CI CC sh sched n L); try assumption; lia.
Qed.
Print Assumptions C66_pigz_average.

(** ** Algorithms that reset at a cut: how many streams have a first chunk of a given length *)
Lemma first_cut_rule : forall r n d cs, cuts_of (ends_at (per_chunk r)) [] d cs -> match cs with p :: _ => Nat.eqb n p | [] => false end = true -> r (firstn n d).
Proof. intros r n d cs H. inversion H as [|h d' k cs' F H' E1 E2 E3]; subst; [discriminate|]. intros E. apply Nat.eqb_eq in E. cbn [length Nat.add] in E. subst k. apply F. Qed.

Definition bup_test (w : nat) (c : list byte) : bool := bup_s2 w c mod 8192 =? 8191.
Lemma bup_test_ok : forall w, decides (bup_test w) (bup_rule w).
Proof. intros w c. apply Z.eqb_eq. Qed.
Definition gear_test (k : Z) (c : list byte) : bool := gear_fingerprint c <? 2 ^ (32 - k).
Lemma gear_test_ok : forall k, decides (gear_test k) (gear_rule k).
Proof. intros k c. apply Z.ltb_lt. Qed.

(** The rule of RollSum's [find_chunk_edge], for every window of at least 32 bytes. *)
Theorem C66_rollsum_rule : forall w n, (32 <= w)%nat -> (32 <= n)%nat -> 8192 * count n (bup_test w) = 256 ^ Z.of_nat n.
Proof. intros w n Hw Hn. exact (bup_density_full w n _ Hw Hn (bup_test_ok w)). Qed.
Print Assumptions C66_rollsum_rule.

Theorem C66_rollsum_edge_first : forall w sh sched n, (32 <= w)%nat -> (32 <= n)%nat -> stream_len n ->
  8192 * count n (first_cut_at n (edge_cuts sh (rollsum_chunk (rollsum_with_window w)) sched)) <= 256 ^ Z.of_nat n.
Proof.
  intros w sh sched n Hw Hn Hl. rewrite <- (C66_rollsum_rule w n Hw Hn). apply Z.mul_le_mono_nonneg_l; [lia|]. apply count_le. intros d <- F.
  apply bup_test_ok. rewrite <- (firstn_all d). apply (first_cut_rule _ _ _ _ (edge_cuts_spec (CfgRollSum w) _ (bup_rule w) sh sched d ltac:(exact I) eq_refl ltac:(cbn; lia) eq_refl Hl) F).
Qed.
Print Assumptions C66_rollsum_edge_first.

(** Gear32: the table has 126 even and 130 odd entries, so a bit of the fingerprint is zero for between 126 and 130 of 256 bytes. *)
Theorem C66_gear_rule : forall k n, 0 <= k <= 32 -> (32 <= n)%nat ->
  126 ^ k * 256 ^ (Z.of_nat n - k) <= count n (gear_test k) <= 130 ^ k * 256 ^ (Z.of_nat n - k).
Proof. intros k n Hk Hn. exact (gear_density k n _ Hk Hn (gear_test_ok k)). Qed.
Print Assumptions C66_gear_rule.

Theorem C66_gear_first : forall k CI CC sh sched n, is_u64 k -> (32 <= n)%nat -> stream_len n ->
  incr_of (CfgGear k) = Ok CI -> chunk_of (CfgGear k) = Ok CC ->
  count n (first_cut_at n (push_cuts 1 CI sched)) <= 130 ^ k * 256 ^ (Z.of_nat n - k) /\
  count n (first_cut_at n (edge_cuts sh CC sched)) <= 130 ^ k * 256 ^ (Z.of_nat n - k).
Proof.
  intros k CI CC sh sched n T Hn Hl EI EC.
  assert (Hk : 0 <= k <= 32).
  { cbn in EI. destruct (gear_with_average_size_log2 k) as [p| |] eqn:Ep; cbn [bind] in EI; try discriminate EI. apply gear_ctor_inv in Ep. lia. }
  destruct (C66_gear_rule k n Hk Hn) as [_ B].
  split; (etransitivity; [|exact B]); apply count_le; intros d <- F; apply gear_test_ok; rewrite <- (firstn_all d).
  - exact (first_cut_rule _ _ _ _ (push_cuts_spec (CfgGear k) CI sched d T EI I Hl) F).
  - exact (first_cut_rule _ _ _ _ (edge_cuts_spec (CfgGear k) CC (gear_rule k) sh sched d T EC I eq_refl Hl) F).
Qed.
Print Assumptions C66_gear_first.

(** One byte, one bit: 128 of the 256 streams are cut. *)
Example C66_case : match incr_of (CfgPigz 1) with Ok C => count 1 (cut_at 1 (push_cuts 0 C (fun _ => []))) = 128 | _ => False end /\
  bup_test 32 ([x3e; x01] ++ repeat x00 30) = true /\ bup_test 32 ([x3e; x02] ++ repeat x00 30) = false /\
  gear_test 8 (repeat x00 30 ++ [x03; x46]) = true /\ gear_test 8 (repeat x00 30 ++ [x03; x47]) = false.
Proof. repeat split; vm_compute; reflexivity. Qed.
