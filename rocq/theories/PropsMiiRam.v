(** * PropsMiiRam: C08 - C14. *)

From Verif Require Import Base Api Spec Lists Contract CutFacts.
From Verif Require Import Mii MiiProofs Ram RamProofs.
From Verif Require Import Builtin BuiltinProofs Agree StateFacts CutProps Cases.

(** ** C08 *)
Theorem C08_mii_edges : forall w shrink,
  chunk_conforms shrink (mii_chunk (mii_with_w w)) (ends_at (per_chunk (mii_rule w))) any_length 0.
Proof. exact mii_chunk_conforms. Qed.
Print Assumptions C08_mii_edges.

Theorem C08_mii_w0 : forall c, ~ mii_rule 0 c.
Proof. intros c. exact (mii_never 0 c (or_introl (Z.le_refl 0))). Qed.
Print Assumptions C08_mii_w0.

(** The cuts of a concrete input under the rule, seen with three different bufferings. *)
Example C08_case : let data := [x05; x06; x07; x07; x08; x09; x0a; x0b] in
  cuts_seen (run_chunk false (mii_chunk 2) data (drain data)) = Some [3; 6]%nat /\
  cuts_seen (run_chunk true (mii_chunk 2) data (repeat 1%nat 9)) = Some [3; 6]%nat /\
  cuts_seen (run_chunk false (mii_chunk 2) data ([0; 4; 0; 1]%nat ++ drain data)) = Some [3; 6]%nat.
Proof. repeat split; vm_compute; reflexivity. Qed.

(** ** C09 *)
Theorem C09_mii_push : forall w, incr_conforms 0 (mii_incr (mii_with_w w)) (ends_at (mii_incr_rule w)) any_length /\
  incr_prompt 0 (mii_incr (mii_with_w w)) (ends_at (mii_incr_rule w)) any_length.
Proof. intros w. exact (conj (mii_incr_conforms w) (mii_incr_prompt w)). Qed.
Print Assumptions C09_mii_push.

Example C09_case : let data := [x05; x06; x07; x07; x08; x09; x0a; x0b] in
  cuts_seen (run_incr 0 (mii_incr 2) data (drain data)) = Some [3; 5; 7]%nat /\
  cuts_seen (run_incr 0 (mii_incr 2) data (repeat 1%nat 8)) = Some [3; 5; 7]%nat.
Proof. repeat split; vm_compute; reflexivity. Qed.

(** ** C10 *)
Theorem C10_mii_agree_refuted : exists w data r1 r2,
  run_incr 0 (mii_incr w) data (drain data) = Ok r1 /\ run_chunk false (mii_chunk w) data (drain data) = Ok r2 /\ r_cuts r1 <> r_cuts r2.
Proof.
  destruct (cuts_seen_inv _ (run_incr 0 (mii_incr 1) [x01; x02; x03] (drain [x01; x02; x03])) [2; 3]%nat ltac:(vm_compute; reflexivity)) as (r1 & E1 & H1).
  destruct (cuts_seen_inv _ (run_chunk false (mii_chunk 1) [x01; x02; x03] (drain [x01; x02; x03])) [2]%nat ltac:(vm_compute; reflexivity)) as (r2 & E2 & H2).
  exists 1, [x01; x02; x03], r1, r2. rewrite H1, H2. repeat split; try assumption. discriminate.
Qed.
Print Assumptions C10_mii_agree_refuted.

(** They agree whenever every chunk reported by [push] has more than [w] bytes. *)
Theorem C10_mii_agree_partial : forall w sh data sched1 sched2 r1 r2, is_u64 w -> stream_len (length data) ->
  run_incr 0 (mii_incr (mii_with_w w)) data (sched1 ++ drain data) = Ok r1 ->
  run_chunk sh (mii_chunk (mii_with_w w)) data (sched2 ++ drain data) = Ok r2 ->
  Forall (fun n => w + 1 <= Z.of_nat n) (sizes 0 (r_cuts r1)) -> r_cuts r1 = r_cuts r2.
Proof.
  intros w sh data sched1 sched2 r1 r2 Hw Hl E1 E2 Hs.
  exact (agree_all (CfgMii w) _ _ (mii_rule w) sh data sched1 sched2 r1 r2 Hw I eq_refl eq_refl eq_refl Hl E1 E2 Hs).
Qed.
Print Assumptions C10_mii_agree_partial.

Example C10_case : let data := [x05; x06; x07; x07; x02; x03; x04; x01] in
  cuts_seen (run_incr 0 (mii_incr 2) data (drain data)) = Some [3; 7]%nat /\ Forall (fun n => 2 + 1 <= Z.of_nat n) (sizes 0 [3; 7]%nat).
Proof. split; [vm_compute; reflexivity|]. repeat constructor; cbn; lia. Qed.

(** ** C11 *)
Theorem C11_mii_never : forall w data sched, w <= 0 \/ 256 <= w ->
  (exists r, run_incr 0 (mii_incr (mii_with_w w)) data sched = Ok r /\ r_cuts r = []) /\
  (forall sh, exists r, run_chunk sh (mii_chunk (mii_with_w w)) data sched = Ok r /\ r_cuts r = []).
Proof.
  intros w data sched Hw. split.
  - destruct (mii_incr_conforms w data I) as (cs & Hc & H). destruct (H sched) as [(r & later & E & _ & Ecs & _) _]. exists r. split; [exact E|].
    assert (Z0 : cs = []). { destruct Hc as [h d Hn|h d n cs0 F Hc0]; [reflexivity|]. destruct F as (_ & F & _). destruct h; destruct (mii_never w _ Hw F). }
    rewrite Z0 in Ecs. exact (proj1 (app_eq_nil _ _ (eq_sym Ecs))).
  - intros sh. destruct (mii_chunk_conforms w sh data I) as (cs & Hc & H). destruct (H sched) as [(r & E & _ & (t & Ht) & _) _]. exists r. split; [exact E|].
    assert (Z0 : cs = []). { destruct Hc as [h d Hn|h d n cs0 F Hc0]; [reflexivity|]. destruct F as (_ & F & _). destruct (mii_never w _ Hw F). }
    rewrite Z0 in Ht. exact (proj1 (app_eq_nil _ _ (eq_sym Ht))).
Qed.
Print Assumptions C11_mii_never.

(** The counter, for callers of either API. *)
Theorem C11_mii_counter : (forall w data sched r, run_incr 0 (mii_incr w) data sched = Ok r -> 0 <= mii_increment (r_state r) <= 255) /\
  (forall sh w data s base lo, reaches sh (mii_chunk w) data s base lo -> 0 <= mii_increment s <= 255).
Proof. exact (conj mii_counter_bound mii_counter_bound_chunk). Qed.
Print Assumptions C11_mii_counter.

(** 255 is reached: all byte values in order. *)
Example C11_case : let data := map (fun n => match Byte.of_nat n with Some b => b | None => x00 end) (seq 0 256) in
  match run_incr 0 (mii_incr 256) data [256]%nat with Ok r => mii_increment (r_state r) = 255 /\ r_cuts r = [] | _ => False end /\
  cuts_seen (run_incr 0 (mii_incr 255) data [256]%nat) = Some [256]%nat.
Proof. vm_compute. repeat split. Qed.

(** ** C12 *)
Theorem C12_ram_edges : forall w shrink,
  chunk_conforms shrink (ram_chunk (ram_with_w w)) (ends_at (per_chunk (ram_rule w))) below_2_64 0.
Proof. exact ram_chunk_conforms. Qed.
Print Assumptions C12_ram_edges.

Example C12_case : let data := [x05; x01; x02; x04; x07; x07; x08; x01; x08] in
  cuts_seen (run_chunk true (ram_chunk 1) data (drain data)) = Some [5; 9]%nat /\
  cuts_seen (run_chunk false (ram_chunk 1) data (repeat 1%nat 9)) = Some [5; 9]%nat.
Proof. repeat split; vm_compute; reflexivity. Qed.

(** ** C13 *)
Theorem C13_ram_push : forall w, 0 <= w ->
  incr_conforms 0 (ram_incr (ram_with_w w)) (ends_before (per_chunk (ram_rule w))) below_2_64 /\
  incr_conforms 1 (ram_incr (ram_with_w w)) (ends_at (per_chunk (ram_rule w))) below_2_64 /\
  incr_prompt 1 (ram_incr (ram_with_w w)) (ends_at (per_chunk (ram_rule w))) below_2_64.
Proof. intros w Hw. exact (conj (ram_incr_conforms_before w Hw) (conj (ram_incr_conforms_at w) (ram_incr_prompt_at w))). Qed.
Print Assumptions C13_ram_push.

Example C13_case : let data := [x05; x01; x02; x04; x07; x07; x08; x01; x08] in
  cuts_seen (run_incr 0 (ram_incr 1) data (drain data)) = Some [4; 6; 8]%nat /\
  cuts_seen (run_incr 1 (ram_incr 1) data (repeat 1%nat 9)) = Some [5; 9]%nat.
Proof. repeat split; vm_compute; reflexivity. Qed.

(** ** C14 *)
Theorem C14_ram_sizes : forall w data sched, 0 <= w -> below_2_64 (length data) ->
  (forall sh r, run_chunk sh (ram_chunk (ram_with_w w)) data sched = Ok r -> Forall (fun n => w + 2 <= Z.of_nat n) (sizes 0 (r_cuts r))) /\
  (forall r, run_incr 1 (ram_incr (ram_with_w w)) data sched = Ok r -> Forall (fun n => w + 2 <= Z.of_nat n) (sizes 0 (r_cuts r))) /\
  (forall r, run_incr 0 (ram_incr (ram_with_w w)) data sched = Ok r -> Forall (fun n => w + 1 <= Z.of_nat n) (sizes 0 (r_cuts r))).
Proof.
  intros w data sched Hw Hl. repeat split.
  - intros sh r E. exact (chunk_sizes _ _ (ends_at_laws _) _ sh _ _ (ram_chunk_conforms w sh) (ram_first_size w) data sched r Hl E).
  - intros r E. exact (incr_sizes _ _ (ends_at_laws _) _ _ _ (ram_incr_conforms_at w) (ram_first_size w) data sched r Hl E).
  - intros r E. exact (incr_sizes _ _ (ends_before_laws _) _ _ _ (ram_incr_conforms_before w Hw) (ram_before_size w) data sched r Hl E).
Qed.
Print Assumptions C14_ram_sizes.

(** The bounds are attained. *)
Example C14_case : cuts_seen (run_chunk false (ram_chunk 3) (repeat x07 6) [6]%nat) = Some [5]%nat /\
  cuts_seen (run_incr 0 (ram_incr 3) (repeat x07 6) [6]%nat) = Some [4]%nat.
Proof. split; vm_compute; reflexivity. Qed.
