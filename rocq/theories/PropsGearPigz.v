(** * PropsGearPigz: C15 - C20. *)

From Verif Require Import Base Api Tables Spec Lists Contract Words CutFacts.
From Verif Require Import Gear GearProofs Pigz PigzProofs.
From Verif Require Import Builtin BuiltinProofs Agree CutProps Cases.

(** ** C15 *)
Theorem C15_gear_edges : forall n p shrink, gear_with_average_size_log2 n = Ok p ->
  chunk_conforms shrink (gear_chunk p) (ends_at (per_chunk (gear_rule n))) any_length 0.
Proof. exact gear_chunk_conforms. Qed.
Print Assumptions C15_gear_edges.

(** One bit of mask, so about every other byte ends a chunk; two very different schedules. *)
Example C15_case : exists p, gear_with_average_size_log2 1 = Ok p /\
  let data := [x00; x01; x02; x05; x00; x0b; x17; x00; xdf; x01] in
  cuts_seen (run_chunk false (gear_chunk p) data (drain data)) = Some [6; 7; 9; 10]%nat /\
  cuts_seen (run_chunk true (gear_chunk p) data (repeat 1%nat 11)) = Some [6; 7; 9; 10]%nat.
Proof. eexists. split; [vm_compute; reflexivity|]. split; vm_compute; reflexivity. Qed.

(** ** C16 *)
Theorem C16_gear_push : forall n p, gear_with_average_size_log2 n = Ok p ->
  incr_conforms 1 (gear_incr p) (ends_at (per_chunk (gear_rule n))) any_length /\
  incr_prompt 1 (gear_incr p) (ends_at (per_chunk (gear_rule n))) any_length.
Proof. intros n p E. exact (conj (gear_incr_conforms n p E) (gear_incr_prompt n p E)). Qed.
Print Assumptions C16_gear_push.

(** Call by call, from any state and with any table. *)
Lemma gear_bodies : forall p data i s,
  for_enum (gear_fce_body p) i data s =
  match for_enum (gear_push_body p) i data s with
  | Ok (Return s' k) => Ok (Return s' (k + 1)%nat)
  | x => x
  end.
Proof.
  intros p. induction data as [|b data IH]; intros i s; [reflexivity|]. cbn [for_enum]. unfold gear_fce_body at 1, gear_push_body at 1.
  destruct (gear_state_push p s b) as [[s' [|]]| |]; cbn [bind]; try reflexivity. apply IH.
Qed.
Theorem C16_gear_calls : forall p s data,
  gear_find_chunk_edge p s data =
  match gear_push p s data with
  | Ok (s', Some k) => Ok (s', (Some (k + 1), k + 1))%nat
  | Ok (s', None) => Ok (s', (None, length data))
  | Panic => Panic
  | Diverge => Diverge
  end.
Proof.
  intros p s data. unfold gear_find_chunk_edge, gear_push. rewrite gear_bodies.
  destruct (for_enum (gear_push_body p) 0 data s) as [[s'|s' k|s']| |]; reflexivity.
Qed.
Print Assumptions C16_gear_calls.

Example C16_case : exists p, gear_with_average_size_log2 1 = Ok p /\
  let data := [x00; x01; x02; x05; x00; x0b; x17; x00; xdf; x01] in
  cuts_seen (run_incr 1 (gear_incr p) data ([3; 0; 2]%nat ++ drain data)) = Some [6; 7; 9; 10]%nat.
Proof. eexists. split; [vm_compute; reflexivity|]. vm_compute; reflexivity. Qed.

(** ** C17 *)
Theorem C17_gear_constructor : forall n,
  ((exists p, gear_with_average_size_log2 n = Ok p) <-> 1 <= n <= 31) /\
  (~ 1 <= n <= 31 -> gear_with_average_size_log2 n = Panic) /\
  forall p, gear_with_average_size_log2 n = Ok p -> gear_gear p = GEAR_32 /\
    forall f, 0 <= f < 2 ^ 32 -> (Z.land f (gear_mask p) = gear_xxx p <-> f < 2 ^ (32 - n)).
Proof.
  intros n. split; [split|split].
  - intros [p E]. exact (proj1 (gear_ctor_inv n p E)).
  - intros Hn. eexists. exact (gear_ctor_ok n Hn).
  - exact (gear_ctor_panic n).
  - intros p E. apply gear_ctor_inv in E. destruct E as [Hn ->]. split; [reflexivity|]. intros f Hf. cbn [gear_mask gear_xxx].
    assert (T := top_bits n f ltac:(lia) Hf). rewrite <- Z.eqb_eq, T, Z.ltb_lt. reflexivity.
Qed.
Print Assumptions C17_gear_constructor.

(** What the state machine does with it: [push] of one byte says "split" for exactly those new fingerprints. *)
Theorem C17_gear_split : forall n p fp b fp' hit, gear_with_average_size_log2 n = Ok p ->
  gear_state_push p fp b = Ok (fp', hit) -> 0 <= fp' < 2 ^ 32 /\ (hit = true <-> fp' < 2 ^ (32 - n)).
Proof.
  intros n p fp b fp' hit E Ep. unfold gear_state_push in Ep. destruct (index (gear_gear p) (Z.to_nat (b2z b))) as [g| |]; cbn [bind] in Ep; try discriminate.
  set (f := wrap32 (wrap32 (Z.shiftl fp 1) + g)) in *. assert (R : 0 <= f < 2 ^ 32) by (apply Z.mod_pos_bound; reflexivity). clearbody f.
  assert (Ef : f = fp') by congruence. assert (Eh : (Z.land f (gear_mask p) =? gear_xxx p) = hit) by congruence. subst fp' hit.
  split; [exact R|]. rewrite Z.eqb_eq. exact (proj2 (proj2 (proj2 (C17_gear_constructor n)) p E) f R).
Qed.
Print Assumptions C17_gear_split.

Example C17_case : gear_with_average_size_log2 0 = Panic /\ gear_with_average_size_log2 32 = Panic /\
  gear_with_average_size_log2 13 = Ok {| gear_mask := 0xfff80000; gear_xxx := 0; gear_gear := GEAR_32 |} /\ gear_default = gear_with_average_size_log2 13.
Proof. repeat split; vm_compute; reflexivity. Qed.

(** ** C18 *)
Theorem C18_pigz_edges : forall b p shrink, pigz_with_bits b = Ok p ->
  chunk_conforms shrink (pigz_chunk p) (ends_at (per_chunk (pigz_rule b))) any_length 0.
Proof. exact pigz_chunk_conforms. Qed.
Print Assumptions C18_pigz_edges.

Example C18_case : exists p, pigz_with_bits 3 = Ok p /\ let data := [x01; x02; x03; x04; x07; x07; x06; x05] in
  cuts_seen (run_chunk false (pigz_chunk p) data (drain data)) = Some [3; 5]%nat /\
  cuts_seen (run_chunk true (pigz_chunk p) data (repeat 1%nat 9)) = Some [3; 5]%nat.
Proof. eexists. split; [vm_compute; reflexivity|]. split; vm_compute; reflexivity. Qed.

(** ** C19 *)
Theorem C19_pigz_push : forall b p, pigz_with_bits b = Ok p ->
  incr_conforms 0 (pigz_incr p) (ends_at (per_chunk (pigz_rule b))) any_length /\
  incr_prompt 0 (pigz_incr p) (ends_at (per_chunk (pigz_rule b))) any_length.
Proof. intros b p E. exact (conj (pigz_incr_conforms b p E) (pigz_incr_prompt b p E)). Qed.
Print Assumptions C19_pigz_push.

(** Any two complete runs, one of each API. *)
Theorem C19_pigz_agree : forall b CI CC sh data sched1 sched2 r1 r2, 0 <= b < 256 ->
  incr_of (CfgPigz b) = Ok CI -> chunk_of (CfgPigz b) = Ok CC -> stream_len (length data) ->
  run_incr 0 CI data (sched1 ++ drain data) = Ok r1 -> run_chunk sh CC data (sched2 ++ drain data) = Ok r2 -> r_cuts r1 = r_cuts r2.
Proof.
  intros b CI CC sh data sched1 sched2 r1 r2 Hb EI EC Hl E1 E2.
  exact (agree_all (CfgPigz b) CI CC (pigz_rule b) sh data sched1 sched2 r1 r2 Hb I eq_refl EI EC Hl E1 E2 I).
Qed.
Print Assumptions C19_pigz_agree.

Example C19_case : exists p, pigz_with_bits 3 = Ok p /\ let data := [x01; x02; x03; x04; x07; x07; x06; x05] in
  cuts_seen (run_incr 0 (pigz_incr p) data ([1; 3; 0; 1]%nat ++ drain data)) = Some [3; 5]%nat.
Proof. eexists. split; [vm_compute; reflexivity|]. vm_compute; reflexivity. Qed.

(** ** C20 *)
Theorem C20_pigz_constructor : forall b,
  (0 <= b <= 31 -> pigz_with_bits b = Ok {| pigz_bits := b; pigz_mask := 2 ^ b - 1; pigz_hit := (2 ^ b - 1) / 2 |}) /\
  (32 <= b -> pigz_with_bits b = Panic).
Proof. intros b. split; [exact (pigz_ctor_ok b)|]. intros Hb. apply pigz_ctor_panic. lia. Qed.
Print Assumptions C20_pigz_constructor.

Example C20_case : pigz_with_bits 0 = Ok {| pigz_bits := 0; pigz_mask := 0; pigz_hit := 0 |} /\
  pigz_default = Ok {| pigz_bits := 12; pigz_mask := 4095; pigz_hit := 2047 |} /\ pigz_with_bits 32 = Panic.
Proof. repeat split; vm_compute; reflexivity. Qed.
