(** * PropsCuts: C50 and C51. *)

From Verif Require Import Base Api Spec Lists Contract CutFacts.
From Verif Require Import Gzip Mii BuzHash BuzWindow BuzProofs Rot.
From Verif Require Import Builtin BuiltinProofs Agree CutProps Cases.

(** ** C50 *)

(** The configurations with a rule for [find_chunk_edge] are those of the eight algorithms named in the claim. *)
Lemma C50_covers : forall c, (exists rule, chunk_rule c = Some rule) <->
  match c with CfgFastCdc _ _ _ _ | CfgZstd _ => False | _ => True end.
Proof. intros c. destruct c; cbn; split; intros H; eauto; try contradiction; destruct H; discriminate. Qed.

(** After a cut the chunker behaves like a fresh one on the rest, however either stream is buffered. *)
Theorem C50_restart : forall c C rule, typed c -> chunk_of c = Ok C -> chunk_sound c -> chunk_rule c = Some rule ->
  forall sh1 sh2 a b sched1 sched2 r1 r2, stream_len (length (a ++ b)) ->
  run_chunk sh1 C (a ++ b) (sched1 ++ drain (a ++ b)) = Ok r1 -> run_chunk sh2 C b (sched2 ++ drain b) = Ok r2 ->
  In (length a) (r_cuts r1) -> cuts_after (length a) (r_cuts r1) = r_cuts r2.
Proof. exact chunk_restart. Qed.
Print Assumptions C50_restart.

Theorem C50_same_tail : forall c C rule, typed c -> chunk_of c = Ok C -> chunk_sound c -> chunk_rule c = Some rule ->
  forall sh1 sh2 a1 a2 b sched1 sched2 r1 r2, stream_len (length (a1 ++ b)) -> stream_len (length (a2 ++ b)) ->
  run_chunk sh1 C (a1 ++ b) (sched1 ++ drain (a1 ++ b)) = Ok r1 -> run_chunk sh2 C (a2 ++ b) (sched2 ++ drain (a2 ++ b)) = Ok r2 ->
  In (length a1) (r_cuts r1) -> In (length a2) (r_cuts r2) ->
  cuts_after (length a1) (r_cuts r1) = cuts_after (length a2) (r_cuts r2).
Proof. exact chunk_same_tail. Qed.
Print Assumptions C50_same_tail.

(** The same for [push], where the chunker resets at a cut. *)
Theorem C50_push_restart : forall c C, typed c -> incr_of c = Ok C -> incr_sound c ->
  match c with CfgMii _ | CfgRollSum _ | CfgZstd _ => False | _ => True end ->
  forall a b sched1 sched2 r1 r2, stream_len (length (a ++ b)) ->
  run_incr (incr_adj c) C (a ++ b) (sched1 ++ drain (a ++ b)) = Ok r1 -> run_incr (incr_adj c) C b (sched2 ++ drain b) = Ok r2 ->
  In (length a) (r_cuts r1) -> cuts_after (length a) (r_cuts r1) = r_cuts r2.
Proof. intros c C T E S R a b sched1 sched2 r1 r2. exact (incr_restart c C T E S a b sched1 sched2 r1 r2 R). Qed.
Print Assumptions C50_push_restart.

Theorem C50_push_same_tail : forall c C, typed c -> incr_of c = Ok C -> incr_sound c ->
  match c with CfgRollSum _ | CfgZstd _ => False | _ => True end ->
  forall a1 a2 b sched1 sched2 r1 r2, stream_len (length (a1 ++ b)) -> stream_len (length (a2 ++ b)) ->
  run_incr (incr_adj c) C (a1 ++ b) (sched1 ++ drain (a1 ++ b)) = Ok r1 -> run_incr (incr_adj c) C (a2 ++ b) (sched2 ++ drain (a2 ++ b)) = Ok r2 ->
  In (length a1) (r_cuts r1) -> In (length a2) (r_cuts r2) ->
  cuts_after (length a1) (r_cuts r1) = cuts_after (length a2) (r_cuts r2).
Proof.
  intros c C T E S R a1 a2 b sched1 sched2 r1 r2. apply (incr_same_tail c C T E S).
  destruct c; try (left; exact I); try contradiction. right. eauto.
Qed.
Print Assumptions C50_push_same_tail.

(** MiiIncr is not like a fresh chunker after a cut: what follows the cut matters only together with it. *)
Theorem C50_mii_push_restart_refuted : exists w a b r1 r2, 
  run_incr 0 (mii_incr w) (a ++ b) (drain (a ++ b)) = Ok r1 /\ run_incr 0 (mii_incr w) b (drain b) = Ok r2 /\
  In (length a) (r_cuts r1) /\ cuts_after (length a) (r_cuts r1) <> r_cuts r2.
Proof.
  destruct (cuts_seen_inv _ (run_incr 0 (mii_incr 1) ([x01; x02] ++ [x03]) (drain ([x01; x02] ++ [x03]))) [2; 3]%nat ltac:(vm_compute; reflexivity)) as (r1 & E1 & H1).
  destruct (cuts_seen_inv _ (run_incr 0 (mii_incr 1) [x03] (drain [x03])) []%nat ltac:(vm_compute; reflexivity)) as (r2 & E2 & H2).
  exists 1, [x01; x02], [x03], r1, r2. rewrite H1, H2. split; [exact E1|]. split; [exact E2|]. split; [left; reflexivity|]. discriminate.
Qed.
Print Assumptions C50_mii_push_restart_refuted.

Example C50_case : let C := gzip_chunk (gzip_with_window_and_modulus 2 5) in
  let a := [x01; x02; x01; x02; x04; x01] in let b := [x03; x02; x09; x01] in
  cuts_seen (run_chunk false C (a ++ b) (drain (a ++ b))) = Some [6; 8; 10]%nat /\ (cuts_after 6 [6; 8; 10] = [2; 4])%nat /\
  cuts_seen (run_chunk true C b (drain b)) = Some [2; 4]%nat.
Proof. repeat split; vm_compute; reflexivity. Qed.

(** ** C51 *)

(** False for BuzHash with some capacities: the byte before the shared tail decides a cut 12 bytes into it. *)
Theorem C51_buz_resync_refuted : exists k mask h max C a1 a2 b r1 r2 q, typed (CfgBuzHash k mask h max) /\ chunk_of (CfgBuzHash k mask h max) = Ok C /\
  run_chunk false C (a1 ++ b) (drain (a1 ++ b)) = Ok r1 /\ run_chunk false C (a2 ++ b) (drain (a2 ++ b)) = Ok r2 /\
  (k <= q <= length b)%nat /\
  no_cut_between (length a1 + q - k) (length a1 + q) (r_cuts r1) /\ no_cut_between (length a2 + q - k) (length a2 + q) (r_cuts r2) /\
  In (length a1 + q)%nat (r_cuts r1) /\ ~ In (length a2 + q)%nat (r_cuts r2).
Proof.
  set (p := {| bz_k := 8; bz_h := fun b => Ok (one_hot b); bz_mask := 2 ^ 12; bz_max_chunk_size := 1000 |}).
  destruct (cuts_seen_inv _ (run_chunk false (buz_chunk p) ([x01] ++ repeat x00 20) (drain ([x01] ++ repeat x00 20))) [13]%nat ltac:(vm_compute; reflexivity)) as (r1 & E1 & H1).
  destruct (cuts_seen_inv _ (run_chunk false (buz_chunk p) ([x00] ++ repeat x00 20) (drain ([x00] ++ repeat x00 20))) []%nat ltac:(vm_compute; reflexivity)) as (r2 & E2 & H2).
  exists 8%nat, (2 ^ 12), (fun b => Ok (one_hot b)), 1000, (buz_chunk p), [x01], [x00], (repeat x00 20), r1, r2, 12%nat.
  split. { split; [split; reflexivity || discriminate|]. split; [split; reflexivity || discriminate|]. intros b. exists (one_hot b). split; [reflexivity|exact (one_hot_word b)]. }
  split; [reflexivity|]. split; [exact E1|]. split; [exact E2|]. split; [cbn; lia|]. rewrite H1, H2.
  split; [intros x [<-|[]]; cbn; lia|]. split; [intros x []|]. split; [left; reflexivity|]. intros [].
Qed.
Print Assumptions C51_buz_resync_refuted.

(** True for all of the named algorithms and for Mii, with [find_chunk_edge]; for BuzHash when [k mod 32 < 8]. *)
Theorem C51_resync_partial : forall c C w, typed c -> chunk_of c = Ok C -> chunk_sound c ->
  match c with
  | CfgMii n => w = (Z.to_nat n + 1)%nat
  | CfgGear _ => w = 32%nat
  | CfgPigz b => w = Z.to_nat b
  | CfgGzip n _ => w = n
  | CfgRollSum n => w = n
  | CfgBuzHash k _ _ _ => w = k /\ (k mod 32 < 8)%nat
  | _ => False
  end ->
  forall sh1 sh2 a1 a2 b sched1 sched2 r1 r2, stream_len (length (a1 ++ b)) -> stream_len (length (a2 ++ b)) ->
  run_chunk sh1 C (a1 ++ b) (sched1 ++ drain (a1 ++ b)) = Ok r1 -> run_chunk sh2 C (a2 ++ b) (sched2 ++ drain (a2 ++ b)) = Ok r2 ->
  forall q, (1 <= q <= length b)%nat -> (w <= q)%nat ->
  no_cut_between (length a1 + q - w) (length a1 + q) (r_cuts r1) -> no_cut_between (length a2 + q - w) (length a2 + q) (r_cuts r2) ->
  In (length a1 + q)%nat (r_cuts r1) ->
  In (length a2 + q)%nat (r_cuts r2) /\ cuts_after (length a1 + q) (r_cuts r1) = cuts_after (length a2 + q) (r_cuts r2).
Proof.
  intros c C w T E S HW. destruct (chunk_rule c) as [rule|] eqn:R; [|destruct c; cbn in R; try discriminate; destruct HW].
  apply (chunk_resync c C rule w T E S R). destruct c; try contradiction; cbn [chunk_window]; subst; try reflexivity.
  destruct HW as [-> HW]. destruct (Nat.ltb_spec (capacity mod 32) 8); [reflexivity|lia].
Qed.
Print Assumptions C51_resync_partial.

(** With [push], for those that reset at a cut. *)
Theorem C51_push_resync : forall c C w, typed c -> incr_of c = Ok C -> incr_sound c ->
  match c with
  | CfgGear _ => w = 32%nat
  | CfgPigz b => w = Z.to_nat b
  | CfgGzip n _ => w = n
  | _ => False
  end ->
  forall a1 a2 b sched1 sched2 r1 r2, stream_len (length (a1 ++ b)) -> stream_len (length (a2 ++ b)) ->
  run_incr (incr_adj c) C (a1 ++ b) (sched1 ++ drain (a1 ++ b)) = Ok r1 -> run_incr (incr_adj c) C (a2 ++ b) (sched2 ++ drain (a2 ++ b)) = Ok r2 ->
  forall q, (1 <= q <= length b)%nat -> (w <= q)%nat ->
  no_cut_between (length a1 + q - w) (length a1 + q) (r_cuts r1) -> no_cut_between (length a2 + q - w) (length a2 + q) (r_cuts r2) ->
  In (length a1 + q)%nat (r_cuts r1) ->
  In (length a2 + q)%nat (r_cuts r2) /\ cuts_after (length a1 + q) (r_cuts r1) = cuts_after (length a2 + q) (r_cuts r2).
Proof.
  intros c C w T E S HW. destruct (incr_window c) as [[w' rule]|] eqn:R; [|destruct c; cbn in R; try discriminate; destruct HW].
  assert (X : w' = w) by (destruct c; cbn in R, HW; try contradiction; congruence). subst w'.
  exact (incr_resync c C rule w T E S R).
Qed.
Print Assumptions C51_push_resync.

(** RollSumIncr and ZstdIncr look at the last bytes of the stream, whatever was cut: from one window into the shared tail
    on all cuts are the same, without any assumption on earlier ones. *)
Theorem C51_push_resync_stream : forall c C w, typed c -> incr_of c = Ok C ->
  match c with
  | CfgRollSum n => w = n /\ exists k, n = (2 ^ k)%nat
  | CfgZstd _ => w = 33%nat
  | _ => False
  end ->
  forall a1 a2 b sched1 sched2 r1 r2, stream_len (length (a1 ++ b)) -> stream_len (length (a2 ++ b)) ->
  run_incr (incr_adj c) C (a1 ++ b) (sched1 ++ drain (a1 ++ b)) = Ok r1 -> run_incr (incr_adj c) C (a2 ++ b) (sched2 ++ drain (a2 ++ b)) = Ok r2 ->
  forall q, (1 <= q <= length b)%nat -> (w <= q)%nat -> (In (length a1 + q)%nat (r_cuts r1) <-> In (length a2 + q)%nat (r_cuts r2)).
Proof. exact incr_resync_stream. Qed.
Print Assumptions C51_push_resync_stream.

Example C51_case : let C := gzip_chunk (gzip_with_window_and_modulus 2 5) in let b := [x01; x02; x04; x01; x03; x04; x01] in
  cuts_seen (run_chunk false C ([x01] ++ b) (drain ([x01] ++ b))) = Some [5; 8]%nat /\
  cuts_seen (run_chunk true C ([x04; x04; x02] ++ b) (drain ([x04; x04; x02] ++ b))) = Some [7; 10]%nat /\
  (no_cut_between (1 + 4 - 2) (1 + 4) [5; 8] /\ no_cut_between (3 + 4 - 2) (3 + 4) [7; 10])%nat.
Proof. split; [vm_compute; reflexivity|]. split; [vm_compute; reflexivity|]. split; intros x [<-|[<-|[]]]; lia. Qed.
