(** * PropsZstd: C46 - C49. *)

From Verif Require Import Base Api Spec Lists Contract CutFacts Zstd ZstdProofs ZstdIter ZstdEdge.
From Verif Require Import Builtin BuiltinProofs Reach Agree CutProps Cases.

(** 36 bytes with cuts after 33 and after 36 bytes, for the smallest section size. *)
Definition zstd_demo : list byte :=
  [x82; xb7; x0e; xee; x7f; x1a; x50; x39; xbe; xf0; x7e; xc2; x34; x7f; x06; x6e; xd0; x8f;
   x5d; xc7; x51; x24; x47; xe3; x40; x43; x00; x02; x6b; x6e; x8d; x34; x06; xfa; xbe; x7d].

Lemma zstd_new_inv : forall t p, 0 <= t < 2 ^ 64 -> zstd_with_target_section_size t = Ok p -> p = zstd_params (bits_of t) /\ 20 <= bits_of t <= 51.
Proof. intros t p Ht E. destruct (zstd_ctor_inv t p Ht E) as [R ->]. split; [reflexivity|exact (zstd_bits_range t R)]. Qed.

(** ** C46 *)
Theorem C46_zstd_hash : forall t p data sched r, 0 <= t < 2 ^ 64 -> zstd_with_target_section_size t = Ok p ->
  run_incr 1 (zstd_incr p) data sched = Ok r -> (32 <= r_base r)%nat ->
  zi_state (r_state r) = power_sum zstd_prime (fun b => b2z b + 10) 0 (firstn 32 (rev (firstn (r_base r) data))) mod 2 ^ 64.
Proof.
  intros t p data sched r Ht Ep E Hb. destruct (zstd_new_inv t p Ht Ep) as [-> B].
  destruct (incr_state_of 1 (zstd_incr (zstd_params (bits_of t))) _ _ _ (ends_at_laws _) any_length_down (zstd_push_ok (bits_of t) ltac:(lia)) zstd_new_rel data sched r I E)
    as (h & c & Eh & X). cbv beta in X.
  assert (Hr : (r_base r <= length data)%nat).
  { destruct (zstd_incr_conforms (bits_of t) ltac:(lia) data I) as (cs & _ & H). destruct (H sched) as [(r' & l & E' & Hl & _) _].
    replace r with r' by congruence. exact Hl. }
  rewrite <- Eh in X. destruct X as [_ X]. rewrite firstn_length_le in X by exact Hr.
  match type of X with (if ?b then _ else _) => destruct b end; [exact (proj2 (proj2 X))|]. exfalso. lia.
Qed.
Print Assumptions C46_zstd_hash.

Example C46_case : exists p, zstd_with_target_section_size (2 ^ 20) = Ok p /\
  match run_incr 1 (zstd_incr p) zstd_demo [20; 14]%nat with
  | Ok r => r_base r = 33%nat /\ zi_state (r_state r) = zstd_hash (firstn 33 zstd_demo) /\ zi_state (r_state r) mod 2 ^ 20 = 2 ^ 20 - 1
  | _ => False
  end.
Proof. eexists. split; [vm_compute; reflexivity|]. vm_compute. repeat split. Qed.

(** ** C47 *)
Theorem C47_zstd_push : forall t p, 0 <= t < 2 ^ 64 -> zstd_with_target_section_size t = Ok p ->
  incr_conforms 1 (zstd_incr p) (ends_at (per_stream (zstd_rule (bits_of t)))) any_length /\
  incr_prompt 1 (zstd_incr p) (ends_at (per_stream (zstd_rule (bits_of t)))) any_length.
Proof.
  intros t p Ht E. destruct (zstd_new_inv t p Ht E) as [-> B].
  exact (conj (zstd_incr_conforms (bits_of t) ltac:(lia)) (zstd_incr_prompt (bits_of t) ltac:(lia))).
Qed.
Print Assumptions C47_zstd_push.

Example C47_case : exists p, zstd_with_target_section_size (2 ^ 20) = Ok p /\
  cuts_seen (run_incr 1 (zstd_incr p) zstd_demo (drain zstd_demo)) = Some [33; 36]%nat /\
  cuts_seen (run_incr 1 (zstd_incr p) zstd_demo (repeat 5%nat 12)) = Some [33; 36]%nat.
Proof. eexists. split; [vm_compute; reflexivity|]. split; vm_compute; reflexivity. Qed.

(** ** C48: false; after a cut the bytes between the cut and the end of the buffer are lost *)
Theorem C48_zstd_edges_refuted : exists t p data sched1 sched2 r1 r2 r3, zstd_with_target_section_size t = Ok p /\
  run_incr 1 (zstd_incr p) data (drain data) = Ok r1 /\ r_cuts r1 = [33; 36]%nat /\
  run_chunk false (zstd_chunk p) data (sched1 ++ drain data) = Ok r2 /\ r_cuts r2 = [33; 36]%nat /\
  run_chunk false (zstd_chunk p) data (sched2 ++ drain data) = Ok r3 /\ r_cuts r3 = [33]%nat.
Proof.
  set (p := {| zd_hit_mask := 2 ^ 20 - 1; zd_prime_power := zstd_prime ^ 31 mod 2 ^ 64 |}).
  destruct (cuts_seen_inv _ (run_incr 1 (zstd_incr p) zstd_demo (drain zstd_demo)) [33; 36]%nat ltac:(vm_compute; reflexivity)) as (r1 & E1 & H1).
  destruct (cuts_seen_inv _ (run_chunk false (zstd_chunk p) zstd_demo (repeat 33%nat 36 ++ drain zstd_demo)) [33; 36]%nat ltac:(vm_compute; reflexivity)) as (r2 & E2 & H2).
  destruct (cuts_seen_inv _ (run_chunk false (zstd_chunk p) zstd_demo ([] ++ drain zstd_demo)) [33]%nat ltac:(vm_compute; reflexivity)) as (r3 & E3 & H3).
  exists (2 ^ 20), p, zstd_demo, (repeat 33%nat 36), [], r1, r2, r3. split; [vm_compute; reflexivity|]. auto 10.
Qed.
Print Assumptions C48_zstd_edges_refuted.

(** No call panics, every answer is inside the buffer and at most 32 bytes are kept. *)
Theorem C48_zstd_total_partial : forall t p shrink data sched, 0 <= t < 2 ^ 64 -> zstd_with_target_section_size t = Ok p ->
  exists r, run_chunk shrink (zstd_chunk p) data sched = Ok r /\
    (r_base r <= r_seen r <= length data)%nat /\ (r_none r = true -> (r_seen r - r_base r <= 32)%nat).
Proof. intros t p shrink data sched Ht E. destruct (zstd_new_inv t p Ht E) as [-> B]. exact (zstd_chunk_total (bits_of t) shrink data sched). Qed.
Print Assumptions C48_zstd_total_partial.

(** Up to and including the first cut every caller gets what C47 says. *)
Theorem C48_zstd_first_partial : forall t p shrink data sched r, 0 <= t < 2 ^ 64 -> zstd_with_target_section_size t = Ok p ->
  run_chunk shrink (zstd_chunk p) data sched = Ok r ->
  match r_cuts r with
  | [] => forall n, ~ ends_at (per_stream (zstd_rule (bits_of t))) [] (firstn (r_seen r) data) n
  | q :: _ => ends_at (per_stream (zstd_rule (bits_of t))) [] data q
  end.
Proof.
  intros t p shrink data sched r Ht E. destruct (zstd_new_inv t p Ht E) as [-> B].
  exact (zstd_chunk_first (bits_of t) shrink data sched r ltac:(lia)).
Qed.
Print Assumptions C48_zstd_first_partial.

(** A caller who shows at most 33 bytes at a time gets all of them. *)
Theorem C48_zstd_small_partial : forall t p data sched, 0 <= t < 2 ^ 64 -> zstd_with_target_section_size t = Ok p ->
  Forall (fun g => (g <= 33)%nat) sched ->
  exists r, run_chunk false (zstd_chunk p) data sched = Ok r /\ r_base r = (r_seen r - 32)%nat /\
    (r_seen r <= length data)%nat /\ cuts_of (ends_at (per_stream (zstd_rule (bits_of t)))) [] (firstn (r_seen r) data) (r_cuts r) /\
    (Forall (fun g => g = 33%nat) sched -> (length data <= length sched)%nat -> r_seen r = length data).
Proof.
  intros t p data sched Ht E Hs. destruct (zstd_new_inv t p Ht E) as [-> B]. exact (zstd_chunk_small (bits_of t) data sched ltac:(lia) Hs).
Qed.
Print Assumptions C48_zstd_small_partial.

(** What the caller of the documentation gets, exactly: [zstd_edge_run] determines the cuts ([edges_fun]). *)
Theorem C48_zstd_exact_partial : forall t p data sched, 0 <= t < 2 ^ 64 -> zstd_with_target_section_size t = Ok p ->
  exists r e, run_chunk false (zstd_chunk p) data sched = Ok r /\ zstd_edge_run (bits_of t) data sched 0 0 (r_cuts r) e (r_seen r).
Proof.
  intros t p data sched Ht E. destruct (zstd_new_inv t p Ht E) as (-> & Hb).
  destruct (zstd_edge_run_exact (bits_of t) data sched ltac:(lia)) as (r & Er & e & He & _). exists r, e. auto.
Qed.
Print Assumptions C48_zstd_exact_partial.

(** After a call that reported a cut: if the rule also holds at the end of the buffer of that call, the next cut is right;
    otherwise the next cut reported is none of the algorithm's. *)
Theorem C48_zstd_resume_partial : forall t p data sched1 sched2 r1 r2 q more, 0 <= t < 2 ^ 64 -> zstd_with_target_section_size t = Ok p ->
  run_chunk false (zstd_chunk p) data sched1 = Ok r1 -> r_none r1 = false -> r_cuts r1 <> [] ->
  run_chunk false (zstd_chunk p) data (sched1 ++ sched2) = Ok r2 -> r_cuts r2 = r_cuts r1 ++ q :: more ->
  let shown := firstn (r_seen r1) data in
  (zstd_rule (bits_of t) shown -> exists n, q = (r_seen r1 + n)%nat /\ ends_at (per_stream (zstd_rule (bits_of t))) shown (skipn (r_seen r1) data) n) /\
  (~ zstd_rule (bits_of t) shown -> ~ zstd_rule (bits_of t) (firstn q data)).
Proof.
  intros t p data sched1 sched2 r1 r2 q more Ht E E1 N1 C1 E2 Eq shown. destruct (zstd_new_inv t p Ht E) as (-> & Hb).
  destruct (zstd_edge_run_exact (bits_of t) data sched1 ltac:(lia)) as (r1' & Er1 & e1 & H1 & _ & Hn). rewrite E1 in Er1. inversion Er1; subst r1'. clear Er1.
  specialize (Hn N1). subst e1. assert (H33 : (33 <= r_seen r1)%nat) by exact (edges_33 _ _ _ _ _ _ _ _ H1 (or_introl C1) (or_introl eq_refl)).
  destruct (zstd_edge_run_exact (bits_of t) data (sched1 ++ sched2) ltac:(lia)) as (r2' & Er2 & e2 & H2 & _). rewrite E2 in Er2. inversion Er2; subst r2'. clear Er2.
  apply edges_app in H2. destruct H2 as (cs1 & cs2 & e3 & lo3 & Ec & K1 & K2). destruct (edges_fun _ _ _ _ _ _ _ _ H1 _ _ _ K1) as (-> & -> & ->).
  rewrite Eq in Ec. apply app_inv_head in Ec. subst cs2. apply edges_next in K2. destruct K2 as (n & -> & F).
  fold shown in F. assert (Hl : (r_seen r1 < length data)%nat) by (assert (A := proj1 F); rewrite skipn_length in A; lia).
  assert (Hs : length shown = r_seen r1) by (unfold shown; rewrite firstn_length; lia). split; intros HZ.
  - exists n. split; [reflexivity|]. destruct F as (A & B & C). split; [exact A|]. unfold per_stream. split.
    + apply (lost_right (bits_of t) shown _ ltac:(lia) ltac:(lia) HZ). exact B.
    + intros m Hm X. apply (C m Hm). apply (lost_right (bits_of t) shown _ ltac:(lia) ltac:(lia) HZ). exact X.
  - replace (firstn (r_seen r1 + n) data) with (shown ++ firstn n (skipn (r_seen r1) data)).
    + exact (lost_wrong (bits_of t) shown _ ltac:(lia) ltac:(lia) HZ (proj1 (proj2 F))).
    + unfold shown. rewrite (skipn_firstn_split _ (r_seen r1) (r_seen r1 + n) data) by lia. do 2 f_equal. lia.
Qed.
Print Assumptions C48_zstd_resume_partial.

(** The buffer of the first cut ends two bytes after it; the next cut reported, after 38 bytes, is not a cut. *)
Example C48_case : let data := firstn 33 zstd_demo ++ [x01; x02; x05; xe6; x70] in exists p, zstd_with_target_section_size (2 ^ 20) = Ok p /\
  cuts_seen (run_chunk false (zstd_chunk p) data [35; 99]%nat) = Some [33; 38]%nat /\
  cuts_seen (run_chunk false (zstd_chunk p) data (repeat 33%nat 38)) = Some [33]%nat /\
  cuts_seen (run_incr 1 (zstd_incr p) data (drain data)) = Some [33]%nat.
Proof. eexists. split; [reflexivity|]. repeat split; vm_compute; reflexivity. Qed.

(** ** C49 *)
Theorem C49_zstd_constructor : forall t, 0 <= t < 2 ^ 64 ->
  (2 ^ 20 <= t < 2 ^ 52 -> zstd_with_target_section_size t =
     Ok {| zd_hit_mask := 2 ^ (20 + Z.log2 (t / 2 ^ 20)) - 1; zd_prime_power := zstd_prime ^ 31 mod 2 ^ 64 |}) /\
  (~ (2 ^ 20 <= t < 2 ^ 52) -> zstd_with_target_section_size t = Panic).
Proof. intros t Ht. exact (conj (zstd_ctor_ok t) (zstd_ctor_panic t Ht)). Qed.
Print Assumptions C49_zstd_constructor.

Example C49_case : zstd_default = Ok {| zd_hit_mask := 2 ^ 23 - 1; zd_prime_power := zstd_prime ^ 31 mod 2 ^ 64 |} /\
  zstd_with_target_section_size (2 ^ 52) = Panic /\ zstd_with_target_section_size (2 ^ 20 - 1) = Panic /\
  zstd_with_target_section_size (3 * 2 ^ 20) = zstd_with_target_section_size (2 ^ 21).
Proof. repeat split; vm_compute; reflexivity. Qed.
