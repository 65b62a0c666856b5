(** * PropsFastCdcExact: C25 as an equivalence. *)

From Verif Require Import Base Api Tables Spec Lists FastCdc FastCdcProofs FastCdcExact Builtin Cases Words.

(** The cuts do not depend on the slicing exactly when no chunk can be empty, and either the sizes are in order ([normal <= max]), or
    [normal <= min + 1], or every chunk is ended by its contents before slices could matter. *)
Theorem C25_fastcdc_exact_partial : forall g min normal max, typed (CfgFastCdc g min normal max) ->
  ((forall data sched1 sched2, below_2_64 (length data) -> exists r1 r2,
      run_incr 0 (fastcdc_incr (fastcdc_new g min normal max)) data (sched1 ++ drain data) = Ok r1 /\
      run_incr 0 (fastcdc_incr (fastcdc_new g min normal max)) data (sched2 ++ drain data) = Ok r2 /\ r_cuts r1 = r_cuts r2)
   <->
   (1 <= min \/ ((0 < normal \/ 0 < max) /\ forall b, ~ bits_clear (table_at g b) (fastcdc_mask normal 0))) /\
   (normal <= max \/ normal <= min + 1 \/
    forall u, Z.of_nat (length u) = Z.max (min + 1) max + 1 - min ->
      exists i, (i < length u)%nat /\ bits_clear (power_sum 2 (table_at g) 0 (rev (firstn (S i) u)) mod 2 ^ 64) 0x0003590703530000)).
Proof.
  intros g min normal max (Hg & Hu & Hmin & Hn & Hmax). unfold is_u64 in Hmin, Hn, Hmax.
  assert (K := fc_free_iff (fastcdc_new g min normal max) Hg Hu ltac:(cbn; lia) ltac:(cbn; lia) ltac:(cbn; lia)).
  unfold slicing_free, fc_independent, fc_moves, forced_at in K. cbn [fastcdc_new fc_gear fc_min_size fc_normal_size fc_max_size] in K. unfold fastcdc_new in *.
  rewrite K. clear K. split; intros [A B]; (split; [exact A|]); (destruct B as [B|[B|B]]; [now left|right; now left|right; right]); intros u Lu.
  - specialize (B u Lu). set (hit := fun i => Z.land (power_sum 2 (table_at g) 0 (rev (firstn (S i) u)) mod 2 ^ 64) MASK_S =? 0).
    destruct (existsb hit (seq 0 (length u))) eqn:E.
    + apply existsb_exists in E. destruct E as (i & Hi & Hh). apply in_seq in Hi. exists i. split; [lia|]. unfold hit in Hh. apply Z.eqb_eq in Hh.
      apply land_zero_clear in Hh; [exact Hh|unfold MASK_S; lia].
    + exfalso. apply B. intros i Hi C. apply land_zero_clear in C; [|unfold MASK_S; lia].
      assert (X : existsb hit (seq 0 (length u)) = true) by (apply existsb_exists; exists i; split; [apply in_seq; lia|unfold hit; now rewrite C]). congruence.
  - intros M. destruct (B u Lu) as (i & Hi & C). exact (M i Hi C).
Qed.
Print Assumptions C25_fastcdc_exact_partial.

(** With the crate's own table the contents never suffice. *)
Theorem C25_fastcdc_gear64_partial : forall min normal max, is_u64 min -> is_u64 normal -> is_u64 max -> 1 <= min ->
  ((forall data sched1 sched2, below_2_64 (length data) -> exists r1 r2,
      run_incr 0 (fastcdc_incr (fastcdc_new GEAR_64 min normal max)) data (sched1 ++ drain data) = Ok r1 /\
      run_incr 0 (fastcdc_incr (fastcdc_new GEAR_64 min normal max)) data (sched2 ++ drain data) = Ok r2 /\ r_cuts r1 = r_cuts r2)
   <-> normal <= max \/ normal <= min + 1).
Proof.
  intros min normal max H1 H2 H3 Hm. rewrite (C25_fastcdc_exact_partial GEAR_64 min normal max (typed_gear64 min normal max H1 H2 H3)). split.
  - intros [_ [A|[A|A]]]; [now left|now right|exfalso]. unfold is_u64 in *. set (n := Z.to_nat (Z.max (min + 1) max + 1 - min)).
    destruct (A (repeat x00 n)) as (i & Hi & C); [rewrite repeat_length; unfold n; lia|]. exact (gear64_misses n i Hi C).
  - intros A. split; [now left|]. destruct A as [A|A]; [now left|right; now left].
Qed.
Print Assumptions C25_fastcdc_gear64_partial.

(** [normal = min + 1 > max]: every chunk has 3 or 4 bytes, whatever the slices; [normal = min + 2]: not so. *)
Example C25_exact_case : let data := repeat x00 12 in
  cuts_seen (run_incr 0 (fastcdc_incr (fastcdc_new GEAR_64 3 4 2)) data (drain data)) = Some [4; 8; 12]%nat /\
  cuts_seen (run_incr 0 (fastcdc_incr (fastcdc_new GEAR_64 3 4 2)) data (repeat 1%nat 20)) = Some [4; 8; 12]%nat /\
  cuts_seen (run_incr 0 (fastcdc_incr (fastcdc_new GEAR_64 3 5 2)) data (drain data)) = Some [5; 10]%nat /\
  cuts_seen (run_incr 0 (fastcdc_incr (fastcdc_new GEAR_64 3 5 2)) data (repeat 1%nat 20)) = Some [4; 8; 12]%nat.
Proof. repeat split; vm_compute; reflexivity. Qed.
