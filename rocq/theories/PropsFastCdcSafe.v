(** * PropsFastCdcSafe: C27 for every stream, with the exact condition under which a caller panics. *)

From Verif Require Import Base Api Tables Spec Lists Contract Words FastCdc FastCdcProofs FastCdcTotal FastCdcExact FastCdcSafe FastCdcAny Builtin Cases.

(** The contents of [d] end a chunk before its maximal size. *)
Lemma hit_dec : forall p d (a b : Z), 0 <= a -> (exists i, a <= Z.of_nat i < b /\ fc_hit p d i) \/ (forall i, a <= Z.of_nat i < b -> ~ fc_hit p d i).
Proof.
  intros p d a b Ha. set (hit := fun i => andb (a <=? Z.of_nat i) (Z.land (fc_hash p (firstn (S i) d)) (fastcdc_mask (fc_normal_size p) i) =? 0)).
  destruct (existsb hit (seq 0 (Z.to_nat b))) eqn:E.
  - left. apply existsb_exists in E. destruct E as (i & Hi & Hh). apply in_seq in Hi. unfold hit in Hh. apply andb_prop in Hh. destruct Hh as [H1 H2].
    exists i. split; [lia|]. apply fc_hit_spec. now apply Z.eqb_eq.
  - right. intros i Hi C. apply fc_hit_spec in C.
    assert (X : existsb hit (seq 0 (Z.to_nat b)) = true); [|congruence].
    apply existsb_exists. exists i. split; [apply in_seq; lia|]. unfold hit. rewrite C. replace (a <=? Z.of_nat i) with true by (symmetry; apply Z.leb_le; lia). reflexivity.
Qed.

(** Any caller, any stream, any sizes.  Whoever gets to the end has the cuts of the rule with the larger of [normal] and [max] as maximum;
    somebody is made to panic exactly when some chunk has [max] (and more than [min]) bytes without a cut in its contents. *)
Theorem C27_fastcdc_exact_partial : forall g min normal max shrink data, length g = 256%nat -> 0 <= min -> below_2_64 (length data) ->
  let top := Z.max normal max in let m := Z.max max (min + 1) in
  let edge := fun h d m => exists n, m = S n /\ (n < length d)%nat /\ fastcdc_first g min normal top h d n in
  let run := run_chunk shrink (fastcdc_chunk (fastcdc_new g min normal max)) data in
  (forall sched, run sched = Panic \/ exists r, run sched = Ok r /\ (r_none r = true -> cuts_of edge [] (firstn (r_seen r) data) (r_cuts r))) /\
  (forall sched r, run (sched ++ drain data) = Ok r -> cuts_of edge [] data (r_cuts r)) /\
  ((forall sched, run sched <> Panic) <->
   (forall cs h d, cut_path edge [] data cs h d -> m <= top -> m <= Z.of_nat (length d) ->
    exists i, min <= Z.of_nat i < m /\ bits_clear (fastcdc_fingerprint g (Z.to_nat min) i d) (fastcdc_mask normal i))).
Proof.
  intros g min normal max shrink data Hg Hmin Hl top m edge run. set (p := fastcdc_new g min normal max) in *.
  assert (Hp : fastcdc_ok (fc_up p)) by (apply fc_up_ok; assumption).
  assert (K : forall sched r, run sched = Ok r -> run_chunk shrink (fastcdc_chunk (fc_up p)) data sched = Ok r).
  { intros sched r E. destruct (fc_run_alt p shrink data Hg Hmin Hl sched) as [X|[X _]]; [exact (eq_trans (eq_sym X) E)|]. assert (Y := eq_trans (eq_sym X) E). discriminate Y. }
  split; [|split].
  - intros sched. destruct (fc_run_alt p shrink data Hg Hmin Hl sched) as [X|[X _]]; [|now left].
    destruct (fc_run_trace (fc_up p) shrink data sched Hp Hl) as [(r & h & E & _)|(E & _)]; [right|left; exact (eq_trans X E)].
    exists r. split; [exact (eq_trans X E)|]. exact (fc_run_cuts (fc_up p) shrink data sched r Hp Hl E).
  - intros sched r E. apply K in E. destruct (fc_run_end (fc_up p) shrink data sched r Hp Hl E) as [A B].
    assert (C := fc_run_cuts (fc_up p) shrink data _ r Hp Hl E A). rewrite B, firstn_all in C. exact C.
  - split.
    + intros H cs h d P Ht Hd. destruct (hit_dec p d min m Hmin) as [(i & Hi & C)|C]; [exists i; auto|]. exfalso.
      destruct (fc_fallen_panics p shrink data Hg Hmin Hl) as (sched & E); [|exact (H sched E)].
      exists cs, h, d, (Z.to_nat m). split; [exact P|]. split; [lia|]. apply fc_cliff_firstn; [lia|]. rewrite Z2Nat.id by lia.
      split; [cbn; lia|]. split; [cbn; unfold fc_top; cbn; lia|exact C].
    + intros H sched E. apply (fc_panic_fallen p shrink data Hg Hmin Hl) in E. destruct E as (cs & h & d & n & P & Hn & C).
      apply (fc_cliff_firstn p d n Hn) in C. destruct C as (C1 & C2 & C3). unfold fc_top in C2. cbn [p fastcdc_new fc_min_size fc_max_size fc_normal_size] in C1, C2, C3.
      destruct (H cs h d P ltac:(lia) ltac:(lia)) as (i & Hi & X). apply (C3 i); [lia|exact X].
Qed.
Print Assumptions C27_fastcdc_exact_partial.

Lemma path_sizes : forall (first : first_rel) (B : nat -> Prop), (forall h d n, first h d n -> (n <= length d)%nat) -> (forall h d n, first h d n -> B n) ->
  forall h d cs h' d', cut_path first h d cs h' d' -> Forall B (sizes (length h) cs).
Proof.
  intros first B Hn HB h d cs h' d' P. induction P as [|h0 d0 n cs h1 d1 F P IH]; cbn [sizes]; constructor.
  - replace (length h0 + n - length h0)%nat with n by lia. exact (HB _ _ _ F).
  - replace (length h0 + n)%nat with (length (h0 ++ firstn n d0)); [exact IH|]. assert (X := Hn _ _ _ F). rewrite app_length, firstn_length. lia.
Qed.

(** Chunk sizes for any sizes, in order or not: [push] never panics and [find_chunk_edge] is one longer. *)
Theorem C26_fastcdc_any_partial : forall g min normal max data sched, length g = 256%nat -> 0 <= min -> below_2_64 (length data) ->
  let top := Z.max min (Z.max normal max) in
  (exists r, run_incr 0 (fastcdc_incr (fastcdc_new g min normal max)) data sched = Ok r /\
     Forall (fun n => min <= Z.of_nat n <= top) (sizes 0 (r_cuts r))) /\
  (forall sh r, run_chunk sh (fastcdc_chunk (fastcdc_new g min normal max)) data sched = Ok r ->
     Forall (fun n => min + 1 <= Z.of_nat n <= top + 1) (sizes 0 (r_cuts r))).
Proof.
  intros g min normal max data sched Hg Hmin Hl top. set (p := fastcdc_new g min normal max). split.
  - destruct (fastcdc_incr_total p data sched Hg Hmin Hl) as (r & E & _ & S & _). exists r. split; [exact E|exact S].
  - intros sh r E. destruct (fc_run_alt p sh data Hg Hmin Hl sched) as [X|[X _]]; apply (eq_trans (eq_sym X)) in E; [|discriminate E].
    assert (Hp : fastcdc_ok (fc_up p)) by (apply fc_up_ok; assumption).
    destruct (fc_chunk_partial (fc_up p) sh data sched r Hp Hl E) as (h & P).
    assert (B : forall h d n, fc_edge (fc_up p) h d n -> min + 1 <= Z.of_nat n <= top + 1).
    { intros h0 d0 n (k & -> & Hk & (F1 & F2 & F3 & F4)). change (fc_min_size (fc_up p)) with min in *.
      assert (Z.of_nat k <= top); [|lia]. destruct (Z.le_gt_cases (Z.of_nat k) top) as [Y|Y]; [exact Y|]. exfalso.
      apply (F4 (Z.to_nat top)); [lia|]. left. cbn. unfold fc_top. cbn. lia. }
    exact (path_sizes _ (fun n => min + 1 <= Z.of_nat n <= top + 1) (fl_len _ (fc_edge_laws (fc_up p) Hmin)) B [] data _ _ _ P).
Qed.
Print Assumptions C26_fastcdc_any_partial.

(** Showing all that is left in every call, as the documented loop does on one buffer: a panic exactly when the last chunk has [max] (and more
    than [min]) bytes, not more than the larger of [normal] and [max], and is not ended by its contents. *)
Theorem C27_fastcdc_one_buffer_partial : forall g min normal max shrink data, length g = 256%nat -> 0 <= min -> below_2_64 (length data) ->
  let top := Z.max normal max in
  let edge := fun h d m => exists n, m = S n /\ (n < length d)%nat /\ fastcdc_first g min normal top h d n in
  (run_chunk shrink (fastcdc_chunk (fastcdc_new g min normal max)) data (drain data) = Panic <->
   exists cs h d, cut_path edge [] data cs h d /\ min < Z.of_nat (length d) /\ max <= Z.of_nat (length d) <= top /\
     forall i, min <= Z.of_nat i < Z.of_nat (length d) -> ~ bits_clear (fastcdc_fingerprint g (Z.to_nat min) i d) (fastcdc_mask normal i)).
Proof.
  intros g min normal max shrink data Hg Hmin Hl top edge. set (p := fastcdc_new g min normal max) in *.
  exact (fc_drive_all_any p shrink data Hg Hmin Hl (S (length data)) [] data 0%nat 0%nat false eq_refl ltac:(cbn; lia) ltac:(lia)).
Qed.
Print Assumptions C27_fastcdc_one_buffer_partial.

(** The crate's own table: only sizes that never look at the contents are safe for every input. *)
Lemma gear64_zero : forall p n, fc_gear p = GEAR_64 -> 0 <= fc_min_size p -> forall i, (Z.to_nat (fc_min_size p) <= i < n)%nat -> ~ fc_hit p (repeat x00 n) i.
Proof.
  intros p n Hg Hm i Hi C. apply fc_hit_spec in C. unfold fc_hash in C. rewrite Hg in C. revert C.
  assert (E : skipn (Z.to_nat (fc_min_size p)) (firstn (S i) (repeat x00 n)) = repeat x00 (S i - Z.to_nat (fc_min_size p))).
  { replace n with (S i + (n - S i))%nat by lia. rewrite repeat_app, firstn_app_le by (rewrite repeat_length; lia).
    rewrite firstn_all2 by (rewrite repeat_length; lia). replace (S i) with (Z.to_nat (fc_min_size p) + (S i - Z.to_nat (fc_min_size p)))%nat at 1 by lia.
    rewrite repeat_app, skipn_app_ge, repeat_length, Nat.sub_diag by (rewrite repeat_length; lia). reflexivity. }
  rewrite E, rev_repeat_byte, power_sum_repeat. clear E. set (k := (S i - Z.to_nat (fc_min_size p))%nat). assert (Hk : (1 <= k)%nat) by lia.
  change (2 ^ Z.of_nat 0) with 1. rewrite Z.mul_1_l. unfold fastcdc_mask.
  destruct (Nat.le_gt_cases k 64) as [G|G].
  - assert (F : forallb (fun k => andb (negb (Z.land ((table_at GEAR_64 x00 * (2 ^ Z.of_nat k - 1)) mod 2 ^ 64) MASK_S =? 0))
                                       (negb (Z.land ((table_at GEAR_64 x00 * (2 ^ Z.of_nat k - 1)) mod 2 ^ 64) MASK_L =? 0))) (seq 1 64) = true) by (vm_compute; reflexivity).
    rewrite forallb_forall in F. specialize (F k ltac:(apply in_seq; lia)). apply andb_prop in F. destruct F as [F1 F2].
    intros C. destruct (_ <? _); [change 0x0003590703530000 with MASK_S in C; rewrite C in F1; discriminate F1|change 0x0000d90003530000 with MASK_L in C; rewrite C in F2; discriminate F2].
  - replace ((table_at GEAR_64 x00 * (2 ^ Z.of_nat k - 1)) mod 2 ^ 64) with ((- table_at GEAR_64 x00) mod 2 ^ 64); [destruct (_ <? _); vm_compute; discriminate|].
    replace (Z.of_nat k) with (64 + (Z.of_nat k - 64)) by lia. rewrite Z.pow_add_r by lia.
    replace (table_at GEAR_64 x00 * (2 ^ 64 * 2 ^ (Z.of_nat k - 64) - 1)) with (- table_at GEAR_64 x00 + table_at GEAR_64 x00 * 2 ^ (Z.of_nat k - 64) * 2 ^ 64) by ring.
    symmetry. apply Z.mod_add. lia.
Qed.

Theorem C27_fastcdc_gear64_partial : forall min normal max shrink, 0 <= min -> max < 2 ^ 64 -> min + 1 < 2 ^ 64 ->
  ((forall data sched, below_2_64 (length data) -> run_chunk shrink (fastcdc_chunk (fastcdc_new GEAR_64 min normal max)) data sched <> Panic) <->
   normal <= min /\ max <= min).
Proof.
  intros min normal max shrink Hmin Hmax Hn. assert (Hg : length GEAR_64 = 256%nat) by reflexivity. split.
  - intros H. destruct (Z.le_gt_cases (Z.max normal max) min) as [X|X]; [lia|]. exfalso. set (m := Z.max max (min + 1)).
    assert (Hl : below_2_64 (length (repeat x00 (Z.to_nat m)))) by (unfold below_2_64; rewrite repeat_length; lia).
    destruct (C27_fastcdc_exact_partial GEAR_64 min normal max shrink (repeat x00 (Z.to_nat m)) Hg Hmin Hl) as (_ & _ & K).
    destruct (proj1 K (fun sched => H _ sched Hl) [] [] _ (path_nil _ _ _)) as (i & Hi & C); [lia|rewrite repeat_length; lia|].
    refine (gear64_zero (fastcdc_new GEAR_64 min normal max) (Z.to_nat m) eq_refl Hmin i _ C). cbn. lia.
  - intros X data sched Hl. destruct (C27_fastcdc_exact_partial GEAR_64 min normal max shrink data Hg Hmin Hl) as (_ & _ & K).
    apply K. intros cs h d _ Hd. lia.
Qed.
Print Assumptions C27_fastcdc_gear64_partial.

(** A maximal chunk in the middle: the one-buffer caller is fine, the caller whose buffer ends [max] bytes into it is not. *)
Example C27_exact_case : let p := fastcdc_new GEAR_64 1 2 4 in let data := repeat x00 8 in
  cuts_seen (run_chunk false (fastcdc_chunk p) data (drain data)) = Some [5]%nat /\
  panics (run_chunk false (fastcdc_chunk p) data [3; 1]%nat) = true /\
  panics (run_chunk false (fastcdc_chunk p) (repeat x00 9) (drain (repeat x00 9))) = true.
Proof. repeat split; vm_compute; reflexivity. Qed.

(** [normal > max]: 7 bytes are cut at [normal + 1], a buffer of [max] bytes makes the caller panic. *)
Example C27_any_case : let p := fastcdc_new GEAR_64 1 5 3 in let data := repeat x00 7 in
  cuts_seen (run_chunk false (fastcdc_chunk p) data (drain data)) = Some [6]%nat /\
  panics (run_chunk false (fastcdc_chunk p) data [3]%nat) = true /\ panics (run_chunk false (fastcdc_chunk p) data [5]%nat) = true /\
  panics (run_chunk false (fastcdc_chunk p) data [2; 4]%nat) = false.
Proof. repeat split; vm_compute; reflexivity. Qed.
