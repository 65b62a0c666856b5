(** * PropsZpaq: C39 - C45. *)

From Verif Require Import Base Api Range Spec Lists Contract CutFacts Zpaq ZpaqProofs ZpaqCtor.
From Verif Require Import Builtin BuiltinProofs Agree CutProps Cases.

Definition zpaq_demo : list byte := [x01; x02; x03; x04; x05; x06; x07; x08; x09; x0a; x01; x02; x03; x04; x05; x06; x07; x08].

Lemma zpaq_new_inv : forall f r p, zpaq_with_average_and_range f r = Ok p -> zq_range p = r /\ zq_max_hash p = 2 ^ (32 - f).
Proof.
  intros f r p E. rewrite zpaq_with_average_and_range_spec in E. destruct ((1 <=? f) && (f <=? 32)); [|discriminate E].
  injection E as <-. auto.
Qed.

(** ** C39 *)
Theorem C39_zpaq_push : forall f r p, zpaq_with_average_and_range f r = Ok p ->
  incr_conforms 0 (zpaq_incr p) (ends_at (per_chunk (zpaq_rule r (2 ^ (32 - f)) 0))) below_2_64 /\
  incr_prompt 0 (zpaq_incr p) (ends_at (per_chunk (zpaq_rule r (2 ^ (32 - f)) 0))) below_2_64.
Proof.
  intros f r p E. apply zpaq_new_inv in E. destruct E as [<- <-]. exact (conj (zpaq_incr_conforms p) (zpaq_incr_prompt p)).
Qed.
Print Assumptions C39_zpaq_push.

Example C39_case : exists p, zpaq_with_average_and_range 3 (Included 3, Included 6) = Ok p /\
  cuts_seen (run_incr 0 (zpaq_incr p) zpaq_demo (drain zpaq_demo)) = Some [4; 7; 12]%nat /\
  cuts_seen (run_incr 0 (zpaq_incr p) zpaq_demo (repeat 1%nat 18)) = Some [4; 7; 12]%nat.
Proof. eexists. split; [reflexivity|]. split; vm_compute; reflexivity. Qed.

(** ** C40 *)
Theorem C40_zpaq_edges : forall f r p shrink, zpaq_with_average_and_range f r = Ok p ->
  chunk_conforms shrink (zpaq_chunk p) (ends_at (per_chunk (zpaq_rule r (2 ^ (32 - f)) 1))) (fun n => Z.of_nat n + 1 < 2 ^ 64) 0.
Proof. intros f r p shrink E. apply zpaq_new_inv in E. destruct E as [<- <-]. exact (zpaq_chunk_conforms p shrink). Qed.
Print Assumptions C40_zpaq_edges.

Example C40_case : exists p, zpaq_with_average_and_range 3 (Included 3, Included 6) = Ok p /\
  cuts_seen (run_chunk false (zpaq_chunk p) zpaq_demo (drain zpaq_demo)) = Some [4; 6; 10; 14; 16]%nat /\
  cuts_seen (run_chunk true (zpaq_chunk p) zpaq_demo (repeat 1%nat 30)) = Some [4; 6; 10; 14; 16]%nat.
Proof. eexists. split; [reflexivity|]. split; vm_compute; reflexivity. Qed.

(** ** C41: false, the two APIs count differently *)
Theorem C41_zpaq_agree_refuted : exists f r p data r1 r2, zpaq_with_average_and_range f r = Ok p /\
  run_incr 0 (zpaq_incr p) data (drain data) = Ok r1 /\ run_chunk false (zpaq_chunk p) data (drain data) = Ok r2 /\ r_cuts r1 <> r_cuts r2.
Proof.
  set (p := {| zq_range := (Included 0, Included 2); zq_max_hash := 1 |}).
  destruct (cuts_seen_inv _ (run_incr 0 (zpaq_incr p) (repeat x01 7) (drain (repeat x01 7))) [3; 6]%nat ltac:(vm_compute; reflexivity)) as (r1 & E1 & H1).
  destruct (cuts_seen_inv _ (run_chunk false (zpaq_chunk p) (repeat x01 7) (drain (repeat x01 7))) [2; 4; 6]%nat ltac:(vm_compute; reflexivity)) as (r2 & E2 & H2).
  exists 32, (Included 0, Included 2), p, (repeat x01 7), r1, r2. split; [reflexivity|]. rewrite H1, H2. split; [exact E1|]. split; [exact E2|]. discriminate.
Qed.
Print Assumptions C41_zpaq_agree_refuted.

(** They agree when no chunk of [find_chunk_edge] ends where counting one more matters. *)
Theorem C41_zpaq_agree_partial : forall f r p sh data sched1 sched2 r1 r2, typed (CfgZpaq f r) -> zpaq_with_average_and_range f r = Ok p ->
  stream_len (length data) ->
  run_incr 0 (zpaq_incr p) data (sched1 ++ drain data) = Ok r1 -> run_chunk sh (zpaq_chunk p) data (sched2 ++ drain data) = Ok r2 ->
  Forall (fun n => (below_range r (Z.of_nat n) <-> below_range r (Z.of_nat n + 1)) /\
                   (above_range r (Z.of_nat n) <-> above_range r (Z.of_nat n + 1))) (sizes 0 (r_cuts r2)) -> r_cuts r1 = r_cuts r2.
Proof.
  intros f r p sh data sched1 sched2 r1 r2 T E Hl E1 E2 Hs.
  assert (EI : incr_of (CfgZpaq f r) = Ok (zpaq_incr p)) by (cbn [incr_of]; rewrite E; reflexivity).
  assert (EC : chunk_of (CfgZpaq f r) = Ok (zpaq_chunk p)) by (cbn [chunk_of]; rewrite E; reflexivity).
  exact (agree_all (CfgZpaq f r) _ _ (zpaq_rule r (2 ^ (32 - f)) 1) sh data sched1 sched2 r1 r2 T I eq_refl EI EC Hl E1 E2 Hs).
Qed.
Print Assumptions C41_zpaq_agree_partial.

Example C41_case : exists p, zpaq_with_average_and_range 1 (Included 1, Included 10) = Ok p /\
  cuts_seen (run_incr 0 (zpaq_incr p) zpaq_demo (drain zpaq_demo)) = cuts_seen (run_chunk true (zpaq_chunk p) zpaq_demo (drain zpaq_demo)) /\
  cuts_seen (run_chunk true (zpaq_chunk p) zpaq_demo (drain zpaq_demo)) = Some [1; 2; 3; 4; 5; 6; 10; 11; 12; 13; 14; 15; 16]%nat.
Proof. eexists. split; [reflexivity|]. split; vm_compute; reflexivity. Qed.

(** ** C42: false at the upper end for [push], at the lower end for [find_chunk_edge] *)
Theorem C42_zpaq_sizes_refuted :
  (exists f r p data q n, zpaq_with_average_and_range f r = Ok p /\ run_incr 0 (zpaq_incr p) data (drain data) = Ok q /\
     In n (sizes 0 (r_cuts q)) /\ range_contains r (Z.of_nat n) = false) /\
  (exists f r p data q n, zpaq_with_average_and_range f r = Ok p /\ run_chunk false (zpaq_chunk p) data (drain data) = Ok q /\
     In n (sizes 0 (r_cuts q)) /\ range_contains r (Z.of_nat n) = false).
Proof.
  split.
  - set (p := {| zq_range := (Included 0, Included 2); zq_max_hash := 1 |}).
    destruct (cuts_seen_inv _ (run_incr 0 (zpaq_incr p) (repeat x01 7) (drain (repeat x01 7))) [3; 6]%nat ltac:(vm_compute; reflexivity)) as (q & E & H).
    exists 32, (Included 0, Included 2), p, (repeat x01 7), q, 3%nat. split; [reflexivity|]. split; [exact E|]. rewrite H. split; [left; reflexivity|reflexivity].
  - set (p := {| zq_range := (Included 2, Excluded 6); zq_max_hash := 2 ^ 30 |}).
    destruct (cuts_seen_inv _ (run_chunk false (zpaq_chunk p) zpaq_demo (drain zpaq_demo)) [1; 2; 7; 11; 12; 17]%nat ltac:(vm_compute; reflexivity)) as (q & E & H).
    exists 2, (Included 2, Excluded 6), p, zpaq_demo, q, 1%nat. split; [reflexivity|]. split; [exact E|]. rewrite H. split; [left; reflexivity|reflexivity].
Qed.
Print Assumptions C42_zpaq_sizes_refuted.

(** What holds: [push] can exceed the range by one byte at the top, [find_chunk_edge] can miss it by one at the bottom. *)
Theorem C42_zpaq_sizes_partial : forall f lo hi p data sched, zpaq_with_average_and_range f (Included lo, Excluded hi) = Ok p ->
  lo <= hi -> 3 <= hi -> stream_len (length data) ->
  (forall r, run_incr 0 (zpaq_incr p) data sched = Ok r -> Forall (fun n => lo <= Z.of_nat n <= hi) (sizes 0 (r_cuts r))) /\
  (forall sh r, run_chunk sh (zpaq_chunk p) data sched = Ok r -> Forall (fun n => lo - 1 <= Z.of_nat n <= hi - 1) (sizes 0 (r_cuts r))).
Proof.
  intros f lo hi p data sched E Hr H3 Hl. unfold stream_len in Hl. split.
  - intros r Er. refine (incr_sizes _ _ (ends_at_laws _) _ _ _ (proj1 (C39_zpaq_push f _ p E)) _ data sched r _ Er); [|unfold below_2_64; lia].
    intros h d n F. assert (X := zpaq_size_window lo hi 0 n (zpaq_first_size _ _ _ _ _ _ F) (proj1 (proj1 F)) ltac:(lia) Hr). lia.
  - intros sh r Er. refine (chunk_sizes _ _ (ends_at_laws _) _ sh _ _ (C40_zpaq_edges f _ p sh E) _ data sched r Hl Er).
    intros h d n F. assert (X := zpaq_size_window lo hi 1 n (zpaq_first_size _ _ _ _ _ _ F) (proj1 (proj1 F)) ltac:(lia) Hr). lia.
Qed.
Print Assumptions C42_zpaq_sizes_partial.

(** The same for any range: a chunk that misses the range does so by the last byte only. *)
Theorem C42_zpaq_any_range_partial : forall f r p data sched, zpaq_with_average_and_range f r = Ok p -> stream_len (length data) ->
  (forall q, run_incr 0 (zpaq_incr p) data sched = Ok q ->
     Forall (fun n => (~ below_range r (Z.of_nat n) \/ above_range r (Z.of_nat n)) /\
                      ((1 < n)%nat -> ~ above_range r (Z.of_nat n - 1))) (sizes 0 (r_cuts q))) /\
  (forall sh q, run_chunk sh (zpaq_chunk p) data sched = Ok q ->
     Forall (fun n => (~ below_range r (Z.of_nat n + 1) \/ above_range r (Z.of_nat n + 1)) /\
                      ((1 < n)%nat -> ~ above_range r (Z.of_nat n))) (sizes 0 (r_cuts q))).
Proof.
  intros f r p data sched E Hl. unfold stream_len in Hl. split.
  - intros q Eq. refine (incr_sizes _ _ (ends_at_laws _) _ _ _ (proj1 (C39_zpaq_push f _ p E)) _ data sched q _ Eq); [|unfold below_2_64; lia].
    intros h d n F. assert (X := zpaq_first_size _ _ _ _ _ _ F). unfold zpaq_size_ok in X. rewrite !Z.add_0_r in X. exact X.
  - intros sh q Eq. refine (chunk_sizes _ _ (ends_at_laws _) _ sh _ _ (C40_zpaq_edges f _ p sh E) _ data sched q Hl Eq).
    intros h d n F. assert (X := zpaq_first_size _ _ _ _ _ _ F). unfold zpaq_size_ok in X. replace (Z.of_nat n - 1 + 1) with (Z.of_nat n) in X by lia. exact X.
Qed.
Print Assumptions C42_zpaq_any_range_partial.

Example C42_case : exists p, zpaq_with_average_and_range 2 (Included 2, Excluded 6) = Ok p /\
  sizes 0 [1; 2; 7; 11; 12; 17]%nat = [1; 1; 5; 4; 1; 5]%nat /\
  cuts_seen (run_chunk true (zpaq_chunk p) zpaq_demo (drain zpaq_demo)) = Some [1; 2; 7; 11; 12; 17]%nat.
Proof. eexists. split; [reflexivity|]. split; vm_compute; reflexivity. Qed.

(** ** C43: the documented maximum of the default is wrong *)
Theorem C43_zpaq_default_refuted : exists p, zpaq_default = Ok p /\
  start_bound (zq_range p) = Included 4096 /\ zq_max_hash p = 2 ^ (32 - 16) /\
  end_bound (zq_range p) <> Excluded 520192 /\ end_bound (zq_range p) <> Included 520192 /\ end_bound (zq_range p) = Excluded (1024 * 520192).
Proof. eexists. split; [exact zpaq_default_value|]. cbn [zq_range zq_max_hash start_bound end_bound fst snd]. repeat split; discriminate. Qed.
Print Assumptions C43_zpaq_default_refuted.

(** Everything else in the claim holds. *)
Theorem C43_zpaq_average_partial : forall f,
  (10 <= f <= 32 -> zpaq_with_average_size_pow_2 f =
     Ok {| zq_range := (Included (64 * 2 ^ (f - 10)), Excluded (8128 * 2 ^ f)); zq_max_hash := 2 ^ (32 - f) |}) /\
  (~ 10 <= f <= 32 -> zpaq_with_average_size_pow_2 f = Panic).
Proof.
  intros f. rewrite zpaq_with_average_size_pow_2_spec. destruct (Z.leb_spec 10 f), (Z.leb_spec f 32); cbn [andb]; split; intros; try reflexivity; lia.
Qed.
Print Assumptions C43_zpaq_average_partial.

Theorem C43_zpaq_max_partial : forall m, 0 <= m ->
  (8192 <= m < 2 ^ 45 -> zpaq_with_max_size m = Ok {| zq_range := (Included (m / 64), Excluded m); zq_max_hash := 2 ^ (44 - Z.log2 m) |}) /\
  (~ 8192 <= m < 2 ^ 45 -> zpaq_with_max_size m = Panic).
Proof.
  intros m Hm. rewrite zpaq_with_max_size_spec by exact Hm. destruct (Z.leb_spec 8192 m), (Z.ltb_spec m (2 ^ 45)); cbn [andb]; split; intros; try reflexivity; lia.
Qed.
Print Assumptions C43_zpaq_max_partial.

Theorem C43_zpaq_split : forall f r p hash n, zpaq_with_average_and_range f r = Ok p ->
  (zpaq_split_here p hash n = true <-> (hash < 2 ^ (32 - f) /\ ~ below_range r n) \/ above_range r n).
Proof.
  intros f r p hash n E. apply zpaq_new_inv in E. destruct E as [<- <-]. unfold zpaq_split_here.
  destruct (Z.ltb_spec hash (zq_max_hash p)), (under_min_spec (zq_range p) n), (exceeds_max_spec (zq_range p) n); cbn; split; intros; try discriminate; auto;
    repeat match goal with H : _ \/ _ |- _ => destruct H | H : _ /\ _ |- _ => destruct H end; try lia; contradiction.
Qed.
Print Assumptions C43_zpaq_split.

(** All the other constructors are instances of [with_average_and_range]. *)
Theorem C43_zpaq_general : forall p,
  (exists f, zpaq_with_average_size_pow_2 f = Ok p) \/ (exists m, 0 <= m /\ zpaq_with_max_size m = Ok p) \/ (exists r, range_u64 r /\ zpaq_with_range r = Ok p) ->
  exists f, 1 <= f <= 32 /\ zpaq_with_average_and_range f (zq_range p) = Ok p.
Proof.
  assert (A : forall f r p, zpaq_with_average_and_range f r = Ok p -> 1 <= f <= 32 /\ zq_range p = r).
  { intros f r p E. split; [|exact (proj1 (zpaq_new_inv f r p E))]. rewrite zpaq_with_average_and_range_spec in E.
    destruct (Z.leb_spec 1 f), (Z.leb_spec f 32); cbn in E; try discriminate E. lia. }
  intros p [(f & E)|[(m & _ & E)|(r & _ & E)]].
  - unfold zpaq_with_average_size_pow_2 in E. destruct (range_from_fragment_ave f) as [r| |]; cbn [bind] in E; try discriminate E.
    destruct (A _ _ _ E) as [Hf ->]. eauto.
  - unfold zpaq_with_max_size in E. destruct (A _ _ _ E) as [Hf ->]. eauto.
  - unfold zpaq_with_range in E. destruct (fragment_ave_from_range r) as [f| |]; cbn [bind] in E; try discriminate E.
    destruct (A _ _ _ E) as [Hf ->]. eauto.
Qed.
Print Assumptions C43_zpaq_general.

Example C43_case : zpaq_with_average_size_pow_2 9 = Panic /\ zpaq_with_average_size_pow_2 33 = Panic /\ zpaq_with_max_size 8191 = Panic /\
  zpaq_with_max_size 8192 = Ok {| zq_range := (Included 128, Excluded 8192); zq_max_hash := 2 ^ 31 |} /\
  zpaq_with_average_size_pow_2 10 = Ok {| zq_range := (Included 64, Excluded 8323072); zq_max_hash := 2 ^ 22 |}.
Proof. repeat split; vm_compute; reflexivity. Qed.

(** ** C44 *)
Theorem C44_zpaq_forget : forall a b tab run, zpaq_table a tab -> zh_last_byte b = zh_last_byte a ->
  zh_predicted_byte b = zh_predicted_byte a -> (32 <= mispredicted tab (zh_last_byte a) run)%nat ->
  exists s, zpaq_hash_feeds a run = Ok s /\ zpaq_hash_feeds b run = Ok s.
Proof. exact zpaq_forget. Qed.
Print Assumptions C44_zpaq_forget.

(** From the fresh predictor (all zeros), a run of 32 changing bytes is mispredicted throughout; two different hashes meet. *)
Example C44_case : let run := map (fun n => match Byte.of_nat n with Some b => b | None => x00 end) (seq 1 32) in
  mispredicted (fun _ => x00) x00 run = 32%nat /\
  match zpaq_hash_feeds {| zh_hash := 12345; zh_last_byte := x00; zh_predicted_byte := repeat x00 256 |} run,
        zpaq_hash_feeds {| zh_hash := 67890; zh_last_byte := x00; zh_predicted_byte := repeat x00 256 |} run with
  | Ok s1, Ok s2 => zh_hash s1 = zh_hash s2
  | _, _ => False
  end /\
  match zpaq_hash_feeds {| zh_hash := 12345; zh_last_byte := x00; zh_predicted_byte := repeat x00 256 |} (removelast run),
        zpaq_hash_feeds {| zh_hash := 67890; zh_last_byte := x00; zh_predicted_byte := repeat x00 256 |} (removelast run) with
  | Ok s1, Ok s2 => zh_hash s1 <> zh_hash s2
  | _, _ => False
  end.
Proof. vm_compute. repeat split. discriminate. Qed.

(** ** C45 *)
Theorem C45_range : forall r n,
  (under_min r n = true <-> below_range r n) /\ (exceeds_max r n = true <-> above_range r n) /\
  (range_contains r n = true <-> in_range r n) /\
  (range_contains r n = true <-> under_min r n = false /\ exceeds_max r n = false) /\
  under_min (into_tuple r) n = under_min r n /\ exceeds_max (into_tuple r) n = exceeds_max r n /\
  range_contains (into_tuple r) n = range_contains r n.
Proof.
  intros r n. rewrite into_tuple_id. assert (U := under_min_spec r n). assert (X := exceeds_max_spec r n). assert (C := range_contains_spec r n).
  split; [destruct U; split; intros; try discriminate; try contradiction; auto|].
  split; [destruct X; split; intros; try discriminate; try contradiction; auto|].
  split; [destruct C; split; intros; try discriminate; try contradiction; auto|].
  split; [|auto]. unfold range_contains. destruct (under_min r n), (exceeds_max r n); intuition discriminate.
Qed.
Print Assumptions C45_range.

(** An empty range: nothing is inside, and a value can be both under the minimum and over the maximum. *)
Example C45_case : let r := (Included 7, Excluded 3) in
  under_min r 5 = true /\ exceeds_max r 5 = true /\ range_contains r 5 = false /\ range_contains (Excluded 2, Included 4) 4 = true /\
  range_contains (Excluded 2, Included 4) 2 = false /\ range_contains (Unbounded, Unbounded) 0 = true.
Proof. repeat split. Qed.
