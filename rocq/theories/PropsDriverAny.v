(** * PropsDriverAny: C54 - C56 for FastCdc of any sizes, also [max_size < normal_size]. *)

From Verif Require Import Base Api Tables Spec Lists Contract Words FastCdc FastCdcProofs FastCdcAny FastCdcExact Builtin BuiltinProofs CutFacts Totality.
From Verif Require Import Drivers DriverProofs DriverFast DriverAny DriverOrder Cases.

Lemma fast_gear : forall g min normal max, typed (CfgFastCdc g min normal max) -> length g = 256%nat.
Proof. intros g min normal max (H & _). exact H. Qed.
Lemma fast_min : forall g min normal max, typed (CfgFastCdc g min normal max) -> 0 <= min.
Proof. intros g min normal max H. unfold typed, is_u64 in H. lia. Qed.

(** The hash asks for the end of the chunk after offset [i] of [d]. *)
Definition hits (g : list Z) (min normal : Z) (d : list byte) (i : nat) : Prop :=
  bits_clear (fastcdc_fingerprint g (Z.to_nat min) i d) (fastcdc_mask normal i).

(** ** C54: the loop in the documentation *)

(** It ends.  The chunks are those of the configuration with a [max_size] of at least [normal_size], or it panics: exactly when
    the last chunk has between [max] and [normal] bytes (or [max], if that is more) and the hash never asked for its end. *)
Theorem C54_documented_loop_fastcdc_any_partial : forall g min normal max data, typed (CfgFastCdc g min normal max) -> stream_len (length data) ->
  let C := fastcdc_chunk (fastcdc_new g min normal max) in let rule := fc_edge (fastcdc_new g min normal (Z.max normal max)) in
  let cliff d := min < Z.of_nat (length d) /\ max <= Z.of_nat (length d) <= Z.max normal max /\
    forall i, min <= Z.of_nat i < Z.of_nat (length d) -> ~ hits g min normal d i in
  exists enough, forall fuel, (enough <= fuel)%nat ->
  (exists cs chunks dropped, cuts_of rule [] data cs /\ doc_loop C fuel data = Ok (chunks, []) /\
     map (@length byte) chunks = sizes 0 cs /\ data = concat chunks ++ dropped) \/
  (exists cs h d, cut_path rule [] data cs h d /\ cliff d /\ doc_loop C fuel data = Panic).
Proof.
  intros g min normal max data Ht Hl C rule cliff. set (p := fastcdc_new g min normal max).
  assert (Hg : length (fc_gear p) = 256%nat) by exact (fast_gear _ _ _ _ Ht). assert (Hm : 0 <= fc_min_size p) by exact (fast_min _ _ _ _ Ht).
  assert (Hl' : below_2_64 (length data)) by (unfold stream_len, below_2_64 in *; lia).
  destruct (edges_any p Hg Hm data Hl') as (cs & past & W & _ & enough & D). exists enough. intros fuel Hf. destruct (D fuel Hf) as [D1 D2]. destruct past.
  - right. destruct (stroll_path p [] data cs W) as (h & d & P & Cl). exists cs, h, d. split; [exact P|]. split; [exact Cl|]. exact (D1 eq_refl).
  - left. destruct (D2 eq_refl) as (chunks & dropped & E1 & E2 & E3). exists cs, chunks, dropped. split; [exact (stroll_cuts p [] data cs W)|]. auto.
Qed.
Print Assumptions C54_documented_loop_fastcdc_any_partial.

(** ** C55: the comparison of the two APIs that tests/cuts.rs makes *)

(** A chunk as seen by [push] byte by byte. *)
Definition byte_chunk (g : list Z) (min normal max : Z) : first_rel := fun _ d m =>
  min < Z.of_nat (length d) /\ (m <= length d)%nat /\
  (Z.max normal max <= min /\ Z.of_nat m = min + 1 \/
   min < Z.max normal max /\ min < Z.of_nat m <= Z.max (min + 1) max /\ (forall i, min <= Z.of_nat i < Z.of_nat m - 1 -> ~ hits g min normal d i) /\
     (hits g min normal d (m - 1) \/ Z.of_nat m = Z.max (min + 1) max)).

Lemma bits_clear_dec : forall a b, bits_clear a b \/ ~ bits_clear a b.
Proof.
  intros a b. destruct (Z.eq_dec (Z.land a b) 0) as [E|E].
  - left. apply bits_clear_land. exact E.
  - right. intros X. apply E. apply bits_clear_land. exact X.
Qed.

Lemma bounded_find : forall P : nat -> Prop, (forall i, P i \/ ~ P i) -> forall n, (exists i, (i < n)%nat /\ P i) \/ (forall i, (i < n)%nat -> ~ P i).
Proof.
  intros P D. induction n as [|n IH]; [right; lia|]. destruct IH as [(i & Hi & X)|N]; [left; exists i; split; [lia|exact X]|].
  destruct (D n) as [X|X]; [left; exists n; split; [lia|exact X]|]. right. intros i Hi. destruct (Nat.eq_dec i n) as [->|Y]; [exact X|]. apply N. lia.
Qed.

Lemma byte_chunk_iff : forall g min normal max h d m, typed (CfgFastCdc g min normal max) ->
  (fc_byte (fc_pace (fastcdc_new g min normal max)) h d m <-> byte_chunk g min normal max h d m).
Proof.
  intros g min normal max h d m Ht. set (p := fastcdc_new g min normal max).
  assert (Hg : length (fc_gear p) = 256%nat) by exact (fast_gear _ _ _ _ Ht). assert (Hm : 0 <= fc_min_size p) by exact (fast_min _ _ _ _ Ht).
  unfold byte_chunk. destruct (Z.lt_ge_cases min (Z.max normal max)) as [G|G].
  - assert (PM := pace_max p Hg G). assert (PF := pace_first p Hg Hm G h d). assert (B := M_bounds p Hg G). unfold fc_byte. rewrite PM, pace_min.
    change (fc_min_size p) with min in *. change (fc_max_size p) with max in *. change (forced_at min max) with (Z.max (min + 1) max) in *. split.
    + intros (n & F & ->). apply PF in F. destruct F as (F1 & F2 & F3 & [(F4 & F5 & F6)|(F4 & F5)]).
      * destruct (Z.ltb_spec (Z.of_nat n) (Z.max (min + 1) max)); [|lia]. cbn [orb]. split; [exact F1|]. split; [lia|]. right. split; [exact G|]. split; [lia|]. split; [intros i Hi; apply F3; lia|].
        left. replace (S n - 1)%nat with n by lia. exact F6.
      * destruct (Z.ltb_spec (Z.of_nat n) (Z.max (min + 1) max)); [lia|]. destruct (Z.leb_spec (Z.of_nat n) min); [lia|]. cbn [orb]. split; [exact F1|]. split; [lia|]. right.
        split; [exact G|]. split; [lia|]. split; [intros i Hi; apply F3; lia|]. right. exact F4.
    + intros (F1 & F2 & [(F3 & _)|(_ & F3 & F4 & F5)]); [lia|].
      destruct (bits_clear_dec (fastcdc_fingerprint g (Z.to_nat min) (m - 1) d) (fastcdc_mask normal (m - 1))) as [X|X].
      * exists (m - 1)%nat. split; [|destruct (Z.ltb_spec (Z.of_nat (m - 1)) (Z.max (min + 1) max)); [cbn [orb]; lia|lia]]. apply PF. split; [exact F1|]. split; [lia|]. split; [intros i Hi; apply F4; lia|].
        left. split; [lia|]. split; [lia|exact X].
      * destruct F5 as [F5|F5]; [contradiction|]. exists m. split; [|destruct (Z.ltb_spec (Z.of_nat m) (Z.max (min + 1) max)), (Z.leb_spec (Z.of_nat m) min); cbn [orb]; lia].
        apply PF. split; [exact F1|]. split; [lia|]. split; [|right; split; [exact F5|exact F2]]. intros i Hi. destruct (Nat.eq_dec i (m - 1)) as [->|Y]; [exact X|]. apply F4. lia.
  - assert (PF := pace_flat p Hg Hm G h d). unfold fc_byte. rewrite pace_min. change (fc_min_size p) with min in *. split.
    + intros (n & F & ->). apply PF in F. destruct (Z.leb_spec (Z.of_nat n) min); [|lia]. rewrite orb_true_r. split; [lia|]. split; [lia|]. left. lia.
    + intros (F1 & F2 & [(_ & F3)|(F3 & _)]); [|lia]. exists (m - 1)%nat. split; [apply PF; lia|]. destruct (Z.leb_spec (Z.of_nat (m - 1)) min); [|lia]. rewrite orb_true_r. lia.
Qed.

Lemma cuts_same : forall f1 f2 : first_rel, (forall h d n, f1 h d n <-> f2 h d n) -> forall h d cs, cuts_of f1 h d cs -> cuts_of f2 h d cs.
Proof.
  intros f1 f2 E h d cs H. induction H as [h d N|h d n cs F H IH].
  - constructor. intros n F. apply E in F. exact (N n F).
  - apply cuts_some; [now apply E|exact IH].
Qed.

(** The test passes exactly when the sizes force every chunk, or none of the chunks seen byte by byte was forced: wherever such a
    chunk starts, the hash asks for an end before [max] bytes, or the data ends. *)
Theorem C55_cut_test_fastcdc_iff_partial : forall g min normal max data, typed (CfgFastCdc g min normal max) -> stream_len (length data) ->
  let p := fastcdc_new g min normal max in let m := Z.max (min + 1) max in
  exists cs enough, cuts_of (byte_chunk g min normal max) [] data cs /\ byte_splits (fastcdc_incr p) data = Ok (sizes 0 cs) /\
  forall fuel, (enough <= fuel)%nat ->
  (byte_splits (fastcdc_incr p) data = whole_splits (fastcdc_chunk p) fuel data <->
   Z.max normal max <= min \/
   forall a, a = 0%nat \/ In a cs -> Z.of_nat (length (skipn a data)) < m \/ exists i, min <= Z.of_nat i < m /\ hits g min normal (skipn a data) i).
Proof.
  intros g min normal max data Ht Hl p m.
  assert (Hg : length (fc_gear p) = 256%nat) by exact (fast_gear _ _ _ _ Ht). assert (Hm : 0 <= fc_min_size p) by exact (fast_min _ _ _ _ Ht).
  assert (Hl' : below_2_64 (length data)) by (unfold stream_len, below_2_64 in *; lia).
  destruct (edges_any p Hg Hm data Hl') as (cs2 & past & W & (enough & D) & _).
  destruct (bytes_any p Hg Hm data Hl') as (cs & B & E). exists cs, enough. split; [exact (cuts_same _ _ (fun h d n => byte_chunk_iff g min normal max h d n Ht) _ _ _ B)|]. split; [exact E|].
  intros fuel Hf. rewrite E, (D fuel Hf). destruct (Z.lt_ge_cases min (Z.max normal max)) as [G|G].
  - rewrite (agree_steep p Hg Hm G [] data cs B cs2 past W : Ok (sizes 0 cs) = outcome 0 cs2 past <-> _). split.
    + intros X. right. intros a Ha. destruct (Z.lt_ge_cases (Z.of_nat (length (skipn a data))) m) as [Y|Y]; [left; exact Y|]. right.
      destruct (bounded_find (fun i => min <= Z.of_nat i < m /\ hits g min normal (skipn a data) i)) with (n := Z.to_nat m) as [(i & _ & Hi)|N].
      * intros i. destruct (Z.le_gt_cases min (Z.of_nat i)); [|right; intros [A _]; lia]. destruct (Z.lt_ge_cases (Z.of_nat i) m); [|right; intros [A _]; lia]. destruct (bits_clear_dec (fastcdc_fingerprint g (Z.to_nat min) i (skipn a data)) (fastcdc_mask normal i)) as [Z|Z]; [left; split; [lia|exact Z]|right; intros [_ Z']; exact (Z Z')].
      * exists i. exact Hi.
      * exfalso. apply (X a Ha). split; [exact Y|]. intros i Hi Z. change (min <= Z.of_nat i < m) in Hi. apply (N i); [lia|]. split; [exact Hi|exact Z].
    + intros [X|X]; [lia|]. intros a Ha (S1 & S2). destruct (X a Ha) as [Y|(i & Hi & Y)]; [change (forced_at (fc_min_size p) (fc_max_size p)) with m in S1; lia|]. exact (S2 i Hi Y).
  - destruct (agree_flat p Hg Hm G [] data cs B cs2 past W) as [-> ->]. split; [intros _; left; exact G|reflexivity].
Qed.
Print Assumptions C55_cut_test_fastcdc_iff_partial.

(** ** C56: the property tests/cuts_qc.rs states *)

(** It holds exactly when [C25_fastcdc_exact_partial] allows every slicing: the sizes are in order, or [normal <= min + 1], or every
    chunk is ended by its contents before buffers could matter. *)
Theorem C56_fastcdc_exact_partial : forall g min normal max, typed (CfgFastCdc g min normal max) ->
  ((forall data, below_2_64 (length data) -> exists result enough, forall fuel, (enough <= fuel)%nat ->
      forall buf_sizes, buf_sizes <> [] -> Forall (fun n => 1 <= n)%nat buf_sizes ->
      splits_fce (fastcdc_chunk (fastcdc_new g min normal max)) fuel data buf_sizes = result)
   <->
   normal <= max \/ normal <= min + 1 \/
   forall u, Z.of_nat (length u) = Z.max (min + 1) max + 1 - min ->
     exists i, (i < length u)%nat /\ bits_clear (power_sum 2 (table_at g) 0 (rev (firstn (S i) u)) mod 2 ^ 64) 0x0003590703530000).
Proof.
  intros g min normal max Ht. set (p := fastcdc_new g min normal max).
  assert (Hg : length (fc_gear p) = 256%nat) by exact (fast_gear _ _ _ _ Ht). assert (Hm : 0 <= fc_min_size p) by exact (fast_min _ _ _ _ Ht). change (0 <= min) in Hm.
  set (M := Z.max (min + 1) max). assert (HN : normal < 2 ^ 64) by (unfold typed, is_u64 in Ht; lia). split.
  - intros A. destruct (Z.le_gt_cases normal max) as [X|X]; [now left|]. destruct (Z.le_gt_cases normal (min + 1)) as [Y|Y]; [now right; left|]. right. right. intros u Lu.
    destruct (bounded_find (fun i => bits_clear (power_sum 2 (table_at g) 0 (rev (firstn (S i) u)) mod 2 ^ 64) MASK_S) (fun i => bits_clear_dec _ _) (length u)) as [E|N]; [exact E|]. exfalso.
    set (data := repeat x00 (Z.to_nat min) ++ u). assert (Ld : Z.of_nat (length data) = M + 1) by (unfold data; rewrite app_length, repeat_length; lia).
    assert (Hl : below_2_64 (length data)) by (unfold below_2_64; rewrite Ld; unfold M; lia).
    assert (Hh : forall i, min <= Z.of_nat i <= M -> ~ fc_hit p data i).
    { intros i Hi. assert (K := fc_hit_misses p data (Z.to_nat M)). change (fc_min_size p) with min in K. change (fc_normal_size p) with normal in K. change (fc_gear p) with g in K.
      apply (proj2 (K ltac:(lia) ltac:(lia) ltac:(unfold M; lia))); [|lia]. rewrite firstn_all2 by lia. unfold data. rewrite skipn_app, skipn_all2, repeat_length, Nat.sub_diag by (rewrite repeat_length; lia). exact N. }
    destruct (A data Hl) as (result & enough & R). set (fuel := Nat.max enough 2).
    destruct (fce_torn p Hg Hm data Hl Ld ltac:(change (M < normal); unfold M; lia) Hh fuel ltac:(lia)) as [T1 T2].
    rewrite R in T1, T2; [congruence|lia|discriminate|repeat constructor; lia|lia|discriminate|repeat constructor; change (1 <= Z.to_nat M)%nat; lia].
  - intros A data Hl. destruct (fce_plain p Hg Hm data Hl) as (cs & past & _ & enough & R); [|exists (outcome 0 cs past), enough; exact R].
    intros cs h d _. unfold fc_plain. change (forced_at (fc_min_size p) (fc_max_size p)) with M. change (fc_normal_size p) with normal. change (fc_min_size p) with min.
    destruct A as [A|[A|A]]; [left; unfold M; lia|left; unfold M; lia|]. destruct (Z.le_gt_cases normal M) as [X|X]; [now left|]. right.
    destruct (Z.le_gt_cases (Z.of_nat (length d)) M) as [Y|Y]; [now left|]. right.
    destruct (bounded_find (fun i => min <= Z.of_nat i <= M /\ fc_hit p d i)) with (n := Z.to_nat (M + 1)) as [(i & _ & E)|N]; [|exists i; exact E|].
    + intros i. destruct (Z.le_gt_cases min (Z.of_nat i)); [|right; intros [B _]; lia]. destruct (Z.le_gt_cases (Z.of_nat i) M); [|right; intros [B _]; lia].
      destruct (bits_clear_dec (fastcdc_fingerprint g (Z.to_nat min) i d) (fastcdc_mask normal i)) as [B|B]; [left; split; [lia|exact B]|right; intros [_ B']; exact (B B')].
    + exfalso. assert (HM : min < M) by (unfold M; lia). assert (K := fc_hit_misses p d (Z.to_nat M)). change (fc_min_size p) with min in K. change (fc_normal_size p) with normal in K. change (fc_gear p) with g in K.
      assert (K1 := proj1 (K ltac:(lia) ltac:(lia) ltac:(lia))). destruct (A (skipn (Z.to_nat min) (firstn (S (Z.to_nat M)) d))) as (i & Hi & B); [rewrite skipn_length, firstn_length; fold M; lia|].
      refine (K1 _ i Hi B). intros j Hj F. apply (N j); [lia|]. split; [lia|exact F].
Qed.
Print Assumptions C56_fastcdc_exact_partial.

(** With [max < normal] it is false. *)
Theorem C56_fastcdc_order_refuted : exists g min normal max data, typed (CfgFastCdc g min normal max) /\ let C := fastcdc_chunk (fastcdc_new g min normal max) in
  splits_fce C 100 data [2%nat] = Ok [3; 3]%nat /\ splits_fce C 100 data [6%nat] = Ok [5]%nat /\ panics (splits_fce C 100 data [1%nat]) = true.
Proof.
  exists GEAR_64, 1, 4, 2, [x01; x02; x03; x04; x06; x05]. split; [apply typed_gear64; unfold is_u64; lia|]. repeat split; vm_compute; reflexivity.
Qed.
Print Assumptions C56_fastcdc_order_refuted.

(** Sizes out of order ([min = 1], [normal = 4], [max = 2]), nothing found in the contents. *)
Example C55_order_case : let p := fastcdc_new GEAR_64 1 4 2 in let data := [x01; x02; x03; x04; x06; x05; x07] in
  byte_splits (fastcdc_incr p) data = Ok [2; 2; 2]%nat /\
  whole_splits (fastcdc_chunk p) 20 (firstn 6 data) = Ok [5]%nat /\ panics (whole_splits (fastcdc_chunk p) 20 data) = true /\
  doc_loop (fastcdc_chunk p) 20 (firstn 6 data) = Ok ([firstn 5 data], []) /\ panics (doc_loop (fastcdc_chunk p) 20 data) = true /\
  (* every chunk forced: the test passes *)
  byte_splits (fastcdc_incr (fastcdc_new GEAR_64 2 1 2)) data = Ok [3; 3]%nat /\
  whole_splits (fastcdc_chunk (fastcdc_new GEAR_64 2 1 2)) 20 data = Ok [3; 3]%nat.
Proof. repeat split; vm_compute; reflexivity. Qed.
