(** * PropsLoops: C62 and C63, the loops of tests/fastcdc.rs and benches/compare.rs. *)

From Verif Require Import Base Api Tables Spec Lists Words Contract CutFacts FastCdc FastCdcProofs Bup BupProofs Drivers Feed Unbounded.
From Verif Require Import Builtin BuiltinProofs Cases Oracle.

(** ** C62: false, [feed_until_5_chunks] may run forever *)

(** Zeros: the hash never stops, so every chunk has the maximal size. *)
Lemma power_sum_zeros : forall r a, power_sum 2 (table_at GEAR_64) a (repeat x00 r) = table_at GEAR_64 x00 * (2 ^ (Z.of_nat a + Z.of_nat r) - 2 ^ Z.of_nat a).
Proof.
  induction r as [|r IH]; intros a; cbn [repeat power_sum]; [rewrite Z.add_0_r; ring|]. rewrite IH.
  replace (Z.of_nat (S a) + Z.of_nat r) with (Z.of_nat a + Z.of_nat (S r)) by lia. rewrite (Nat2Z.inj_succ a), Z.pow_succ_r by lia. ring.
Qed.

Lemma zero_prints : forall r, 1 <= r -> exists k, 1 <= k <= 64 /\ (table_at GEAR_64 x00 * (2 ^ r - 1)) mod 2 ^ 64 = (table_at GEAR_64 x00 * (2 ^ k - 1)) mod 2 ^ 64.
Proof.
  intros r Hr. destruct (Z.leb_spec r 64) as [G|G]; [exists r; split; [lia|reflexivity]|]. exists 64. split; [lia|].
  replace (2 ^ r) with (2 ^ (r - 64) * 2 ^ 64) by (rewrite <- Z.pow_add_r by lia; f_equal; lia).
  set (g := table_at GEAR_64 x00). clearbody g.
  replace (g * (2 ^ (r - 64) * 2 ^ 64 - 1)) with (- g + g * 2 ^ (r - 64) * 2 ^ 64) by ring.
  replace (g * (2 ^ 64 - 1)) with (- g + g * 2 ^ 64) by ring. now rewrite !Z.mod_add by lia.
Qed.

Lemma zero_masks : forallb (fun k => let v := (table_at GEAR_64 x00 * (2 ^ Z.of_nat k - 1)) mod 2 ^ 64 in
  negb (Z.land v 0x0003590703530000 =? 0) && negb (Z.land v 0x0000d90003530000 =? 0)) (seq 1 64) = true.
Proof. vm_compute. reflexivity. Qed.

Lemma zero_no_hit : forall r mask, (1 <= r)%nat -> mask = 0x0003590703530000 \/ mask = 0x0000d90003530000 ->
  ~ bits_clear (power_sum 2 (table_at GEAR_64) 0 (repeat x00 r) mod 2 ^ 64) mask.
Proof.
  intros r mask Hr Hm H. apply land_zero_clear in H; [|destruct Hm as [->| ->]; lia].
  rewrite power_sum_zeros in H. change (Z.of_nat 0) with 0 in H. rewrite Z.add_0_l in H. change (2 ^ 0) with 1 in H.
  destruct (zero_prints (Z.of_nat r) ltac:(lia)) as (k & Hk & E). rewrite E in H.
  assert (A := zero_masks). rewrite forallb_forall in A. specialize (A (Z.to_nat k)). rewrite in_seq in A. specialize (A ltac:(lia)). cbv beta zeta in A. rewrite Z2Nat.id in A by lia.
  apply andb_true_iff in A as [A1 A2]. apply negb_true_iff, Z.eqb_neq in A1, A2. destruct Hm as [->| ->]; auto.
Qed.

Lemma zero_stop : forall m i, 2048 <= Z.of_nat i < 65536 -> ~ fc_stop dflt (repeat x00 m) i.
Proof.
  intros m i Hi [S|[Hl S]]; cbn [fc_max_size fc_normal_size dflt fastcdc_default] in *; [lia|]. rewrite repeat_length in Hl.
  unfold fastcdc_fingerprint in S. rewrite firstn_repeat, skipn_repeat, repeat_rev in S by lia.
  revert S. apply zero_no_hit; [cbn [fc_min_size dflt fastcdc_default]; lia|].
  unfold fastcdc_mask. destruct (Z.of_nat i <? 8 * 1024); auto.
Qed.

Lemma zero_first : forall m h n, Z.of_nat m <= 65536 -> fc_first dflt h (repeat x00 m) n -> Z.of_nat n = 65536 /\ Z.of_nat m = 65536.
Proof.
  intros m h n Hm (A & B & S & _). rewrite repeat_length in *. cbn [fc_min_size dflt fastcdc_default] in *.
  destruct (Z.ltb_spec (Z.of_nat n) 65536) as [G|G]; [exfalso; exact (zero_stop m n ltac:(lia) S)|lia].
Qed.

Lemma zero_max : forall h, fc_first dflt h (repeat x00 (Z.to_nat 65536)) (Z.to_nat 65536).
Proof.
  intros h. split; [|split; [|split]].
  - rewrite repeat_length. cbn [fc_min_size dflt fastcdc_default]. lia.
  - rewrite repeat_length. cbn [fc_min_size dflt fastcdc_default]. lia.
  - left. cbn [fc_max_size dflt fastcdc_default]. lia.
  - intros j Hj. apply zero_stop. cbn [fc_min_size dflt fastcdc_default] in Hj. lia.
Qed.

(** One block of zeros, when [256 * j] zeros are pending. *)
Lemma zero_block : forall fuel s j, (j < 256)%nat -> fc_rel dflt s (repeat x00 (256 * j)) -> exists s',
  feed_block (fastcdc_incr dflt) (S fuel) s 0 (repeat x00 256) = Ok (Hungry s' 0) /\
  fc_rel dflt s' (repeat x00 (256 * ((j + 1) mod 256))).
Proof.
  intros fuel s j Hj HR.
  assert (N : forall n, ~ fc_first dflt [] (repeat x00 (256 * j)) n).
  { intros n F. apply zero_first in F; lia. }
  assert (Z256 : length (repeat x00 256) = 256%nat) by apply repeat_length.
  assert (E : repeat x00 (256 * j) ++ repeat x00 256 = repeat x00 (256 * (j + 1))) by (rewrite <- repeat_app; f_equal; lia).
  destruct (fc_push_ok dflt dflt_ok s [] (repeat x00 (256 * j)) (repeat x00 256) HR N) as [(n & k & s' & F & En & P & HR')|(s' & N' & P & HR')].
  - cbn [app]. rewrite E, repeat_length. unfold below_2_64. lia.
  - rewrite E in F. apply zero_first in F; [|lia]. rewrite repeat_length in En.
    exists s'. cbn [feed_block incr_push fastcdc_incr]. rewrite P. cbn [bind].
    replace k with 256%nat by lia. rewrite Z256. cbn [Nat.eqb]. split; [reflexivity|]. replace ((j + 1) mod 256)%nat with 0%nat; [exact HR'|].
    replace (j + 1)%nat with 256%nat by lia. reflexivity.
  - exists s'. cbn [feed_block incr_push fastcdc_incr]. rewrite P. cbn [bind]. split; [reflexivity|]. rewrite E in *.
    destruct (Nat.eq_dec j 255) as [->|Q].
    + exfalso. apply (N' (Z.to_nat 65536)). replace (256 * (255 + 1))%nat with (Z.to_nat 65536) by lia. apply zero_max.
    + rewrite Nat.mod_small by lia. exact HR'.
Qed.

(** Fed with zeros, the test still runs after any number of blocks, and has not counted a single chunk. *)
Theorem C62_feed_refuted : forall n fuel, exists s,
  feed_until_5_chunks (fastcdc_incr fastcdc_default) (S fuel) (repeat (repeat x00 256) n) = Ok (Hungry s 0).
Proof.
  intros n fuel. unfold feed_until_5_chunks.
  assert (G : forall n s j, (j < 256)%nat -> fc_rel dflt s (repeat x00 (256 * j)) -> exists s', feed_from (fastcdc_incr dflt) (S fuel) s 0 (repeat (repeat x00 256) n) = Ok (Hungry s' 0)).
  { clear n. induction n as [|n IH]; intros s j Hj HR; [exists s; reflexivity|].
    destruct (zero_block fuel s j Hj HR) as (s' & E & HR').
    assert (U : ((j + 1) mod 256 < 256)%nat) by (apply Nat.mod_upper_bound; discriminate).
    destruct (IH s' ((j + 1) mod 256)%nat U HR') as (s2 & E2). exists s2.
    change (repeat (repeat x00 256) (S n)) with (repeat x00 256 :: repeat (repeat x00 256) n). cbn [feed_from]. rewrite E. cbn [bind]. exact E2. }
  apply (G n fastcdc_state_default 0%nat ltac:(lia)). apply fc_default_rel.
Qed.
Print Assumptions C62_feed_refuted.

(** What holds: it never panics, no single block keeps it busy forever, and it returns as soon as six cuts of the stream are
    not at the end of a block. *)
Lemma block_ends_mult : forall blocks base p, (base mod 256 = 0)%nat -> Forall (fun d => length d = 256%nat) blocks -> In p (block_ends base blocks) -> (p mod 256 = 0)%nat.
Proof.
  induction blocks as [|d more IH]; intros base p Hb Hf Hp; cbn in Hp; [contradiction|]. inversion Hf as [|? ? Hd Hm]; subst. rewrite Hd in Hp.
  assert (B : ((base + 256) mod 256 = 0)%nat) by (rewrite <- (Nat.mul_1_l 256) at 1; now rewrite Nat.mod_add).
  destruct Hp as [<-|Hp]; [exact B|]. exact (IH _ _ B Hm Hp).
Qed.

Theorem C62_feed_partial : forall blocks fuel cs, Forall (fun d => length d = 256%nat) blocks -> below_2_64 (length (concat blocks)) -> (258 <= fuel)%nat ->
  cuts_of (fastcdc_first GEAR_64 2048 8192 65536) [] (concat blocks) cs ->
  (exists r, feed_until_5_chunks (fastcdc_incr fastcdc_default) fuel blocks = Ok r) /\
  ((5 < length (filter (fun p => negb (Nat.eqb (p mod 256) 0)) cs))%nat ->
   feed_until_5_chunks (fastcdc_incr fastcdc_default) fuel blocks = Ok Enough).
Proof.
  intros blocks fuel cs Hb Hl Hf Hcs. unfold feed_until_5_chunks.
  assert (Hm : 0 <= fc_min_size dflt) by (cbn; lia).
  destruct (feed_from_ok (fastcdc_incr dflt) (fc_first dflt) below_2_64 (fun s _ c => fc_rel dflt s c) (fc_laws dflt Hm) (fc_progressive dflt ltac:(cbn; lia)) below_down
    (fc_push_ok dflt dflt_ok) blocks fuel fastcdc_state_default 0 [] [] cs) as [E|(s & ct & E & Hct & Cn)].
  - apply fc_default_rel.
  - apply (fl_nil _ (fc_laws dflt Hm)).
  - exact Hl.
  - apply (Forall_impl _ (P := fun d => length d = 256%nat)); [intros d ->; lia|exact Hb].
  - lia.
  - exact Hcs.
  - split; [eexists; exact E|]. intros _. exact E.
  - split; [eexists; exact E|]. intros X. exfalso. cbn [app length] in Cn.
    assert (A := filter_le _ (fun p => negb (Nat.eqb (p mod 256) 0)) (inside (block_ends 0 blocks)) cs). 
    assert (B : forall p, negb (Nat.eqb (p mod 256) 0) = true -> inside (block_ends 0 blocks) p = true).
    { intros p Hp. unfold inside. apply negb_true_iff. apply negb_true_iff, Nat.eqb_neq in Hp. apply not_true_is_false. intros I. apply Hp.
      apply existsb_exists in I. destruct I as (q & Iq & Eq). apply Nat.eqb_eq in Eq. subst q. exact (block_ends_mult blocks 0 p eq_refl Hb Iq). }
    specialize (A B). lia.
Qed.
Print Assumptions C62_feed_partial.

(** Exactly: it returns if and only if more than five cuts are loud, i.e. all but those where a chunk of 65536 bytes ends a block. *)
Theorem C62_feed_exact_partial : forall blocks fuel cs, Forall (fun d => length d = 256%nat) blocks -> below_2_64 (length (concat blocks)) -> (258 <= fuel)%nat ->
  cuts_of (fastcdc_first GEAR_64 2048 8192 65536) [] (concat blocks) cs ->
  let ct := length (filter (fun '(n, p) => negb (andb (Z.of_nat n =? 65536) (Nat.eqb (p mod 256) 0))) (combine (sizes 0 cs) cs)) in
  exists s, feed_until_5_chunks (fastcdc_incr fastcdc_default) fuel blocks = Ok (if Nat.ltb 5 ct then Enough else Hungry s ct).
Proof.
  intros blocks fuel cs Hb Hl Hf Hcs ct. unfold feed_until_5_chunks. assert (Hm : 0 <= fc_min_size dflt) by (cbn; lia).
  change ct with (Nat.add 0 (loud 256 (fun n => Z.of_nat n =? 65536) (length (@nil byte)) cs)).
  apply (feed_from_exact (fastcdc_incr dflt) (fc_first dflt) below_2_64 (fun s _ c => fc_rel dflt s c) (fc_laws dflt Hm) (fc_progressive dflt ltac:(cbn; lia)) below_down
    (fc_push_ok dflt dflt_ok) 256 (fun n => Z.of_nat n =? 65536) ltac:(lia)) with (h := []) (c := []); try assumption; try lia; try reflexivity.
  - intros h d n (F1 & F2 & F3 & F4). cbn [dflt fastcdc_default fc_gear fc_min_size fc_normal_size fc_max_size] in *. rewrite Z.eqb_eq. split.
    + intros E. unfold fc_first. cbn [dflt fastcdc_default fc_gear fc_min_size fc_normal_size fc_max_size]. unfold fastcdc_first. rewrite firstn_length, Nat.min_l by lia.
      split; [lia|]. split; [lia|]. split; [left; lia|]. intros m Hmm X. apply (F4 m Hmm).
      assert (W := fc_stop_ext dflt (firstn n d) (skipn n d) m). rewrite firstn_skipn in W. exact (W X).
    + intros (G1 & G2 & G3 & G4). cbn [dflt fastcdc_default fc_gear fc_min_size fc_normal_size fc_max_size] in G1, G2, G3, G4. destruct G3 as [G3|[G3 _]]; [|rewrite firstn_length in G3; lia].
      destruct (Z.eq_dec (Z.of_nat n) 65536) as [E|E]; [exact E|]. exfalso. apply (F4 (Z.to_nat 65536)); [lia|]. left. lia.
  - apply fc_default_rel.
  - apply (fl_nil _ (fc_laws dflt Hm)).
Qed.
Print Assumptions C62_feed_exact_partial.

(** The same loop with smaller sizes: min 3, normal 3, max 7, and blocks of 4 bytes; byte 117 stops the hash. *)
Definition fed_count {C} (r : res (fed C)) : option nat := match r with Ok Enough => Some 6%nat | Ok (Hungry _ ct) => Some ct | _ => None end.
Definition C62_run (n : nat) : option nat :=
  fed_count (feed_until_5_chunks (fastcdc_incr (fastcdc_new GEAR_64 3 3 7)) 9 (repeat [x00; x00; x75; x00] n)).
Example C62_case : map C62_run (seq 0 13) = [Some 0; Some 0; Some 1; Some 2; Some 2; Some 3; Some 3; Some 3; Some 4; Some 5; Some 5; Some 6; Some 6]%nat.
Proof. vm_compute. reflexivity. Qed.

(** ** C63: the bench loop collects the chunk sizes, for every input *)
Theorem C63_bench_bup : forall data, exists cs, cuts_of (ends_at (per_stream (bup_rule 64))) [] data cs /\
  forall fuel, (length data < fuel)%nat -> bench_lengths (rollsum_incr rollsum_default) fuel data = Ok (sizes 0 cs).
Proof.
  intros data. destruct (bup_incr_conforms 6 data I) as (cs & Hcs & _). exists cs. split; [exact Hcs|]. intros fuel Hf.
  exact (bench_from_ok (rollsum_incr (2 ^ 6)) _ any_length _ (ends_at_laws _) (ends_at_progressive _) (bup_push_ok 6) fuel _ data [] cs
    (bup_new_rel 6) eq_refl I Hcs ltac:(cbn; lia)).
Qed.
Print Assumptions C63_bench_bup.

Example C63_case :
  bench_lengths (rollsum_incr rollsum_default) 20 [xff; xff; xff; xff; x9c; x00; x01; x4d; xec; x84; xf8; x56; x00] = Ok [7; 5]%nat /\
  bench_lengths (rollsum_incr rollsum_default) 20 [xff; xff; xff; xff; x9c; x00; x02; x4d; xec; x84; xf8; x56; x00] = Ok [].
Proof. split; vm_compute; reflexivity. Qed.
