(** * PropsSensitive: C67, what changing one byte of a stream does to its cuts. *)

From Verif Require Import Base Api Tables Spec Lists Contract CutFacts BupAny Bup Gzip Zstd PropsZstd Gear GearProofs Builtin BuiltinProofs CutProps Cases Density Sensitive PropsDedup.

Lemma firstn_change : forall (a b : list byte) x q, (length a < q)%nat -> firstn q (a ++ x :: b) = a ++ x :: firstn (q - S (length a)) b.
Proof.
  intros a b x q H. rewrite firstn_app_ge by lia. replace (q - length a)%nat with (S (q - S (length a))) by lia. reflexivity.
Qed.

Lemma cut_bounds : forall r d cs, cuts_of (ends_at r) [] d cs -> forall n, In n cs -> (1 <= n <= length d)%nat.
Proof.
  intros r d cs H n Hn. destruct (cuts_of_split _ (ends_at_laws _) (ends_at_progressive _) _ _ _ H n Hn) as (? & ? & _ & B & _). cbn [length] in B. lia.
Qed.

(** ** Rules that see the whole stream *)
Lemma stream_change : forall r a b x y cs1 cs2,
  cuts_of (ends_at (per_stream r)) [] (a ++ x :: b) cs1 -> cuts_of (ends_at (per_stream r)) [] (a ++ y :: b) cs2 -> forall q,
  ((q <= length a)%nat -> (In q cs1 <-> In q cs2)) /\
  ((length a + S (length b) < q)%nat -> ~ In q cs1 /\ ~ In q cs2) /\
  ((length a < q <= length a + S (length b))%nat -> exists c, S (length c) = (q - length a)%nat /\ (In q cs1 <-> r (a ++ x :: c)) /\ (In q cs2 <-> r (a ++ y :: c))).
Proof.
  intros r a b x y cs1 cs2 H1 H2 q. assert (B : forall d cs, cuts_of (ends_at (per_stream r)) [] d cs -> forall n, In n cs -> (1 <= n <= length d)%nat).
  { intros d cs H n Hn. exact (cut_bounds _ _ _ H n Hn). }
  split; [|split].
  - intros Hq. destruct (Nat.eq_dec q 0) as [->|N]; [split; intros I; [apply (B _ _ H1) in I|apply (B _ _ H2) in I]; lia|].
    rewrite (stream_cut r _ _ H1 q), (stream_cut r _ _ H2 q) by (rewrite app_length; cbn [length]; lia). now rewrite !firstn_app_le by exact Hq.
  - intros Hq. split; intros I; [apply (B _ _ H1) in I|apply (B _ _ H2) in I]; rewrite app_length in I; cbn [length] in I; lia.
  - intros Hq. exists (firstn (q - S (length a)) b). rewrite firstn_length_le by lia. split; [lia|].
    rewrite (stream_cut r _ _ H1 q), (stream_cut r _ _ H2 q), !firstn_change by (rewrite ?app_length; cbn [length]; lia). split; reflexivity.
Qed.

(** Zstd: any change of one byte removes every cut in the next 32 positions, and changes no other cut. *)
Theorem C67_zstd_push : forall t C a b x y sched1 sched2 r1 r2, is_u64 t -> incr_of (CfgZstd t) = Ok C -> x <> y -> stream_len (length (a ++ x :: b)) ->
  run_incr 1 C (a ++ x :: b) (sched1 ++ drain (a ++ x :: b)) = Ok r1 -> run_incr 1 C (a ++ y :: b) (sched2 ++ drain (a ++ y :: b)) = Ok r2 ->
  forall q, ((length a < q <= length a + 32)%nat -> In q (r_cuts r1) -> ~ In q (r_cuts r2)) /\
            (~ (length a < q <= length a + 32)%nat -> (In q (r_cuts r1) <-> In q (r_cuts r2))).
Proof.
  intros t C a b x y sched1 sched2 r1 r2 T E N L E1 E2 q.
  assert (L2 : stream_len (length (a ++ y :: b))) by (rewrite app_length in *; exact L).
  apply (incr_complete (CfgZstd t) C T E I) in E1; [|exact L]. apply (incr_complete (CfgZstd t) C T E I) in E2; [|exact L2].
  destruct (stream_change _ a b x y _ _ E1 E2 q) as (A & B & D).
  assert (Hb : 20 <= bits_of t <= 64).
  { unfold bits_of. assert (0 <= Z.log2 (t / 2 ^ 20)) by apply Z.log2_nonneg. destruct T as [T0 T1].
    assert (t / 2 ^ 20 < 2 ^ 44) by (apply Z.div_lt_upper_bound; [lia|]; exact T1).
    destruct (Z.lt_ge_cases 0 (t / 2 ^ 20)) as [G|G]; [apply Z.log2_lt_pow2 in H0; lia|rewrite Z.log2_nonpos by lia; lia]. }
  destruct (Nat.le_gt_cases q (length a)) as [Q|Q]; [split; [lia|intros _; auto]|].
  destruct (Nat.le_gt_cases q (length a + S (length b))) as [Q'|Q']; [|specialize (B Q'); split; tauto].
  destruct (D ltac:(lia)) as (c & Hc & X1 & X2). rewrite X1, X2. split.
  - intros Hq R1 R2. apply N. apply (zstd_sensitive (bits_of t) a c); [lia|lia|exact R1|exact R2].
  - intros Hq. assert (32 <= length c)%nat by lia.
    assert (F : forall z, firstn 32 (rev (a ++ z :: c)) = firstn 32 (rev c)) by (intros z; rewrite rev_mid, firstn_app_le by (rewrite rev_length; lia); reflexivity).
    unfold zstd_rule, zstd_hash. rewrite !F, !app_length. reflexivity.
Qed.
Print Assumptions C67_zstd_push.

(** RollSum's [push]: among the next [w] positions ([low_bit w] when [w] is not a power of two) a cut stays only when
    8192 divides the change of the sum. *)
Theorem C67_rollsum_push : forall w a b x y sched1 sched2 r1 r2, (1 <= w)%nat -> stream_len (length (a ++ x :: b)) ->
  run_incr 0 (rollsum_incr (rollsum_with_window w)) (a ++ x :: b) (sched1 ++ drain (a ++ x :: b)) = Ok r1 ->
  run_incr 0 (rollsum_incr (rollsum_with_window w)) (a ++ y :: b) (sched2 ++ drain (a ++ y :: b)) = Ok r2 ->
  forall q, (length a < q <= length a + low_bit w)%nat -> In q (r_cuts r1) ->
  (In q (r_cuts r2) <-> ((Z.of_nat q - Z.of_nat (length a)) * (b2z y - b2z x)) mod 8192 = 0).
Proof.
  intros w a b x y sched1 sched2 r1 r2 Hw L E1 E2 q Hq I1.
  assert (L2 : stream_len (length (a ++ y :: b))) by (rewrite app_length in *; exact L).
  apply (incr_complete (CfgRollSum w) _ I eq_refl Hw) in E1; [|exact L]. apply (incr_complete (CfgRollSum w) _ I eq_refl Hw) in E2; [|exact L2].
  destruct (stream_change _ a b x y _ _ E1 E2 q) as (A & B & D).
  destruct (Nat.le_gt_cases q (length a + S (length b))) as [Q'|Q']; [|specialize (B Q'); tauto].
  destruct (D ltac:(lia)) as (c & Hc & X1 & X2). apply X1 in I1. rewrite X2, (bup_incr_sensitive w a c x y) by (assumption || lia).
  replace (Z.of_nat q - Z.of_nat (length a)) with (Z.of_nat (length c) + 1) by lia. reflexivity.
Qed.
Print Assumptions C67_rollsum_push.

(** For the default window: the one change that can leave a cut in reach where it is, is a change by 128 of the oldest byte.
    For windows of at most 32 bytes there is none.  The cuts out of reach stay. *)
Theorem C67_rollsum_small : forall k a b x y sched1 sched2 r1 r2, (k <= 6)%nat -> x <> y -> stream_len (length (a ++ x :: b)) -> let w := (2 ^ k)%nat in
  run_incr 0 (rollsum_incr (rollsum_with_window w)) (a ++ x :: b) (sched1 ++ drain (a ++ x :: b)) = Ok r1 ->
  run_incr 0 (rollsum_incr (rollsum_with_window w)) (a ++ y :: b) (sched2 ++ drain (a ++ y :: b)) = Ok r2 ->
  forall q, ((length a < q <= length a + w)%nat -> In q (r_cuts r1) ->
             (In q (r_cuts r2) <-> (q = length a + 64)%nat /\ Z.abs (b2z y - b2z x) = 128)) /\
            (~ (length a < q <= length a + w)%nat -> (In q (r_cuts r1) <-> In q (r_cuts r2))).
Proof.
  intros k a b x y sched1 sched2 r1 r2 Hk N L w E1 E2 q.
  assert (Hw : (1 <= w <= 64)%nat) by (unfold w; split; [apply Nat.neq_0_lt_0, Nat.pow_nonzero; lia|change 64%nat with (2 ^ 6)%nat; apply Nat.pow_le_mono_r; lia]).
  assert (Hlow : low_bit w = w) by apply low_bit_pow2. split.
  - intros Hq I1. rewrite (C67_rollsum_push w a b x y sched1 sched2 r1 r2 ltac:(lia) L E1 E2 q) by (rewrite ?Hlow; assumption).
    rewrite weight_8192 by (assumption || lia). split; intros [X Y]; (split; [lia|exact Y]).
  - intros Hq. assert (L2 : stream_len (length (a ++ y :: b))) by (rewrite app_length in *; exact L).
    apply (incr_complete (CfgRollSum w) _ I eq_refl) in E1; [|cbn; lia|exact L]. apply (incr_complete (CfgRollSum w) _ I eq_refl) in E2; [|cbn; lia|exact L2].
    destruct (stream_change _ a b x y _ _ E1 E2 q) as (A & B & D).
    destruct (Nat.le_gt_cases q (length a)) as [Q|Q]; [auto|].
    destruct (Nat.le_gt_cases q (length a + S (length b))) as [Q'|Q']; [|specialize (B Q'); tauto].
    destruct (D ltac:(lia)) as (c & Hc & X1 & X2). rewrite X1, X2.
    assert (R : forall z, bup_incr_s2 w (a ++ z :: c) = bup_s2 w (a ++ z :: c)) by (intros z; apply bup_incr_pow2).
    unfold bup_incr_rule. rewrite !R. unfold bup_s2. rewrite !rev_mid, !firstn_app_le by (rewrite rev_length; lia). reflexivity.
Qed.
Print Assumptions C67_rollsum_small.

(** PigzRsyncable, both APIs: the hash does not notice its own cuts, so here too every cut in reach can be judged. *)
Theorem C67_pigz : forall bits CI CC sh a b x y sched1 sched2 r1 r2 cs1 cs2, 0 <= bits < 256 -> incr_of (CfgPigz bits) = Ok CI -> chunk_of (CfgPigz bits) = Ok CC ->
  stream_len (length (a ++ x :: b)) ->
  (run_incr 0 CI (a ++ x :: b) (sched1 ++ drain (a ++ x :: b)) = Ok r1 /\ run_incr 0 CI (a ++ y :: b) (sched2 ++ drain (a ++ y :: b)) = Ok r2 /\
     cs1 = r_cuts r1 /\ cs2 = r_cuts r2) \/
  (exists s1 s2, run_chunk sh CC (a ++ x :: b) (sched1 ++ drain (a ++ x :: b)) = Ok s1 /\ run_chunk sh CC (a ++ y :: b) (sched2 ++ drain (a ++ y :: b)) = Ok s2 /\
     cs1 = r_cuts s1 /\ cs2 = r_cuts s2) ->
  forall q, (length a < q)%nat -> Z.of_nat q <= Z.of_nat (length a) + bits -> In q cs1 ->
  (In q cs2 <-> (Z.lxor (b2z x) (b2z y) * 2 ^ (Z.of_nat q - Z.of_nat (length a) - 1)) mod 2 ^ bits = 0).
Proof.
  intros bits CI CC sh a b x y sched1 sched2 r1 r2 cs1 cs2 T E1 E2 L R q Hq Hq' I1.
  assert (L2 : stream_len (length (a ++ y :: b))) by (rewrite app_length in *; exact L).
  assert (K : cuts_of (ends_at (per_chunk (pigz_rule bits))) [] (a ++ x :: b) cs1 /\ cuts_of (ends_at (per_chunk (pigz_rule bits))) [] (a ++ y :: b) cs2).
  { destruct R as [(R1 & R2 & -> & ->)|(s1 & s2 & R1 & R2 & -> & ->)].
    - split; [exact (incr_complete (CfgPigz bits) CI T E1 I _ _ _ L R1)|exact (incr_complete (CfgPigz bits) CI T E1 I _ _ _ L2 R2)].
    - split; [exact (chunk_complete (CfgPigz bits) CC _ T E2 I eq_refl sh _ _ _ L R1)|exact (chunk_complete (CfgPigz bits) CC _ T E2 I eq_refl sh _ _ _ L2 R2)]. }
  destruct K as [K1 K2]. assert (B := cut_bounds _ _ _ K1 q I1).
  apply (pigz_cut bits _ _ ltac:(lia) K1 q B) in I1. rewrite app_length in B. cbn [length] in B.
  rewrite (pigz_cut bits _ _ ltac:(lia) K2 q) by (rewrite app_length; cbn [length]; lia).
  rewrite firstn_change in I1 |- * by lia.
  set (c := firstn (q - S (length a)) b) in *. assert (Hc : length c = (q - S (length a))%nat) by (unfold c; rewrite firstn_length; lia).
  rewrite (pigz_sensitive bits a c x y) by (assumption || lia). replace (Z.of_nat q - Z.of_nat (length a) - 1) with (Z.of_nat (length c)) by lia. reflexivity.
Qed.
Print Assumptions C67_pigz.

(** ** Rules that see one chunk *)

(** How far back a rule looks, and which changes of the byte of age [n] it does not see. *)
Definition in_reach (c : config) (n : nat) : Prop :=
  match c with
  | CfgGear _ => (n < 32)%nat
  | CfgPigz bits => Z.of_nat n < bits
  | CfgGzip w _ => (n < w)%nat /\ Z.of_nat w < 2 ^ 56
  | CfgRollSum w => (n < w)%nat
  | CfgBuzHash k _ _ _ => (n < k)%nat
  | _ => False
  end.
Definition unseen (c : config) (n : nat) (x y : byte) : Prop :=
  match c with
  | CfgPigz bits => (Z.lxor (b2z x) (b2z y) * 2 ^ Z.of_nat n) mod 2 ^ bits = 0
  | CfgGzip _ m => (b2z y - b2z x) mod m = 0
  | CfgRollSum _ => ((Z.of_nat n + 1) * (b2z y - b2z x)) mod 8192 = 0
  | CfgBuzHash _ mask h _ => bits_clear (Z.lxor (rot32 (Z.of_nat n) (value_of h x)) (rot32 (Z.of_nat n) (value_of h y))) mask
  | _ => False
  end.
Definition additive (c : config) : Prop := match c with CfgPigz _ | CfgGzip _ _ | CfgRollSum _ | CfgBuzHash _ _ _ _ => True | _ => False end.

Lemma rule_change : forall c rule a b x y, typed c -> chunk_sound c -> chunk_rule c = Some rule -> additive c -> in_reach c (length b) ->
  rule (a ++ x :: b) -> (rule (a ++ y :: b) <-> unseen c (length b) x y).
Proof.
  intros c rule a b x y T S R A H. destruct c; cbn in R, A, H, T, S |- *; try contradiction; injection R as <-.
  - apply pigz_sensitive; lia.
  - destruct H. apply gzip_sensitive; assumption.
  - now apply bup_sensitive.
  - now apply buz_sensitive.
Qed.

(** [find_chunk_edge]: a chunk [a x b] of one stream, changed to [a y b] in another where a chunk starts.  When no earlier
    cut appears, the chunk ends at the same place iff the change is one that the rule does not see. *)
Theorem C67_edge : forall c C rule sh1 sh2, typed c -> chunk_of c = Ok C -> chunk_sound c -> chunk_rule c = Some rule -> additive c ->
  forall h1 h2 a b x y t1 t2 sched1 sched2 r1 r2, let k1 := a ++ x :: b in let k2 := a ++ y :: b in in_reach c (length b) ->
  stream_len (length (h1 ++ k1 ++ t1)) -> stream_len (length (h2 ++ k2 ++ t2)) ->
  run_chunk sh1 C (h1 ++ k1 ++ t1) (sched1 ++ drain (h1 ++ k1 ++ t1)) = Ok r1 ->
  run_chunk sh2 C (h2 ++ k2 ++ t2) (sched2 ++ drain (h2 ++ k2 ++ t2)) = Ok r2 ->
  is_chunk h1 k1 (r_cuts r1) -> h2 = [] \/ In (length h2) (r_cuts r2) -> no_cut_between (length h2) (length h2 + length k2) (r_cuts r2) ->
  (is_chunk h2 k2 (r_cuts r2) <-> unseen c (length b) x y).
Proof.
  intros c C rule sh1 sh2 T E S R A h1 h2 a b x y t1 t2 sched1 sched2 r1 r2 k1 k2 H L1 L2 E1 E2 I1 S2 N2.
  apply (chunk_complete c C rule T E S R sh1 _ _ _ L1) in E1. apply (chunk_complete c C rule T E S R sh2 _ _ _ L2) in E2.
  assert (X := chunk_first _ (ends_at_laws _) (ends_at_progressive _) (ends_at_local _) h1 k1 t1 _ E1 ltac:(unfold k1; destruct a; discriminate) I1).
  destruct X as (_ & X & _). rewrite firstn_all in X. unfold per_chunk in X.
  rewrite <- (rule_change c rule a b x y T S R A H X). fold k2.
  assert (Lk : (1 <= length k2)%nat) by (unfold k2; rewrite app_length; cbn [length]; lia).
  assert (Y := cuts_of_at _ _ _ _ E2 (length h2) (length h2 + length k2)%nat ltac:(destruct S2 as [->|S2]; [now left|now right]) ltac:(rewrite !app_length; cbn [length]; lia) N2).
  cbn [app] in Y. unfold per_chunk in Y. rewrite skipn_app_ge, Nat.sub_diag in Y by lia. cbn [skipn] in Y.
  replace (length h2 + length k2 - length h2)%nat with (length k2) in Y by lia. rewrite firstn_app_le, firstn_all in Y by lia.
  unfold is_chunk. rewrite Y. tauto.
Qed.
Print Assumptions C67_edge.

(** [push] of GzipRsyncable and BuzHash. *)
Theorem C67_push : forall c C, typed c -> incr_of c = Ok C -> incr_sound c -> match c with CfgGzip _ _ | CfgBuzHash _ _ _ _ => True | _ => False end ->
  forall h1 h2 a b x y t1 t2 sched1 sched2 r1 r2, let k1 := a ++ x :: b in let k2 := a ++ y :: b in in_reach c (length b) ->
  match c with CfgBuzHash _ _ _ max => Z.of_nat (length k1) <= max | _ => True end ->
  stream_len (length (h1 ++ k1 ++ t1)) -> stream_len (length (h2 ++ k2 ++ t2)) ->
  run_incr 0 C (h1 ++ k1 ++ t1) (sched1 ++ drain (h1 ++ k1 ++ t1)) = Ok r1 ->
  run_incr 0 C (h2 ++ k2 ++ t2) (sched2 ++ drain (h2 ++ k2 ++ t2)) = Ok r2 ->
  is_chunk h1 k1 (r_cuts r1) -> h2 = [] \/ In (length h2) (r_cuts r2) -> no_cut_between (length h2) (length h2 + length k2) (r_cuts r2) ->
  (is_chunk h2 k2 (r_cuts r2) <-> unseen c (length b) x y).
Proof.
  intros c C T E S A h1 h2 a b x y t1 t2 sched1 sched2 r1 r2 k1 k2 H Hmax L1 L2 E1 E2 I1 S2 N2.
  assert (Ha : incr_adj c = 0%nat) by (destruct c; try contradiction; reflexivity).
  rewrite <- Ha in E1, E2. apply (incr_complete c C T E S _ _ _ L1) in E1. apply (incr_complete c C T E S _ _ _ L2) in E2.
  assert (G : exists r r', incr_first c = ends_at (per_chunk r) /\ chunk_rule c = Some r' /\ (r k1 <-> r' k1) /\ (r k2 <-> r' k2)).
  { destruct c; cbn in *; try contradiction; do 2 eexists; (split; [reflexivity|]; split; [reflexivity|]); [split; reflexivity|].
    assert (length k2 = length k1) as Lk by (unfold k1, k2; rewrite !app_length; reflexivity).
    unfold buz_incr_rule. rewrite Lk. split; (split; [intros [Q|Q]; [exact Q|lia]|now left]). }
  destruct G as (r & r' & Er & Ec & G1 & G2). rewrite Er in E1, E2.
  assert (X := chunk_first _ (ends_at_laws _) (ends_at_progressive _) (ends_at_local _) h1 k1 t1 _ E1 ltac:(unfold k1; destruct a; discriminate) I1).
  destruct X as (_ & X & _). rewrite firstn_all in X. unfold per_chunk in X. apply G1 in X.
  assert (Sc : chunk_sound c) by (destruct c; cbn in *; try contradiction; tauto). assert (Ad : additive c) by (destruct c; try contradiction; exact I).
  rewrite <- (rule_change c r' a b x y T Sc Ec Ad H X). fold k2. rewrite <- G2.
  assert (Lk : (1 <= length k2)%nat) by (unfold k2; rewrite app_length; cbn [length]; lia).
  assert (Y := cuts_of_at _ _ _ _ E2 (length h2) (length h2 + length k2)%nat ltac:(destruct S2 as [->|S2]; [now left|now right]) ltac:(rewrite !app_length; cbn [length]; lia) N2).
  cbn [app] in Y. unfold per_chunk in Y. rewrite skipn_app_ge, Nat.sub_diag in Y by lia. cbn [skipn] in Y.
  replace (length h2 + length k2 - length h2)%nat with (length k2) in Y by lia. rewrite firstn_app_le, firstn_all in Y by lia.
  unfold is_chunk. rewrite Y. tauto.
Qed.
Print Assumptions C67_push.

(** Gear32, both APIs: the change of the fingerprint has to be small. *)
Theorem C67_gear : forall n CI CC sh1 sh2 h1 h2 a b x y t1 t2 sched1 sched2 cs1 cs2, typed (CfgGear n) -> incr_of (CfgGear n) = Ok CI -> chunk_of (CfgGear n) = Ok CC ->
  let k1 := a ++ x :: b in let k2 := a ++ y :: b in (length b < 32)%nat ->
  stream_len (length (h1 ++ k1 ++ t1)) -> stream_len (length (h2 ++ k2 ++ t2)) ->
  (exists r1 r2, run_incr 1 CI (h1 ++ k1 ++ t1) (sched1 ++ drain (h1 ++ k1 ++ t1)) = Ok r1 /\ run_incr 1 CI (h2 ++ k2 ++ t2) (sched2 ++ drain (h2 ++ k2 ++ t2)) = Ok r2 /\
     cs1 = r_cuts r1 /\ cs2 = r_cuts r2) \/
  (exists r1 r2, run_chunk sh1 CC (h1 ++ k1 ++ t1) (sched1 ++ drain (h1 ++ k1 ++ t1)) = Ok r1 /\ run_chunk sh2 CC (h2 ++ k2 ++ t2) (sched2 ++ drain (h2 ++ k2 ++ t2)) = Ok r2 /\
     cs1 = r_cuts r1 /\ cs2 = r_cuts r2) ->
  is_chunk h1 k1 cs1 -> is_chunk h2 k2 cs2 ->
  let d := (2 ^ Z.of_nat (length b) * (table_at GEAR_32 y - table_at GEAR_32 x)) mod 2 ^ 32 in d < 2 ^ (32 - n) \/ 2 ^ 32 - 2 ^ (32 - n) < d.
Proof.
  intros n CI CC sh1 sh2 h1 h2 a b x y t1 t2 sched1 sched2 cs1 cs2 T EI EC k1 k2 Hb L1 L2 R I1 I2.
  assert (K : cuts_of (ends_at (per_chunk (gear_rule n))) [] (h1 ++ k1 ++ t1) cs1 /\ cuts_of (ends_at (per_chunk (gear_rule n))) [] (h2 ++ k2 ++ t2) cs2).
  { destruct R as [(r1 & r2 & R1 & R2 & -> & ->)|(r1 & r2 & R1 & R2 & -> & ->)].
    - split; [exact (incr_complete (CfgGear n) CI T EI I _ _ _ L1 R1)|exact (incr_complete (CfgGear n) CI T EI I _ _ _ L2 R2)].
    - split; [exact (chunk_complete (CfgGear n) CC _ T EC I eq_refl sh1 _ _ _ L1 R1)|exact (chunk_complete (CfgGear n) CC _ T EC I eq_refl sh2 _ _ _ L2 R2)]. }
  destruct K as [K1 K2].
  assert (X := chunk_first _ (ends_at_laws _) (ends_at_progressive _) (ends_at_local _) h1 k1 t1 _ K1 ltac:(unfold k1; destruct a; discriminate) I1).
  assert (Y := chunk_first _ (ends_at_laws _) (ends_at_progressive _) (ends_at_local _) h2 k2 t2 _ K2 ltac:(unfold k2; destruct a; discriminate) I2).
  destruct X as (_ & X & _). destruct Y as (_ & Y & _). rewrite firstn_all in X, Y. unfold per_chunk in X, Y.
  apply (gear_sensitive n a b x y); [|exact Hb|exact X|exact Y].
  cbn [chunk_of] in EC. destruct (gear_with_average_size_log2 n) as [g| |] eqn:Eg; cbn [bind] in EC; try discriminate. apply gear_ctor_inv in Eg. tauto.
Qed.
Print Assumptions C67_gear.

(** Zstd: byte 2 of a stream with the cuts 33 and 36.  RollSum with the default window: a cut that survives a change by 128
    of a byte 64 back, but not by 127, nor the change by 128 of another byte. *)
Definition rollsum_flip (x y : byte) : list byte := x :: x03 :: x03 :: x03 :: x03 :: y :: repeat x03 57 ++ [x22; x01; x02; x03].
Definition zstd_flip : list byte := firstn 2 zstd_demo ++ x00 :: skipn 3 zstd_demo.
Example C67_case :
  (exists p, zstd_with_target_section_size (2 ^ 20) = Ok p /\
    cuts_seen (run_incr 1 (zstd_incr p) zstd_demo (drain zstd_demo)) = Some [33; 36]%nat /\
    cuts_seen (run_incr 1 (zstd_incr p) zstd_flip (drain zstd_flip)) = Some [36]%nat) /\
  (let f := fun x y => cuts_seen (run_incr 0 (rollsum_incr rollsum_default) (rollsum_flip x y) (drain (rollsum_flip x y))) in
   f x00 x03 = Some [64]%nat /\ f x80 x03 = Some [64]%nat /\ f x7f x03 = Some [] /\ f x00 x83 = Some []).
Proof.
  split; [|vm_compute; repeat split; reflexivity].
  destruct (zstd_with_target_section_size (2 ^ 20)) as [p| |] eqn:E; try (vm_compute in E; discriminate).
  exists p. split; [reflexivity|]. vm_compute in E. injection E as <-. split; vm_compute; reflexivity.
Qed.
