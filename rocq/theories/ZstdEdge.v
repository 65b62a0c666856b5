(** * ZstdEdge: what Zstd's [find_chunk_edge] does after a cut. *)

From Coq Require Import Zpow_facts.
From Verif Require Import Base Api Spec Lists Contract CutFacts Step Words Ring Zstd ZstdProofs.

(** [h]: everything shown in the call that reported the previous cut, up to the end of its buffer.  The hash goes on from
    there as if the hash of [h] were all ones. *)
Definition zstd_lost_rule (bits : Z) (h c : list byte) : Prop :=
  match h with
  | [] => zstd_rule bits c
  | _ => (zstd_hash (h ++ c) - (zstd_hash h + 1) * zstd_prime ^ Z.of_nat (length c)) mod 2 ^ bits = 2 ^ bits - 1
  end.

(** The cuts for a caller that keeps everything the library has not discarded (32 bytes): each call extends what has been
    shown from [lo] to [hi]; [e] is the end of the buffer in which the previous cut was reported.  The last two arguments are
    [e] and [lo] after the last call. *)
Inductive zstd_edge_run (bits : Z) (data : list byte) : list nat -> nat -> nat -> list nat -> nat -> nat -> Prop :=
| edges_end : forall e lo, zstd_edge_run bits data [] e lo [] e lo
| edges_none : forall g sched e lo hi cs e' lo', hi = Nat.min (length data) (Nat.max lo (lo - 32 + g)) ->
    (forall n, ~ ends_at (zstd_lost_rule bits) (firstn e data) (skipn e (firstn hi data)) n) ->
    zstd_edge_run bits data sched e hi cs e' lo' -> zstd_edge_run bits data (g :: sched) e lo cs e' lo'
| edges_cut : forall g sched e lo hi n cs e' lo', hi = Nat.min (length data) (Nat.max lo (lo - 32 + g)) ->
    ends_at (zstd_lost_rule bits) (firstn e data) (skipn e (firstn hi data)) n ->
    zstd_edge_run bits data sched hi hi cs e' lo' -> zstd_edge_run bits data (g :: sched) e lo ((e + n)%nat :: cs) e' lo'.

(** ** The hash after a cut *)
Definition lost (bits : Z) (h c : list byte) : Z := (zstd_hash (h ++ c) - (zstd_hash h + 1) * zstd_prime ^ Z.of_nat (length c)) mod 2 ^ bits.

Lemma mod_64_bits : forall bits x, 0 <= bits <= 64 -> (x mod 2 ^ 64) mod 2 ^ bits = x mod 2 ^ bits.
Proof.
  intros bits x H. symmetry. apply Znumtheory.Zmod_div_mod; try lia. exists (2 ^ (64 - bits)). rewrite <- Z.pow_add_r by lia. f_equal. lia.
Qed.

Lemma rotate_lost : forall bits x h c b o, 0 <= bits <= 64 -> (32 <= length (h ++ c))%nat -> nth_error ((h ++ c) ++ [b]) (length (h ++ c) - 32) = Some o ->
  x mod 2 ^ bits = lost bits h c -> zstd_rotate x o b zstd_power mod 2 ^ bits = lost bits h (c ++ [b]).
Proof.
  intros bits x h c b o Hb H Ho E. unfold lost in *. rewrite app_assoc, <- (zstd_rotate_spec (h ++ c) b o H Ho), app_length. cbn [length].
  rewrite Nat2Z.inj_add, Z.pow_add_r by lia. change (zstd_prime ^ Z.of_nat 1) with zstd_prime.
  assert (U : forall y, zstd_rotate y o b zstd_power mod 2 ^ bits = ((y - (b2z o + 10) * zstd_power) * zstd_prime + (b2z b + 10)) mod 2 ^ bits).
  { intros y. unfold zstd_rotate, wrap64, two64. change PRIME_8_BYTES with zstd_prime. change ROLL_HASH_CHAR_OFFSET with 10.
    rewrite mod_64_bits by exact Hb. generalize zstd_power zstd_prime. intros q pr.
    rewrite <- (mod_64_bits bits _ Hb). rewrite <- (mod_64_bits bits ((y - _ * q) * pr + _) Hb). f_equal. solve_mod. }
  rewrite U, Zminus_mod, U, <- Zminus_mod.
  set (m := 2 ^ bits) in *. set (w := zstd_hash h + 1) in *. set (p := zstd_prime ^ Z.of_nat (length c)) in *. set (y := zstd_hash (h ++ c)) in *.
  replace ((y - (b2z o + 10) * zstd_power) * zstd_prime + (b2z b + 10) - w * (p * zstd_prime))
    with ((y - w * p) * zstd_prime + ((b2z b + 10) - (b2z o + 10) * zstd_power * zstd_prime)) by ring.
  replace ((x - (b2z o + 10) * zstd_power) * zstd_prime + (b2z b + 10))
    with (x * zstd_prime + ((b2z b + 10) - (b2z o + 10) * zstd_power * zstd_prime)) by ring.
  rewrite <- (Zplus_mod_idemp_l (x * zstd_prime)), <- (Zmult_mod_idemp_l x), E, Zmult_mod_idemp_l, Zplus_mod_idemp_l. reflexivity.
Qed.

Lemma lost_scan : forall bits, 0 <= bits <= 64 -> forall buf,
  range_step_ok (zstd_fce_body (zstd_params bits) buf) (zstd_lost_rule bits) any_length buf
    (fun i x h c => (32 <= i <= length (h ++ c))%nat /\ (exists e, h ++ c ++ skipn i buf = e ++ buf) /\ h <> [] /\ x mod 2 ^ bits = lost bits h c)
    (fun x h c => x mod 2 ^ bits = 2 ^ bits - 1).
Proof.
  intros bits Hb buf i x h c b ((Hi & Hi2) & (e & He) & Hh & Ex) Hbi _. unfold zstd_fce_body, sub_usize, RSYNC_LENGTH.
  replace (Nat.leb 32 i) with true by (symmetry; apply Nat.leb_le; lia). cbn [bind].
  assert (Hlt : (i < length buf)%nat) by (apply nth_error_Some; congruence).
  destruct (index_lt _ buf (i - 32)) as (o & Ho & ->); [lia|]. rewrite (index_ok _ _ _ _ Hbi). cbn [bind].
  assert (Es : skipn i buf = b :: skipn (S i) buf).
  { clear -Hbi. revert i Hbi. induction buf as [|y buf IH]; intros i Hbi; [destruct i; discriminate|].
    destruct i as [|i]; [now inversion Hbi|]. exact (IH i Hbi). }
  assert (Hlen : (length (h ++ c) = length e + i)%nat).
  { assert (X := f_equal (@length byte) He). rewrite app_assoc, (app_length (h ++ c)), (app_length e), skipn_length in X. lia. }
  assert (Hoc : nth_error ((h ++ c) ++ [b]) (length (h ++ c) - 32) = Some o).
  { rewrite nth_error_app1 by lia.
    assert (X : nth_error (h ++ c ++ skipn i buf) (length (h ++ c) - 32) = Some o).
    { rewrite He, nth_error_app2 by lia. rewrite <- Ho. f_equal. lia. }
    rewrite app_assoc, nth_error_app1 in X by lia. exact X. }
  change (zd_prime_power (zstd_params bits)) with zstd_power.
  assert (Er := rotate_lost bits x h c b o Hb ltac:(lia) Hoc Ex).
  rewrite zstd_at_split_spec by lia. rewrite Er.
  assert (RU : zstd_lost_rule bits h (c ++ [b]) <-> lost bits h (c ++ [b]) = 2 ^ bits - 1) by (destruct h; [contradiction|reflexivity]).
  destruct (Z.eqb_spec (lost bits h (c ++ [b])) (2 ^ bits - 1)) as [G|G].
  - left. split; [now apply RU|]. eexists. split; [reflexivity|]. now rewrite Er.
  - right. split; [intros X; exact (G (proj1 RU X))|]. eexists. split; [reflexivity|].
    split; [rewrite app_assoc, app_length; simpl; lia|]. split; [|split; [exact Hh|exact Er]].
    exists e. rewrite <- He, Es. now rewrite <- !app_assoc.
Qed.

(** One call in that state. *)
Lemma lost_call : forall bits s h c d, 0 <= bits <= 64 -> (32 <= length h)%nat -> zss_offset s = 32%nat -> zss_state s mod 2 ^ bits = lost bits h c ->
  (forall n, ~ ends_at (zstd_lost_rule bits) h c n) -> let buf := lastn 32 (h ++ c) ++ d in
  (exists n s', ends_at (zstd_lost_rule bits) h (c ++ d) n /\ (length c < n)%nat /\ zss_offset s' = 32%nat /\ zss_state s' mod 2 ^ bits = 2 ^ bits - 1 /\
     zstd_find_chunk_edge (zstd_params bits) s buf = Ok (s', (Some (32 + n - length c)%nat, length d))) \/
  ((forall n, ~ ends_at (zstd_lost_rule bits) h (c ++ d) n) /\ exists s', zss_offset s' = 32%nat /\ zss_state s' mod 2 ^ bits = lost bits h (c ++ d) /\
     zstd_find_chunk_edge (zstd_params bits) s buf = Ok (s', (None, length d))).
Proof.
  intros bits s h c d Hb Hh Eo Es HN buf.
  assert (Lw : length (lastn 32 (h ++ c)) = 32%nat) by (rewrite lastn_length, app_length; lia).
  assert (Lb : length buf = (32 + length d)%nat) by (unfold buf; rewrite app_length, Lw; reflexivity).
  unfold zstd_find_chunk_edge, RSYNC_LENGTH. rewrite Eo. cbn [Nat.ltb Nat.leb bind]. rewrite Eo. cbn [Nat.ltb Nat.leb]. rewrite Lb.
  replace (32 + length d - 32)%nat with (length d) by lia.
  assert (Eb : buf = lastn 32 (h ++ c) ++ d) by reflexivity.
  assert (HS := for_range_scan _ _ _ _ _ _ (lost_scan bits Hb buf) any_length_down d (lastn 32 (h ++ c)) (zss_state s) h c Eb).
  cbv beta in HS. rewrite Lw in HS.
  destruct HS as [(n & j & s' & Fn & En & Ef & HQ)|(N & s' & Ef & _ & _ & _ & HQ)].
  - split; [rewrite app_length; lia|]. split; [|split; [|exact Es]].
    + exists (firstn (length (h ++ c) - 32) (h ++ c)). unfold buf. rewrite skipn_app_ge by lia. rewrite Lw. cbn [Nat.sub skipn].
      rewrite (app_assoc h c d), (app_assoc (firstn _ _)). f_equal. symmetry. apply firstn_skipn.
    + destruct h; [simpl in Hh; lia|discriminate].
  - exact HN.
  - exact I.
  - left. rewrite Ef. cbn [bind]. exists n. eexists. split; [exact Fn|]. split; [lia|].
    replace (32 + j + 1)%nat with (32 + n - length c)%nat by lia. split; [|split; [|reflexivity]]; [reflexivity|exact HQ].
  - right. rewrite Ef. cbn [bind]. split; [exact N|]. eexists. split; [|split; [|reflexivity]]; [cbn [zss_offset]; lia|exact HQ].
Qed.

(** ** Whole runs *)
Lemma lost_start : forall bits h, 0 <= bits -> lost bits h [] = 2 ^ bits - 1.
Proof.
  intros bits h H. unfold lost. rewrite app_nil_r. cbn [length]. change (zstd_prime ^ Z.of_nat 0) with 1.
  replace (zstd_hash h - (zstd_hash h + 1) * 1) with (2 ^ bits - 1 + (-1) * 2 ^ bits) by ring. rewrite Z.mod_add by lia. apply Z.mod_small. lia.
Qed.

Lemma slice_grow : forall (data : list byte) e lo hi, (e <= lo <= hi)%nat -> (hi <= length data)%nat ->
  skipn e (firstn hi data) = skipn e (firstn lo data) ++ firstn (hi - lo) (skipn lo data).
Proof.
  intros data e lo hi H Hd. rewrite (skipn_firstn_split _ lo hi data) by lia. rewrite skipn_app. f_equal.
  rewrite firstn_length. replace (e - _)%nat with 0%nat by lia. reflexivity.
Qed.

Lemma lost_drive : forall bits, 0 <= bits <= 64 -> forall data sched s e base lo none, (33 <= e <= lo)%nat -> (lo <= length data)%nat -> base = (lo - 32)%nat ->
  zss_offset s = 32%nat -> zss_state s mod 2 ^ bits = lost bits (firstn e data) (skipn e (firstn lo data)) ->
  (forall n, ~ ends_at (zstd_lost_rule bits) (firstn e data) (skipn e (firstn lo data)) n) -> (none = false -> e = lo) ->
  exists r, drive_chunk false (zstd_find_chunk_edge (zstd_params bits)) data sched s base lo lo none = Ok r /\
    exists e', zstd_edge_run bits data sched e lo (r_cuts r) e' (r_seen r) /\ (e' <= r_seen r)%nat /\ (r_none r = false -> e' = r_seen r).
Proof.
  intros bits Hb data sched. induction sched as [|g sched IH]; intros s e base lo none He HL EB Eo Es HN Hne.
  - eexists. cbn [drive_chunk]. split; [reflexivity|]. exists e. split; [constructor|]. split; [exact (proj2 He)|exact Hne].
  - cbn [drive_chunk]. set (hi := Nat.min (length data) (Nat.max lo (base + g))).
    assert (Hhi : (lo <= hi <= length data)%nat) by (unfold hi; lia).
    rewrite (zstd_buffer data base lo hi EB Hhi).
    assert (Lt : length (firstn lo data) = lo) by (rewrite firstn_length; lia).
    replace (Nat.min 32 (length (firstn lo data))) with 32%nat by lia.
    assert (G := slice_grow data e lo hi ltac:(lia) ltac:(lia)).
    set (d := firstn (hi - lo) (skipn lo data)) in *.
    assert (Ld : length d = (hi - lo)%nat) by (unfold d; rewrite firstn_length, skipn_length; lia).
    set (c := skipn e (firstn lo data)) in *. set (h := firstn e data) in *.
    assert (Ehc : firstn lo data = h ++ c).
    { unfold h, c. rewrite <- (firstn_skipn e (firstn lo data)) at 1. f_equal. rewrite firstn_firstn. f_equal. lia. }
    assert (Lh : length h = e) by (unfold h; rewrite firstn_length; lia).
    assert (Lc : length c = (lo - e)%nat) by (unfold c; rewrite skipn_length, Lt; reflexivity).
    assert (Ehi : hi = Nat.min (length data) (Nat.max lo (lo - 32 + g))) by (unfold hi; now rewrite EB).
    rewrite Ehc.
    assert (Lb : length (lastn 32 (h ++ c) ++ d) = (32 + length d)%nat) by (rewrite app_length, lastn_length, app_length; lia).
    destruct (lost_call bits s h c d Hb ltac:(lia) Eo Es HN) as [(n & s' & F & Hn & Eo' & Es' & ->)|(N & s' & Eo' & Es' & ->)]; cbn [bind]; rewrite Lb;
      replace (Nat.ltb (32 + length d) (length d)) with false by (symmetry; apply Nat.ltb_ge; lia).
    + assert (Hn2 : (n <= length (c ++ d))%nat) by exact (proj2 (proj1 F)). rewrite app_length in Hn2.
      replace (Nat.ltb (32 + length d) (32 + n - length c)) with false by (symmetry; apply Nat.ltb_ge; lia).
      destruct (IH s' hi (base + length d)%nat hi false) as (r & -> & e2 & Hr & Hle & Hne2).
      * lia.
      * lia.
      * lia.
      * exact Eo'.
      * rewrite skipn_all2 by (rewrite firstn_length; lia). rewrite lost_start by lia. exact Es'.
      * rewrite skipn_all2 by (rewrite firstn_length; lia). intros m (X & _). simpl in X. lia.
      * reflexivity.
      * cbn [bind]. eexists. split; [reflexivity|]. cbn [add_cut r_cuts r_seen r_none]. exists e2. split; [|split; [exact Hle|exact Hne2]].
        replace (base + (32 + n - length c))%nat with (e + n)%nat by lia. apply (edges_cut bits data g sched e lo hi n); [exact Ehi| |exact Hr].
        rewrite G. exact F.
    + destruct (IH s' e (base + length d)%nat hi true) as (r & -> & e2 & Hr & Hle & Hne2).
      * lia.
      * lia.
      * lia.
      * exact Eo'.
      * fold h. rewrite G. exact Es'.
      * fold h. rewrite G. exact N.
      * discriminate.
      * eexists. split; [reflexivity|]. exists e2. split; [|split; [exact Hle|exact Hne2]]. apply (edges_none bits data g sched e lo hi); [exact Ehi| |exact Hr]. fold h. rewrite G. exact N.
Qed.

(** A fresh search. *)
Lemma fresh_drive : forall bits, 0 <= bits <= 64 -> forall data sched s base lo none, (lo <= length data)%nat -> base = (lo - 32)%nat ->
  zstd_search_rel s (firstn lo data) -> (forall n, ~ ends_at (per_stream (zstd_rule bits)) [] (firstn lo data) n) -> (none = false -> lo = 0%nat) ->
  exists r, drive_chunk false (zstd_find_chunk_edge (zstd_params bits)) data sched s base lo lo none = Ok r /\
    exists e', zstd_edge_run bits data sched 0 lo (r_cuts r) e' (r_seen r) /\ (e' <= r_seen r)%nat /\ (r_none r = false -> e' = r_seen r).
Proof.
  intros bits Hb data sched. induction sched as [|g sched IH]; intros s base lo none HL EB HR HN Hne.
  - eexists. cbn [drive_chunk]. split; [reflexivity|]. exists 0%nat. split; [constructor|]. split; [lia|]. intros X. symmetry. exact (Hne X).
  - cbn [drive_chunk]. set (hi := Nat.min (length data) (Nat.max lo (base + g))).
    assert (Hhi : (lo <= hi <= length data)%nat) by (unfold hi; lia).
    rewrite (zstd_buffer data base lo hi EB Hhi).
    set (d := firstn (hi - lo) (skipn lo data)) in *.
    assert (Ld : length d = (hi - lo)%nat) by (unfold d; rewrite firstn_length, skipn_length; lia).
    assert (Lt : length (firstn lo data) = lo) by (rewrite firstn_length; lia).
    assert (Ehi : firstn hi data = firstn lo data ++ d) by (unfold d; apply skipn_firstn_split; lia).
    assert (Lbuf : length (lastn (Nat.min 32 (length (firstn lo data))) (firstn lo data) ++ d) = (hi - base)%nat).
    { rewrite app_length, lastn_length, Lt, Ld. lia. }
    assert (Ehi2 : hi = Nat.min (length data) (Nat.max lo (lo - 32 + g))) by (unfold hi; now rewrite EB).
    destruct (zstd_fce_spec bits s (firstn lo data) d ltac:(lia) HR) as [(n & Fn & s' & Eo & Es & ->)|(N & s' & HR' & ->)]; cbn [bind]; rewrite Lbuf;
      replace (Nat.ltb (hi - base) (hi - base - 32)) with false by (symmetry; apply Nat.ltb_ge; lia); rewrite ?Lt.
    + assert (Hn := proj1 Fn). assert (Hr := proj1 (proj2 Fn)). unfold per_stream in Hr.
      replace (Nat.ltb (hi - base) (Nat.min 32 lo + n)) with false by (symmetry; apply Nat.ltb_ge; lia).
      assert (Hh33 := proj1 Hr). rewrite app_length, firstn_length, firstn_length in Hh33.
      destruct (lost_drive bits Hb data sched s' hi (base + (hi - base - 32))%nat hi false) as (r & -> & e2 & Hr2 & Hle & Hne2).
      * lia.
      * lia.
      * lia.
      * exact Eo.
      * rewrite skipn_all2 by (rewrite firstn_length; lia). rewrite lost_start by lia. rewrite Es. exact (proj2 Hr).
      * rewrite skipn_all2 by (rewrite firstn_length; lia). intros m (X & _). simpl in X. lia.
      * reflexivity.
      * cbn [bind]. eexists. split; [reflexivity|]. cbn [add_cut r_cuts r_seen r_none]. exists e2. split; [|split; [exact Hle|exact Hne2]].
        replace (base + (Nat.min 32 lo + n))%nat with (0 + (lo + n))%nat by lia. apply (edges_cut bits data g sched 0 lo hi); [exact Ehi2| |exact Hr2].
        cbn [skipn firstn]. rewrite Ehi.
        apply (per_stream_shift (zstd_rule bits) [] (firstn lo data) d n HN) in Fn. rewrite Lt in Fn. destruct Fn as [(A & B & C) _].
        split; [exact A|]. split; [exact B|exact C].
    + rewrite <- Ehi in HR'.
      assert (N2 : forall n, ~ ends_at (per_stream (zstd_rule bits)) [] (firstn hi data) n) by (rewrite Ehi; apply (per_stream_shift_none _ []); assumption).
      destruct (IH s' (base + (hi - base - 32))%nat hi true ltac:(lia) ltac:(lia) HR' N2 ltac:(discriminate)) as (r & -> & e2 & Hr & Hle & Hne2). eexists. split; [reflexivity|]. exists e2. split; [|split; [exact Hle|exact Hne2]].
      apply (edges_none bits data g sched 0 lo hi); [exact Ehi2| |exact Hr]. exact N2.
Qed.

Lemma zstd_edge_run_exact : forall bits data sched, 0 <= bits <= 64 ->
  exists r, run_chunk false (zstd_chunk (zstd_params bits)) data sched = Ok r /\ exists e', zstd_edge_run bits data sched 0 0 (r_cuts r) e' (r_seen r) /\ (e' <= r_seen r)%nat /\ (r_none r = false -> e' = r_seen r).
Proof.
  intros bits data sched Hb. apply (fresh_drive bits Hb); [lia|reflexivity|apply zstd_default_rel| |reflexivity]. intros n (X & _). simpl in X. lia.
Qed.

(** ** Right or wrong *)
Lemma prime_pow_odd : forall k, 0 <= k -> Z.odd (zstd_prime ^ k) = true.
Proof.
  apply natlike_ind; [reflexivity|]. intros k Hk IH. rewrite Z.pow_succ_r, Z.odd_mul, IH by exact Hk. reflexivity.
Qed.

Lemma odd_unit : forall bits a q, 0 <= bits -> Z.odd q = true -> (a * q) mod 2 ^ bits = 0 -> a mod 2 ^ bits = 0.
Proof.
  intros bits a q Hb Ho H. assert (Hp : 0 < 2 ^ bits) by (apply Z.pow_pos_nonneg; lia). apply Z.mod_divide in H; [|lia]. apply Z.mod_divide; [lia|].
  apply (Znumtheory.Gauss _ q a); [now rewrite Z.mul_comm|]. apply Znumtheory.rel_prime_sym, rel_prime_Zpower_r; [lia|].
  apply Znumtheory.bezout_rel_prime. apply Z.odd_spec in Ho. destruct Ho as (k & ->). apply (Znumtheory.Bezout_intro _ _ _ 1 (- k)). ring.
Qed.

(** Where the rule holds at the end of the buffer, the search goes on correctly; elsewhere it is never right. *)
Lemma lost_right : forall bits h c, 0 <= bits -> (33 <= length h)%nat -> zstd_rule bits h -> (zstd_lost_rule bits h c <-> zstd_rule bits (h ++ c)).
Proof.
  intros bits h c Hb Hl (_ & E). assert (Hp : 0 < 2 ^ bits) by (apply Z.pow_pos_nonneg; lia). destruct h as [|x h]; [simpl in Hl; lia|]. cbn [zstd_lost_rule]. unfold zstd_rule.
  assert (D : (zstd_hash (x :: h) + 1) mod 2 ^ bits = 0).
  { rewrite <- Zplus_mod_idemp_l, E. replace (2 ^ bits - 1 + 1) with (2 ^ bits) by ring. apply Z.mod_same. lia. }
  assert (Q : (zstd_hash ((x :: h) ++ c) - (zstd_hash (x :: h) + 1) * zstd_prime ^ Z.of_nat (length c)) mod 2 ^ bits = zstd_hash ((x :: h) ++ c) mod 2 ^ bits).
  { rewrite <- Zminus_mod_idemp_r, <- Zmult_mod_idemp_l, D. rewrite Z.mul_0_l, Zmod_0_l, Z.sub_0_r. reflexivity. }
  rewrite Q. split; [|intros [_ G]; exact G]. intros G. split; [|exact G]. rewrite app_length. lia.
Qed.

Lemma lost_wrong : forall bits h c, 0 <= bits -> (33 <= length h)%nat -> ~ zstd_rule bits h -> zstd_lost_rule bits h c -> ~ zstd_rule bits (h ++ c).
Proof.
  intros bits h c Hb Hl NR HL (_ & E). assert (Hp : 0 < 2 ^ bits) by (apply Z.pow_pos_nonneg; lia). apply NR. split; [exact Hl|]. destruct h as [|x h]; [simpl in Hl; lia|]. cbn [zstd_lost_rule] in HL.
  set (y := zstd_hash ((x :: h) ++ c)) in *. set (w := zstd_hash (x :: h)) in *. set (q := zstd_prime ^ Z.of_nat (length c)) in *.
  assert (D : (w + 1) mod 2 ^ bits = 0).
  { apply (odd_unit bits _ q Hb); [apply prime_pow_odd; lia|].
    replace ((w + 1) * q) with (y - (y - (w + 1) * q)) by ring. rewrite Zminus_mod, E, HL, Z.sub_diag. apply Zmod_0_l. }
  replace w with (w + 1 - 1) by ring. rewrite Zminus_mod, D. rewrite Zminus_mod_idemp_r. replace (0 - 1) with (2 ^ bits - 1 + (-1) * 2 ^ bits) by ring.
  rewrite Z.mod_add by lia. apply Z.mod_small. lia.
Qed.

(** ** Runs that go on *)
Lemma edges_fun : forall bits data sched e lo cs e1 lo1, zstd_edge_run bits data sched e lo cs e1 lo1 ->
  forall cs' e2 lo2, zstd_edge_run bits data sched e lo cs' e2 lo2 -> cs' = cs /\ e2 = e1 /\ lo2 = lo1.
Proof.
  intros bits data sched e lo cs e1 lo1 H. induction H as [e lo|g sched e lo hi cs e1 lo1 Eh N H IH|g sched e lo hi n cs e1 lo1 Eh F H IH]; intros cs' e2 lo2 H';
    inversion H' as [|? ? ? ? hi' ? ? ? Eh' N' K|? ? ? ? hi' n' ? ? ? Eh' F' K]; subst.
  - auto.
  - exact (IH _ _ _ K).
  - exfalso. exact (N _ F').
  - exfalso. exact (N' _ F).
  - destruct (IH _ _ _ K) as (-> & -> & ->). rewrite (fl_fun _ (ends_at_laws _) _ _ _ _ F' F). auto.
Qed.

Lemma edges_app : forall bits data s1 s2 e lo cs e2 lo2, zstd_edge_run bits data (s1 ++ s2) e lo cs e2 lo2 ->
  exists cs1 cs2 e1 lo1, cs = cs1 ++ cs2 /\ zstd_edge_run bits data s1 e lo cs1 e1 lo1 /\ zstd_edge_run bits data s2 e1 lo1 cs2 e2 lo2.
Proof.
  intros bits data s1 s2. induction s1 as [|g s1 IH]; intros e lo cs e2 lo2 H; cbn [app] in H.
  - exists [], cs, e, lo. split; [reflexivity|]. split; [constructor|exact H].
  - inversion H as [|? ? ? ? hi ? ? ? Eh N K|? ? ? ? hi n cs' ? ? Eh F K]; subst; apply IH in K; destruct K as (cs1 & cs2 & e1 & lo1 & -> & K1 & K2).
    + exists cs1, cs2, e1, lo1. split; [reflexivity|]. split; [|exact K2]. eapply edges_none; [reflexivity|exact N|exact K1].
    + exists ((e + n)%nat :: cs1), cs2, e1, lo1. split; [reflexivity|]. split; [|exact K2]. eapply edges_cut; [reflexivity|exact F|exact K1].
Qed.

(** The first cut after [e]. *)
Lemma edges_next : forall bits data sched e lo q cs e2 lo2, zstd_edge_run bits data sched e lo (q :: cs) e2 lo2 ->
  exists n, q = (e + n)%nat /\ ends_at (zstd_lost_rule bits) (firstn e data) (skipn e data) n.
Proof.
  intros bits data sched e lo q cs e2 lo2 H. remember (q :: cs) as l eqn:El. induction H as [e lo|g sched e lo hi cs' e1 lo1 Eh N H IH|g sched e lo hi n cs' e1 lo1 Eh F H IH].
  - discriminate.
  - exact (IH El).
  - inversion El; subst q cs'. exists n. split; [reflexivity|].
    replace (skipn e data) with (skipn e (firstn hi data) ++ skipn (Nat.max e hi) data); [now apply (fl_ext _ (ends_at_laws _))|].
    assert (Hn := proj1 F). rewrite skipn_length, firstn_length in Hn.
    rewrite <- (firstn_skipn hi data) at 3. rewrite skipn_app, firstn_length. f_equal. replace (e - _)%nat with 0%nat by lia.
    replace (Nat.max e hi) with hi by lia. reflexivity.
Qed.
Lemma edges_last : forall bits data sched e lo e2 lo2, zstd_edge_run bits data sched e lo [] e2 lo2 ->
  (forall n, ~ ends_at (zstd_lost_rule bits) (firstn e data) (skipn e (firstn lo data)) n) ->
  forall n, ~ ends_at (zstd_lost_rule bits) (firstn e data) (skipn e (firstn lo2 data)) n.
Proof.
  intros bits data sched e lo e2 lo2 H. remember [] as l eqn:El. induction H as [e lo|g sched e lo hi cs' e1 lo1 Eh N H IH|g sched e lo hi n cs' e1 lo1 Eh F H IH]; intros HN.
  - exact HN.
  - exact (IH El N).
  - discriminate.
Qed.

Lemma edges_33 : forall bits data sched e lo cs e2 lo2, zstd_edge_run bits data sched e lo cs e2 lo2 -> cs <> [] \/ (33 <= e)%nat -> (e = 0 \/ 33 <= e)%nat -> (33 <= e2)%nat.
Proof.
  intros bits data sched e lo cs e2 lo2 H. induction H as [e lo|g sched e lo hi cs' e1 lo1 Eh N H IH|g sched e lo hi n cs' e1 lo1 Eh F H IH]; intros A B.
  - destruct A as [A|A]; [contradiction|exact A].
  - exact (IH A B).
  - assert (33 <= hi)%nat; [|apply IH; auto]. destruct F as ((Hn & Hn2) & Hr & _). rewrite skipn_length, firstn_length in Hn2.
    destruct B as [->|B]; [|lia]. cbn [firstn skipn zstd_lost_rule] in Hr. destruct Hr as [Hr _]. rewrite !firstn_length in Hr. lia.
Qed.
