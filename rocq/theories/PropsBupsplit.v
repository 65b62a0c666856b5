(** * PropsBupsplit: C83, the comparison of RollSumIncr with the crate rollsum (tests/qc_bup.rs) holds for every input. *)

From Verif Require Import Base Api Spec Lists Contract CutFacts Words Ring Bup BupProofs Bupsplit Cases Range Builtin PropsBup PropsAgree.

(** ** The oracle *)

(** [b] after the bytes [t]: the sums themselves, not only modulo a power of two. *)
Definition bup_after (b : Bup) (t : list byte) : Prop :=
  b_s1 b = bup_s1 64 t /\ b_s2 b = bup_s2 64 t /\ length (b_window b) = 64%nat /\ ring_ok (b_window b) (b_wofs b) (padded 64 t).

Lemma bup_new_after : bup_after bup_new [].
Proof.
  split; [reflexivity|]. split; [reflexivity|]. cbn [bup_new b_window b_wofs]. split; [apply repeat_length|]. split; [rewrite repeat_length; lia|].
  cbn [skipn firstn]. rewrite app_nil_r. symmetry. apply padded_nil.
Qed.

Lemma bup_roll_after b t ch : bup_after b t -> bup_after (bup_roll b ch) (t ++ [ch]).
Proof.
  intros (E1 & E2 & L & R). destruct (padded 64 t) as [|o r] eqn:P; [apply ring_length in R; rewrite L in R; discriminate|].
  assert (S : bup_s1 64 (t ++ [ch]) = bup_s1 64 t + b2z ch - b2z o /\
              bup_s2 64 (t ++ [ch]) = bup_s2 64 t + bup_s1 64 (t ++ [ch]) - Z.of_nat 64 * (b2z o + 31)).
  { destruct (padded_head 64 t o r ltac:(lia) P) as [[G ->]|[G Hn]]; [now apply bup_slide_short|apply bup_slide_full; [exact G|apply Hn]]. }
  destruct S as [S1 S2]. destruct (ring_step _ _ _ _ ch R) as (o' & r' & win & Ev & Ei & Est & Lw & R'). injection Ev as <- <-.
  destruct R as [Ho _]. destruct (split_nth _ _ _ Ho) as (u & x & v & Ew & Lu).
  assert (Ed : nth (b_wofs b) (b_window b) x00 = o).
  { unfold index in Ei. destruct (nth_error (b_window b) (b_wofs b)) as [y|] eqn:N; [|discriminate]. injection Ei as ->. exact (nth_error_nth _ _ x00 N). }
  assert (Es : firstn (b_wofs b) (b_window b) ++ ch :: skipn (S (b_wofs b)) (b_window b) = win).
  { rewrite Ew, <- Lu in Est |- *. rewrite store_mid in Est. injection Est as <-. rewrite firstn_app, firstn_all, Nat.sub_diag, app_nil_r. f_equal. f_equal.
    rewrite skipn_app. rewrite (skipn_all2 u) by lia. replace (S (length u) - length u)%nat with 1%nat by lia. reflexivity. }
  unfold bup_roll. rewrite Ed, Es. unfold bup_after. cbn [b_s1 b_s2 b_window b_wofs]. rewrite S2, S1, E1, E2. split; [reflexivity|]. split; [lia|]. split; [lia|].
  rewrite (padded_snoc 64 t ch o r ltac:(lia) P). rewrite L in R', Ho. rewrite (next_mod _ _ Ho). exact R'.
Qed.

Lemma bup_sum_after b t : bup_after b t -> bup_sum b = bup_digest 64 t.
Proof.
  intros (E1 & E2 & _). unfold bup_sum. rewrite E1, E2, <- digest_spec. unfold rollsum_digest, rs_of, wrap32, two32. cbn [rs_s1 rs_s2]. f_equal.
  - rewrite !Z.shiftl_mul_pow2 by lia. now rewrite Z.mul_mod_idemp_l by lia.
  - change 0xffff with (2 ^ 16 - 1). rewrite !land_mask by lia. symmetry. now apply mod_mod_pow2.
Qed.
Lemma bup_edge_after b t : bup_after b t -> bup_edge b = (bup_s2 64 t mod 8192 =? 8191).
Proof. intros A. unfold bup_edge. rewrite (bup_sum_after b t A), <- at_split_spec, <- digest_spec. reflexivity. Qed.

Lemma bup_find_after (resets : bool) d : forall b t i, bup_after b t ->
  (exists n b', (1 <= n <= length d)%nat /\ bup_rule 64 (t ++ firstn n d) /\ (forall m, (1 <= m < n)%nat -> ~ bup_rule 64 (t ++ firstn m d)) /\
     bup_find resets b i d = (b', Some ((i + n)%nat, bup_digest 64 (t ++ firstn n d))) /\ bup_after b' (if resets then [] else t ++ firstn n d)) \/
  (exists b', (forall n, (1 <= n <= length d)%nat -> ~ bup_rule 64 (t ++ firstn n d)) /\ bup_find resets b i d = (b', None) /\ bup_after b' (t ++ d)).
Proof.
  induction d as [|x d IH]; intros b t i A.
  - right. exists b. cbn [length bup_find]. rewrite app_nil_r. split; [lia|]. now split.
  - cbn [bup_find length]. assert (A' := bup_roll_after b t x A). rewrite (bup_edge_after _ _ A').
    assert (F : forall n, t ++ firstn (S n) (x :: d) = (t ++ [x]) ++ firstn n d) by (intros n; cbn [firstn]; now rewrite <- app_assoc).
    destruct (Z.eqb_spec (bup_s2 64 (t ++ [x]) mod 8192) 8191) as [G|G].
    + left. exists 1%nat, (if resets then bup_new else bup_roll b x). split; [lia|]. rewrite (F 0%nat). cbn [firstn]. rewrite app_nil_r. split; [exact G|]. split; [lia|].
      split; [now rewrite (bup_sum_after _ _ A')|]. destruct resets; [apply bup_new_after|exact A'].
    + destruct (IH (bup_roll b x) (t ++ [x]) (i + 1)%nat A') as [(n & b' & Hn & R & N & E & A2)|(b' & N & E & A2)].
      * left. exists (S n), b'. rewrite F. split; [lia|]. split; [exact R|]. split.
        { intros [|[|m]] Hm; [lia| |]; rewrite F; [cbn [firstn]; rewrite app_nil_r; exact G|apply N; lia]. }
        rewrite E. split; [|exact A2]. now replace (i + 1 + n)%nat with (i + S n)%nat by lia.
      * right. exists b'. rewrite E, <- app_assoc in *. split; [|now split].
        intros [|[|n]] Hn; [lia| |]; rewrite F; [cbn [firstn]; rewrite app_nil_r; exact G|apply N; lia].
Qed.

(** The oracle's sums are exactly those of bup, and no step of its arithmetic leaves [0 .. 2^31), so it does not matter in which words they are kept. *)
Lemma byte_sum_small l : 0 <= byte_sum l <= 255 * Z.of_nat (length l).
Proof. induction l as [|x l IH]; cbn [byte_sum length]; [lia|]. assert (B := b2z_range x). lia. Qed.
Lemma aged_sum_small l : forall a, 0 <= aged_sum a l <= 255 * Z.of_nat (length l) * (Z.of_nat a + Z.of_nat (length l)).
Proof. induction l as [|x l IH]; intros a; cbn [aged_sum length]; [lia|]. assert (B := b2z_range x). specialize (IH (S a)). nia. Qed.
Lemma sums_small t : 0 <= bup_s1 64 t - 31 * 64 <= 255 * 64 /\ 0 <= bup_s2 64 t - 31 * 64 * 63 <= 255 * 64 * 64.
Proof.
  unfold bup_s1, bup_s2. set (l := firstn 64 (rev t)). assert (L : (length l <= 64)%nat) by (unfold l; rewrite firstn_length; lia).
  assert (A := byte_sum_small l). assert (B := aged_sum_small l 0). nia.
Qed.

Theorem C83_words : forall t ch, let b := fold_left bup_roll t bup_new in let drop := nth (b_wofs b) (b_window b) x00 in
  b_s1 b = bup_s1 64 t /\ b_s2 b = bup_s2 64 t /\ bup_sum b = bup_digest 64 t /\
  0 <= b_s1 b + b2z ch < 2 ^ 31 /\ 0 <= b_s1 b + b2z ch - b2z drop < 2 ^ 31 /\
  0 <= b_s2 b + b_s1 (bup_roll b ch) < 2 ^ 31 /\ 0 <= b_s2 (bup_roll b ch) < 2 ^ 31.
Proof.
  intros t ch. assert (A : forall t b0 t0, bup_after b0 t0 -> bup_after (fold_left bup_roll t b0) (t0 ++ t)).
  { clear. induction t as [|x t IH]; intros b0 t0 A; [now rewrite app_nil_r|]. cbn [fold_left]. replace (t0 ++ x :: t) with ((t0 ++ [x]) ++ t) by now rewrite <- app_assoc.
    apply IH. now apply bup_roll_after. }
  specialize (A t bup_new [] bup_new_after). cbn [app] in A. cbv zeta. set (b := fold_left bup_roll t bup_new) in *. assert (A' := bup_roll_after b t ch A).
  assert (E := bup_sum_after b t A). destruct A as (E1 & E2 & _), A' as (F1 & F2 & _). assert (S := sums_small t). assert (S' := sums_small (t ++ [ch])). assert (B := b2z_range ch).
  split; [exact E1|]. split; [exact E2|]. split; [exact E|]. split; [lia|]. split; [change (0 <= b_s1 (bup_roll b ch) < 2 ^ 31); lia|]. split; lia.
Qed.
Print Assumptions C83_words.

(** ** The tests *)

Lemma default_window : rollsum_default = (2 ^ 6)%nat. Proof. reflexivity. Qed.
Lemma new_rel : bup_incr_rel 64 (rollsum_incr_new rollsum_default) []. Proof. rewrite default_window. exact (bup_new_rel 6). Qed.
Lemma roll_rel s t b : bup_incr_rel 64 s t -> exists s', roll_byte s b = Ok s' /\ bup_incr_rel 64 s' (t ++ [b]). Proof. exact (roll_byte_spec 6 s t b). Qed.

(** From equal histories [push] and the oracle answer alike. *)
Lemma push_cases s h x : bup_incr_rel 64 s h ->
  (exists n s', ends_at (per_stream (bup_rule 64)) h x n /\ rollsum_push s x = Ok (s', Some n) /\ bup_incr_rel 64 s' (h ++ firstn n x)) \/
  (exists s', (forall n, ~ ends_at (per_stream (bup_rule 64)) h x n) /\ rollsum_push s x = Ok (s', None) /\ bup_incr_rel 64 s' (h ++ x)).
Proof.
  intros R. destruct (bup_push_ok 6 s h [] x) as [(n & k & s' & F & E & P & R')|(s' & N & P & R')].
  - now rewrite app_nil_r.
  - intros n (G & _). cbn [length] in G. lia.
  - exact I.
  - left. exists n, s'. cbn [length app] in *. replace k with n in P by lia. rewrite app_nil_r in R'. split; [exact F|]. split; [exact P|exact R'].
  - right. exists s'. cbn [app] in *. split; [exact N|]. split; [exact P|exact R'].
Qed.
Lemma find_cases resets b h x (t : list byte) : bup_after b t -> let rule : list byte -> list byte -> Prop := fun _ c => bup_rule 64 (t ++ c) in
  (exists n b' z, ends_at rule h x n /\ bup_find_chunk_edge resets b x = (b', Some (n, z)) /\ bup_after b' (if resets then [] else t ++ firstn n x)) \/
  (exists b', (forall n, ~ ends_at rule h x n) /\ bup_find_chunk_edge resets b x = (b', None)).
Proof.
  intros A rule. destruct (bup_find_after resets x b t 0 A) as [(n & b' & Hn & R & N & E & A')|(b' & N & E & A')].
  - left. exists n, b', (bup_digest 64 (t ++ firstn n x)). split; [split; [exact Hn|]; split; [exact R|exact N]|]. now split.
  - right. exists b'. split; [|exact E]. intros n (G & R & _). exact (N n G R).
Qed.
Lemma ends_unique r h d n m : ends_at r h d n -> ends_at r h d m -> n = m.
Proof. intros (A & B & C) (A' & B' & C'). destruct (Nat.lt_trichotomy n m) as [X|[X|X]]; [exfalso; apply (C' n)|exact X|exfalso; apply (C m)]; auto; lia. Qed.

Theorem C83_simple_eq : forall resets xs, qc_simple_eq resets xs = Ok true.
Proof.
  intros resets xs. unfold qc_simple_eq. destruct (push_cases _ [] xs new_rel) as [(n & s' & F & -> & _)|(s' & N & -> & _)];
  (destruct (find_cases resets _ [] xs [] bup_new_after) as [(m & b' & z & G & -> & _)|(b' & M & ->)]); cbn [bind snd]; f_equal.
  - unfold same_answer. cbn [option_map fst]. rewrite (ends_unique _ _ _ _ _ F G). apply Nat.eqb_refl.
  - destruct (M n F).
  - destruct (N m G).
Qed.
Print Assumptions C83_simple_eq.
Theorem C83_chk_a : forall resets xs, qc_chk_a resets xs = Ok tt.
Proof. intros resets xs. unfold qc_chk_a. now rewrite C83_simple_eq. Qed.
Print Assumptions C83_chk_a.
Theorem C83_chk_b : forall xs, qc_chk_b xs = Ok tt.
Proof.
  intros xs. unfold qc_chk_b. assert (R := new_rel). assert (A := bup_new_after). revert R A. generalize (rollsum_incr_new rollsum_default) bup_new (@nil byte).
  induction xs as [|x xs IH]; intros s b t R A; [reflexivity|]. cbn [qc_chk_b_loop]. destruct (roll_rel s t x R) as (s' & -> & R'). cbn [bind].
  assert (A' := bup_roll_after b t x A). unfold rollsum_incr_digest, rollsum_incr_at_split. destruct R' as [E R']. rewrite E, digest_spec, at_split_spec, (bup_sum_after _ _ A'), (bup_edge_after _ _ A').
  rewrite Z.eqb_refl, Bool.eqb_reflx. cbn [rust_assert bind]. apply (IH _ _ (t ++ [x])); [now split|exact A'].
Qed.
Print Assumptions C83_chk_b.

(** One call of each to the next cut; then both go on behind it. *)
Definition oracle_rule (resets : bool) : list byte -> list byte -> Prop := if resets then per_chunk (bup_rule 64) else per_stream (bup_rule 64).
Lemma iter_cuts (resets : bool) : forall fuel s b h x cs1 cs2, bup_incr_rel 64 s h -> bup_after b (if resets then @nil byte else h) -> (length x < fuel)%nat ->
  cuts_of (ends_at (per_stream (bup_rule 64))) h x cs1 -> cuts_of (ends_at (oracle_rule resets)) h x cs2 ->
  exists ok, qc_iter_loop resets fuel s b x = Ok ok /\ (ok = true <-> cs1 = cs2).
Proof.
  induction fuel as [|fuel IH]; intros s b h x cs1 cs2 R A Hf C1 C2; [lia|]. cbn [qc_iter_loop].
  assert (Q : forall n, ends_at (oracle_rule resets) h x n <-> ends_at (fun _ c => bup_rule 64 ((if resets then @nil byte else h) ++ c)) h x n) by (intros n; destruct resets; reflexivity).
  destruct (push_cases s h x R) as [(n & s' & F & -> & R')|(s' & N & -> & _)];
  (destruct (find_cases resets b h x _ A) as [(m & b' & z & G & -> & A')|(b' & M & ->)]); cbn [bind]; unfold same_answer; cbn [option_map fst negb].
  - apply Q in G. inversion C1 as [? ? N1|? ? n' cs1' F1 C1']; subst; [destruct (N1 n F)|]. inversion C2 as [? ? N2|? ? m' cs2' G1 C2']; subst; [destruct (N2 m G)|].
    rewrite (ends_unique _ _ _ _ _ F1 F) in *. rewrite (ends_unique _ _ _ _ _ G1 G) in *. destruct (Nat.eqb_spec n m) as [<-|D]; cbn [negb].
    + unfold split_at. assert (Hn := proj1 F). replace (Nat.leb n (length x)) with true by (symmetry; apply Nat.leb_le; lia). cbn [bind].
      assert (T : cs1' = cs2' <-> (length h + n)%nat :: cs1' = (length h + n)%nat :: cs2') by (split; congruence).
      destruct (skipn n x) as [|y x'] eqn:X.
      * exists true. split; [reflexivity|]. split; [|reflexivity]. intros _. f_equal. inversion C1' as [|? ? k ? K]; [|destruct K as (K & _); cbn [length] in K; lia].
        inversion C2' as [|? ? k ? K]; [reflexivity|destruct K as (K & _); cbn [length] in K; lia].
      * destruct (IH s' b' (h ++ firstn n x) (y :: x') cs1' cs2' R') as (ok & -> & K); [destruct resets; exact A'| |exact C1'|exact C2'|].
        { rewrite <- X, skipn_length. lia. }
        exists ok. split; [reflexivity|]. now rewrite K.
    + exists false. split; [reflexivity|]. split; [discriminate|]. intros E. injection E as E _. lia.
  - inversion C1 as [? ? N1|? ? n' cs1' F1 C1']; subst; [destruct (N1 n F)|]. inversion C2 as [? ? N2|? ? m' cs2' G1 C2']; subst; [|destruct (M m'); now apply Q].
    exists false. split; [reflexivity|]. split; discriminate.
  - apply Q in G. inversion C2 as [? ? N2|? ? m' cs2' G1 C2']; subst; [destruct (N2 m G)|]. inversion C1 as [? ? N1|? ? n' cs1' F1 C1']; subst; [|destruct (N n' F1)].
    exists false. split; [reflexivity|]. split; discriminate.
  - exists true. split; [reflexivity|]. split; [intros _|reflexivity].
    inversion C1 as [? ? N1|? ? n' cs1' F1 C1']; subst; [|destruct (N n' F1)]. inversion C2 as [? ? N2|? ? m' cs2' G1 C2']; subst; [reflexivity|]. destruct (M m'); now apply Q.
Qed.

(** If the oracle goes on with its sums after an edge, as [push] does, [iter_eq] passes for every input. *)
Theorem C83_iter_eq : forall xs fuel, (length xs < fuel)%nat -> qc_iter_eq false fuel xs = Ok true.
Proof.
  intros xs fuel Hf. destruct (bup_incr_conforms 6 xs I) as (cs & C & _).
  destruct (iter_cuts false fuel _ _ [] xs cs cs new_rel bup_new_after Hf C C) as (ok & E & K). unfold qc_iter_eq. rewrite E. f_equal. now apply K.
Qed.
Print Assumptions C83_iter_eq.

(** If it starts over, [iter_eq] compares with the cuts of [find_chunk_edge] of the crate: it passes exactly for the inputs that the two APIs of RollSum cut alike (C32). *)
Theorem C83_iter_eq_reset_partial : forall xs fuel sched1 sched2 sh r1 r2, (length xs < fuel)%nat ->
  run_incr 0 (rollsum_incr rollsum_default) xs (sched1 ++ drain xs) = Ok r1 -> run_chunk sh (rollsum_chunk rollsum_default) xs (sched2 ++ drain xs) = Ok r2 ->
  exists ok, qc_iter_eq true fuel xs = Ok ok /\ (ok = true <-> r_cuts r1 = r_cuts r2).
Proof.
  intros xs fuel sched1 sched2 sh r1 r2 Hf E1 E2. destruct (bup_incr_conforms 6 xs I) as (cs1 & C1 & P1). destruct (bup_chunk_conforms 64 sh xs I) as (cs2 & C2 & P2).
  destruct (P1 sched1) as (_ & r1' & F1 & <- & _). destruct (P2 sched2) as (_ & r2' & F2 & <- & _). rewrite default_window in E1, E2.
  change (rollsum_chunk 64) with (rollsum_chunk (2 ^ 6)) in F2. rewrite E1 in F1. rewrite E2 in F2. injection F1 as <-. injection F2 as <-.
  exact (iter_cuts true fuel _ _ [] xs _ _ new_rel bup_new_after Hf C1 C2).
Qed.
Print Assumptions C83_iter_eq_reset_partial.

(** Which need not be all: two cuts of [push] 32 bytes apart. *)
Definition close_cuts : list byte := xcf :: repeat x00 16 ++ x31 :: repeat x00 41.
Theorem C83_iter_eq_reset_refuted : exists xs, forall fuel, (length xs < fuel)%nat -> qc_iter_eq true fuel xs = Ok false.
Proof.
  exists close_cuts. intros fuel Hf.
  destruct (cuts_seen_inv _ (run_incr 0 (rollsum_incr rollsum_default) close_cuts ([] ++ drain close_cuts)) [27; 59]%nat ltac:(vm_compute; reflexivity)) as (r1 & E1 & H1).
  destruct (cuts_seen_inv _ (run_chunk true (rollsum_chunk rollsum_default) close_cuts ([] ++ drain close_cuts)) [27]%nat ltac:(vm_compute; reflexivity)) as (r2 & E2 & H2).
  destruct (C83_iter_eq_reset_partial close_cuts fuel [] [] true r1 r2 Hf E1 E2) as (ok & -> & K). rewrite H1, H2 in K. destruct ok; [|reflexivity]. destruct K as [K _]. now specialize (K eq_refl).
Qed.
Print Assumptions C83_iter_eq_reset_refuted.

(** ** The tests in src/bup.rs *)

Lemma same_digest s b t : bup_incr_rel 64 s t -> bup_after b t -> rust_assert (rollsum_incr_digest s =? bup_sum b) = Ok tt.
Proof. intros [E _] A. unfold rollsum_incr_digest. rewrite E, digest_spec, (bup_sum_after _ _ A), Z.eqb_refl. reflexivity. Qed.
Lemma compare_rollsum_loop_ok d : forall s b t, bup_incr_rel 64 s t -> bup_after b t ->
  exists s' b', compare_rollsum_loop s b d = Ok (s', b') /\ bup_incr_rel 64 s' (t ++ d) /\ bup_after b' (t ++ d).
Proof.
  induction d as [|x d IH]; intros s b t R A; cbn [compare_rollsum_loop]; [exists s, b; rewrite app_nil_r; auto|].
  destruct (roll_rel s t x R) as (s' & -> & R'). cbn [bind]. assert (A' := bup_roll_after b t x A). rewrite (same_digest _ _ _ R' A'). cbn [bind].
  destruct (IH _ _ _ R' A') as (s'' & b'' & E & R'' & A''). rewrite <- app_assoc in R'', A''. now exists s'', b''.
Qed.
Lemma fold_roll_after d : forall b t, bup_after b t -> bup_after (fold_left bup_roll d b) (t ++ d).
Proof.
  induction d as [|x d IH]; intros b t A; cbn [fold_left]; [now rewrite app_nil_r|]. assert (A' := IH _ _ (bup_roll_after b t x A)). now rewrite <- app_assoc in A'.
Qed.
Theorem C83_compare_rollsum : forall b, compare_rollsum b = Ok tt.
Proof.
  intros d. unfold compare_rollsum. cbv zeta. assert (R := new_rel). assert (A := bup_new_after). revert R A. generalize (rollsum_incr_new rollsum_default) bup_new. intros s b R A.
  rewrite (same_digest _ _ _ R A). cbn [bind]. destruct (roll_rel _ _ x04 R) as (s1 & -> & R1). cbn [bind]. assert (A1 := bup_roll_after _ _ x04 A).
  rewrite (same_digest _ _ _ R1 A1). cbn [bind]. destruct (roll_rel _ _ x12 R1) as (s2 & -> & R2). cbn [bind]. assert (A2 := bup_roll_after _ _ x12 A1).
  rewrite (same_digest _ _ _ R2 A2). cbn [bind]. destruct (compare_rollsum_loop_ok d _ _ _ R2 A2) as (s3 & b3 & -> & R3 & A3). cbn [bind].
  destruct (roll_bytes_rel 6 d _ _ R3) as (s4 & -> & R4). cbn [bind]. exact (same_digest _ _ _ R4 (fold_roll_after d _ _ A3)).
Qed.
Print Assumptions C83_compare_rollsum.

(** [compare_bup] makes one more call, on what is left when nothing is left. *)
Lemma compare_bup_is resets : forall fuel s b x, compare_bup_loop resets (S fuel) s b x = match qc_iter_loop resets fuel s b x with Ok true => Ok tt | Ok false => Panic | Panic => Panic | Diverge => compare_bup_loop resets (S fuel) s b x end.
Proof.
  induction fuel as [|fuel IH]; intros s b x; [reflexivity|]. cbn [qc_iter_loop]. remember (S fuel) as f eqn:Hf. cbn [compare_bup_loop].
  destruct (rollsum_push s x) as [[s' v1]| |]; cbn [bind]; [|reflexivity|reflexivity]. destruct (bup_find_chunk_edge resets b x) as [b' v2].
  destruct (same_answer v1 v2); cbn [negb rust_assert bind]; [|reflexivity]. destruct v1 as [k|]; [|reflexivity].
  destruct (split_at x k) as [[p x']| |]; cbn [bind]; [|reflexivity|reflexivity]. subst f.
  destruct x' as [|y x']; [reflexivity|apply IH].
Qed.
Theorem C83_compare_bup : forall xs fuel, (length xs < fuel)%nat -> compare_bup false (S fuel) xs = Ok tt.
Proof.
  intros xs fuel Hf. unfold compare_bup. rewrite compare_bup_is. assert (E := C83_iter_eq xs fuel Hf). unfold qc_iter_eq in E. now rewrite E.
Qed.
Print Assumptions C83_compare_bup.
Theorem C83_compare_bup_reset_partial : forall xs fuel, (length xs < fuel)%nat ->
  compare_bup true (S fuel) xs = Ok tt /\ qc_iter_eq true fuel xs = Ok true \/ compare_bup true (S fuel) xs = Panic /\ qc_iter_eq true fuel xs = Ok false.
Proof.
  intros xs fuel Hf. destruct (bup_incr_conforms 6 xs I) as (cs1 & C1 & _). destruct (bup_chunk_conforms 64 true xs I) as (cs2 & C2 & _).
  destruct (iter_cuts true fuel _ _ [] xs _ _ new_rel bup_new_after Hf C1 C2) as (ok & E & _). unfold compare_bup, qc_iter_eq. rewrite compare_bup_is, E. destruct ok; auto.
Qed.
Print Assumptions C83_compare_bup_reset_partial.

(** Not the data of a test, but data on which the tests do something: a cut at 27, one at 59, and the digest after the first 27 bytes. *)
Example C83_case : qc_simple_eq true close_cuts = Ok true /\ qc_iter_eq false 60 close_cuts = Ok true /\ qc_iter_eq true 60 close_cuts = Ok false /\
  snd (bup_find_chunk_edge true bup_new close_cuts) = Some (27%nat, bup_digest 64 (firstn 27 close_cuts)) /\ bup_digest 64 (firstn 27 close_cuts) mod 8192 = 8191 /\
  bup_sum (bup_roll bup_new x03) = 130279491.
Proof. repeat apply conj; vm_compute; reflexivity. Qed.
(** The second chunk of [close_cuts] is there only if the sums go on; [compare_bup] then fails. *)
Example C83_case_compare : compare_rollsum close_cuts = Ok tt /\ compare_bup false 60 close_cuts = Ok tt /\ compare_bup true 60 close_cuts = Panic.
Proof. vm_compute. auto. Qed.
