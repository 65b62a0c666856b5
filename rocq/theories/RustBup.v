(** * RustBup: the text of src/bup.rs computes what the model in Bup.v computes. *)

From Coq Require Import String ZifyBool ZifyNat.
From Verif Require Import Base Api Lists Bup Rust RustText RustSim.
Open Scope list_scope.
Open Scope Z_scope.

Definition enc_RollSum (w : nat) : value := VStruct "RollSum" [("window_len"%string, vsize w)].
Definition enc_RsState (s : RollSumState) : value :=
  VStruct "RollSumState" [("s1"%string, VWrap U32 (rs_s1 s)); ("s2"%string, VWrap U32 (rs_s2 s))].
Definition enc_RsSearch (s : RollSumSearchState) : value :=
  VStruct "RollSumSearchState" [("state"%string, enc_RsState (rss_state s)); ("offset"%string, vsize (rss_offset s))].
Definition enc_RsIncr (s : RollSumIncr) : value :=
  VStruct "RollSumIncr" [("state"%string, enc_RsState (rsi_state s)); ("wofs"%string, VWrap Usize (Z.of_nat (rsi_wofs s)));
                         ("window"%string, vbytes (rsi_window s))].

Ltac reduce_hook ::=
  cbn beta iota zeta delta
    [enc_RollSum enc_RsState enc_RsSearch enc_RsIncr type_of get_field set_field assoc assoc_set String.eqb Ascii.eqb
     Bool.eqb obind rs_s1 rs_s2 rss_state rss_offset rsi_state rsi_wofs rsi_window].

Lemma testbit_of_nat a n : 0 <= n -> Z.testbit (Z.of_nat a) n = Nat.testbit a (Z.to_nat n).
Proof.
  intros Hn. rewrite Z.testbit_eqb, Nat.testbit_eqb by assumption.
  replace (2 ^ n) with (Z.of_nat (2 ^ Z.to_nat n)) by (rewrite Nat2Z.inj_pow, Z2Nat.id by lia; reflexivity).
  rewrite <- Nat2Z.inj_div. change 2 with (Z.of_nat 2) at 1. rewrite <- Nat2Z.inj_mod. lia.
Qed.

Lemma land_of_nat a b : Z.land (Z.of_nat a) (Z.of_nat b) = Z.of_nat (Nat.land a b).
Proof.
  apply Z.bits_inj'. intros n Hn. rewrite Z.land_spec, !testbit_of_nat, Nat.land_spec by assumption. reflexivity.
Qed.

Section Crate.
Variable u : program.

(** ** Construction *)

Lemma src_rollsum_with_window n w : (20 <= n)%nat ->
  call (crate u) n "RollSum::with_window" [vsize w] = Done ([vsize w], enc_RollSum (rollsum_with_window w)).
Proof. start. enter. reflexivity. Qed.

Lemma src_rollsum_default n : (60 <= n)%nat -> call (crate u) n "RollSum::default" [] = Done ([], enc_RollSum rollsum_default).
Proof. start. run. reflexivity. Qed.

Lemma src_rs_state_from n w : (40 <= n)%nat ->
  call (crate u) n "RollSumState::from<&RollSum>" [enc_RollSum w] = Done ([enc_RollSum w], enc_RsState (rollsum_state_new w)).
Proof. start. run. reflexivity. Qed.

Lemma src_rs_search_from n w : (60 <= n)%nat ->
  call (crate u) n "RollSumSearchState::from<&RollSum>" [enc_RollSum w] = Done ([enc_RollSum w], enc_RsSearch (rollsum_search_new w)).
Proof. start. enter. rewrite src_rs_state_from by lia. reduce. reflexivity. Qed.

Lemma src_rollsum_to_search_state n w : (80 <= n)%nat ->
  call (crate u) n "RollSum::to_search_state" [enc_RollSum w] = Done ([enc_RollSum w], enc_RsSearch (to_search_state (rollsum_chunk w))).
Proof. start. enter. rewrite src_rs_search_from by lia. reduce. reflexivity. Qed.

Lemma map_repeat {A B} (f : A -> B) a n : map f (repeat a n) = repeat (f a) n.
Proof. induction n; simpl; congruence. Qed.

Lemma src_rs_incr_from n w : (60 <= n)%nat ->
  call (crate u) n "RollSumIncr::from<&RollSum>" [enc_RollSum w] = Done ([enc_RollSum w], enc_RsIncr (rollsum_incr_new w)).
Proof.
  start. enter. rewrite src_rs_state_from by lia. reduce. unfold enc_RsIncr, rollsum_incr_new, vbytes.
  cbn [rsi_state rsi_wofs rsi_window]. rewrite map_repeat, Nat2Z.id. reflexivity.
Qed.

Lemma src_rollsum_to_chunk_incr n w : (80 <= n)%nat ->
  call (crate u) n "RollSum::to_chunk_incr" [enc_RollSum w] = Done ([enc_RollSum w], enc_RsIncr (incr_new (rollsum_incr w))).
Proof. start. enter. rewrite src_rs_incr_from by lia. reduce. reflexivity. Qed.

Lemma src_rs_incr_default n : (80 <= n)%nat ->
  call (crate u) n "RollSumIncr::default" [] = Done ([], enc_RsIncr (rollsum_incr_new rollsum_default)).
Proof. start. enter. rewrite src_rollsum_default by lia. reduce. rewrite src_rs_incr_from by lia. reduce. reflexivity. Qed.

Lemma src_rs_state_reset n w s : (60 <= n)%nat ->
  call (crate u) n "RollSumState::reset" [enc_RsState s; enc_RollSum w] = Done ([enc_RsState (rollsum_state_new w); enc_RollSum w], VUnit).
Proof. start. enter. rewrite src_rs_state_from by lia. reduce. reflexivity. Qed.

Lemma src_rs_search_reset n w s : (80 <= n)%nat ->
  call (crate u) n "RollSumSearchState::reset" [enc_RsSearch s; enc_RollSum w] =
  Done ([enc_RsSearch (rollsum_search_reset w s); enc_RollSum w], VUnit).
Proof. start. enter. rewrite src_rs_state_reset by lia. reduce. reflexivity. Qed.

(** ** Rolling *)

Lemma src_rs_add n w d a s : (40 <= n)%nat ->
  call (crate u) n "RollSumState::add" [enc_RsState s; vsize w; vbyte d; vbyte a] =
  Done ([enc_RsState (rollsum_add w d a s); vsize w; vbyte d; vbyte a], VUnit).
Proof. start. run. rewrite !byte_mod by lia. reflexivity. Qed.

Lemma src_rs_digest n s : (20 <= n)%nat ->
  call (crate u) n "RollSumState::digest" [enc_RsState s] = Done ([enc_RsState s], VInt U32 (rollsum_digest s)).
Proof. start. run. reflexivity. Qed.

Lemma src_rs_at_split n s : (40 <= n)%nat ->
  call (crate u) n "RollSumState::at_split" [enc_RsState s] = Done ([enc_RsState s], VBool (rollsum_at_split s)).
Proof. start. run. reflexivity. Qed.

Lemma src_rs_incr_digest n s : (40 <= n)%nat ->
  call (crate u) n "RollSumIncr::digest" [enc_RsIncr s] = Done ([enc_RsIncr s], VInt U32 (rollsum_incr_digest s)).
Proof. start. enter. rewrite src_rs_digest by lia. reduce. reflexivity. Qed.

Lemma src_rs_incr_at_split n s : (60 <= n)%nat ->
  call (crate u) n "RollSumIncr::at_split" [enc_RsIncr s] = Done ([enc_RsIncr s], VBool (rollsum_incr_at_split s)).
Proof. start. enter. rewrite src_rs_at_split by lia. reduce. reflexivity. Qed.

Lemma src_rs_incr_add n d a s : (60 <= n)%nat ->
  call (crate u) n "RollSumIncr::add" [enc_RsIncr s; vbyte d; vbyte a] =
  Done ([enc_RsIncr {| rsi_state := rollsum_add (length (rsi_window s)) d a (rsi_state s); rsi_wofs := rsi_wofs s; rsi_window := rsi_window s |};
         vbyte d; vbyte a], VUnit).
Proof.
  start. enter. rewrite map_length. change (VInt Usize (Z.of_nat ?x)) with (vsize x).
  change (VInt U8 (b2z d)) with (vbyte d). change (VInt U8 (b2z a)) with (vbyte a).
  rewrite src_rs_add by lia. reduce. reflexivity.
Qed.

Lemma src_roll_byte n s ch : (80 <= n)%nat -> Z.of_nat (length (rsi_window s)) < 2 ^ 64 ->
  call (crate u) n "RollSumIncr::roll_byte" [enc_RsIncr s; vbyte ch] =
  as_out (fun s' => ([enc_RsIncr s'; vbyte ch], VUnit)) (roll_byte s ch).
Proof.
  intros Hn Hw. start. enter. unfold roll_byte, index. rewrite (nth_vbyte _ _ (rsi_wofs s)) by reflexivity.
  destruct (nth_error (rsi_window s) (rsi_wofs s)) as [b|] eqn:Eb; unfold option_map, bind; reduce; [|reflexivity].
  pose proof (nth_error_Some (rsi_window s) (rsi_wofs s)) as Hlt. rewrite Eb in Hlt.
  assert (Hlt' : (rsi_wofs s < length (rsi_window s))%nat) by (apply Hlt; discriminate). clear Hlt.
  change (VInt U8 (b2z b)) with (vbyte b). change (VInt U8 (b2z ch)) with (vbyte ch).
  rewrite src_rs_incr_add by lia. reduce.
  rewrite map_length, Nat2Z.id. replace (Z.of_nat (rsi_wofs s) <? Z.of_nat (length (rsi_window s))) with true by lia.
  reduce. unfold store. replace (rsi_wofs s <? length (rsi_window s))%nat with true by (symmetry; apply Nat.ltb_lt; assumption).
  change (VInt U8 (b2z ch)) with (vbyte ch). rewrite set_nth_map, map_length.
  unfold sub_usize. rewrite length_set_nth.
  replace (1 <=? length (rsi_window s))%nat with true by (symmetry; apply Nat.leb_le; lia).
  rewrite (small_mod (Z.of_nat (rsi_wofs s) + 1)) by lia.
  replace (0 <=? Z.of_nat (length (rsi_window s)) - 1) with true by lia.
  replace (Z.of_nat (rsi_wofs s) + 1) with (Z.of_nat (rsi_wofs s + 1)) by lia.
  replace (Z.of_nat (length (rsi_window s)) - 1) with (Z.of_nat (length (rsi_window s) - 1)) by lia.
  cases. all: try (rewrite land_of_nat; reflexivity).
Qed.

Lemma roll_byte_window s ch s' : roll_byte s ch = Ok s' -> length (rsi_window s') = length (rsi_window s).
Proof.
  unfold roll_byte, store, sub_usize. destruct (index _ _); [|discriminate..]. cbn [bind].
  destruct (_ <? _)%nat; [|discriminate]. cbn [bind]. destruct (_ <=? _)%nat; [|discriminate]. cbn [bind].
  intros [= <-]. apply length_set_nth.
Qed.

(** The body of the loop of [RollSumIncr::roll]. *)
Definition roll_body (s : RollSumIncr) (_ : nat) (b : byte) : res (ctl RollSumIncr nat) :=
  s' <- roll_byte s b ;; Ok (Next s').

Lemma src_roll n s data : (100 <= n)%nat -> Z.of_nat (length (rsi_window s)) < 2 ^ 64 ->
  call (crate u) n "RollSumIncr::roll" [enc_RsIncr s; vbytes data] =
  as_out (fun s' => ([enc_RsIncr s'; vbytes data], VUnit)) (roll_bytes s data).
Proof.
  intros Hn Hw. start. enter.
  sim_enum (fun s' : RollSumIncr => Z.of_nat (length (rsi_window s')) < 2 ^ 64)
    (fun s' => [("self"%string, enc_RsIncr s'); ("data"%string, vbytes data)])
    (fun _ : nat => VUnit) vbyte roll_body data s.
  3: lia. 2: exact Hw.
  { intros s' i x Hw' Hi. unfold lock. reduce. change (VInt U8 (b2z x)) with (vbyte x).
    rewrite src_roll_byte by (assumption || lia).
    unfold roll_body.
    destruct (roll_byte s' x) as [s1| |] eqn:E; unfold as_out, bind, lift_ctl; reduce;
      (split; [reflexivity|intros s2 [= <-]]).
    rewrite (roll_byte_window _ _ _ E). assumption. }
  assert (H : forall i l s0, for_enum roll_body i l s0 =
                    s1 <- roll_bytes s0 l ;; Ok (Next s1)).
  { intros i l. revert i. induction l as [|b l IH]; intros i s0; [reflexivity|]. cbn [for_enum roll_bytes]. unfold roll_body at 1.
    destruct (roll_byte s0 b); cbn [bind]; [apply IH|reflexivity..]. }
  rewrite H. destruct (roll_bytes s data); unfold lift_loop, bind, as_out; reduce; reflexivity.
Qed.

(** ** push *)

Lemma src_rollsum_push n w s data : (100 <= n)%nat -> Z.of_nat (length (rsi_window s)) < 2 ^ 64 -> Z.of_nat (length data) < 2 ^ 64 ->
  call (crate u) n "RollSumIncr::push" [enc_RsIncr s; vbytes data] =
  as_out (fun '(s', o) => ([enc_RsIncr s'; vbytes data], vopt o)) (incr_push (rollsum_incr w) s data).
Proof.
  intros Hn Hw Hd. start. enter.
  sim_enum (fun s' : RollSumIncr => Z.of_nat (length (rsi_window s')) < 2 ^ 64)
    (fun s' => [("self"%string, enc_RsIncr s'); ("data"%string, vbytes data)])
    (fun k => VSome (vsize k)) vbyte rollsum_push_body data s.
  3: lia. 2: exact Hw.
  { intros s' i x Hw' Hi. unfold lock. reduce. change (VInt U8 (b2z x)) with (vbyte x).
    rewrite src_roll_byte by (assumption || lia). unfold rollsum_push_body.
    destruct (roll_byte s' x) as [s1| |] eqn:E; unfold as_out, bind; reduce; [|split; [reflexivity|discriminate]..].
    rewrite src_rs_incr_at_split by lia. reduce.
    destruct (rollsum_incr_at_split s1); unfold lift_ctl; reduce.
    - split; [|discriminate]. cases. agree.
    - split; [reflexivity|]. intros s2 [= <-]. rewrite (roll_byte_window _ _ _ E). assumption. }
  cbn [incr_push rollsum_incr]. unfold rollsum_push.
  destruct (for_enum rollsum_push_body 0 data s) as [[s'|s' k|s']| |]; unfold lift_loop, bind, as_out; reduce; reflexivity.
Qed.

(** ** find_chunk_edge *)

Ltac fce_finish d :=
  match goal with
  | a : byte, s' : RollSumSearchState, w : nat |- _ =>
      change (VInt U8 (b2z a)) with (vbyte a); change (VInt U8 (b2z d)) with (vbyte d);
      rewrite (src_rs_add _ w d a) by lia; reduce;
      rewrite src_rs_at_split by lia; reduce;
      destruct (rollsum_at_split (rollsum_add w d a (rss_state s'))); unfold lift_ctl; reduce; [|reflexivity];
      rewrite (src_rs_search_reset _ w {| rss_state := rollsum_add w d a (rss_state s'); rss_offset := rss_offset s' |}) by lia;
      reduce; cases; try agree
  end.

Lemma src_rollsum_find_chunk_edge n w s data : (120 <= n)%nat -> Z.of_nat (length data) < 2 ^ 64 ->
  call (crate u) n "RollSum::find_chunk_edge" [enc_RollSum w; enc_RsSearch s; vbytes data] =
  as_out (fun '(s', (o, k)) => ([enc_RollSum w; enc_RsSearch s'; vbytes data], VPair (vopt o) (vsize k)))
    (find_chunk_edge (rollsum_chunk w) s data).
Proof.
  intros Hn Hd. start. enter.
  sim_range (fun _ : RollSumSearchState => True)
    (fun s' => [("self"%string, enc_RollSum w); ("state"%string, enc_RsSearch s'); ("data"%string, vbytes data)])
    (fun k => VPair (VSome (vsize k)) (vsize k)) (rollsum_fce_body w data) (rss_offset s) (length data - rss_offset s)%nat s.
  2: exact I.
  { intros s' i _ Hi. split; [|tauto]. unfold lock. reduce.
    unfold rollsum_fce_body, index at 1. rewrite (nth_vbyte _ _ i) by reflexivity.
    destruct (nth_error data i) as [a|] eqn:Ea; unfold option_map, bind at 1; reduce; [|reflexivity].
    destruct (w <=? i)%nat eqn:Ew.
    - replace (Z.of_nat w <=? Z.of_nat i) with true by lia. reduce.
      replace (0 <=? Z.of_nat i - Z.of_nat w) with true by lia. reduce.
      unfold index. rewrite (nth_vbyte _ _ (i - w)) by lia.
      destruct (nth_error data (i - w)) as [d|] eqn:Ed; unfold option_map, bind; reduce; [|reflexivity].
      fce_finish d.
    - replace (Z.of_nat w <=? Z.of_nat i) with false by lia. reduce. unfold bind.
      change (VInt U8 0) with (vbyte x00). fce_finish x00. }
  cbn [find_chunk_edge rollsum_chunk]. unfold rollsum_find_chunk_edge.
  destruct (for_range _ _ _ s) as [[s'|s' k|s']| |]; unfold lift_loop, bind, as_out; reduce; rewrite ?map_length; cases.
  all: try (unfold enc_RsSearch; cbn [rss_state rss_offset]; agree).
Qed.

End Crate.
