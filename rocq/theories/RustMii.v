(** * RustMii: the text of src/mii.rs computes what the model in Mii.v computes. *)

From Coq Require Import String ZifyBool ZifyNat.
From Verif Require Import Base Api Mii Rust RustText RustSim.
Open Scope list_scope.
Open Scope Z_scope.

(** The values of the Rust types, from those of the model. *)
Definition enc_Mii (w : Z) : value := VStruct "Mii" [("w"%string, VInt U64 w)].
Definition enc_MiiIncr (s : MiiIncr) : value :=
  VStruct "MiiIncr" [("w"%string, VInt U64 (mii_w s)); ("prev"%string, vbyte (mii_prev s));
                     ("increment"%string, VInt U64 (mii_increment s))].
Definition enc_MiiSearch (s : MiiIncr) : value := VStruct "MiiSearchState" [("incr"%string, enc_MiiIncr s)].

Ltac encs := unfold enc_Mii, enc_MiiSearch, enc_MiiIncr; cbn [mii_w mii_prev mii_increment].

Ltac reduce_hook ::=
  cbn beta iota zeta delta
    [enc_Mii enc_MiiIncr enc_MiiSearch type_of get_field set_field assoc assoc_set String.eqb Ascii.eqb Bool.eqb obind].

Section Crate.
Variable u : program.

Lemma src_mii_with_w n w : (20 <= n)%nat -> call (crate u) n "Mii::with_w" [VInt U64 w] = Done ([VInt U64 w], enc_Mii (mii_with_w w)).
Proof. intros Hn. destruct (bump_ge _ _ Hn) as [m ->]. enter. reflexivity. Qed.

Lemma src_mii_default n : (40 <= n)%nat -> call (crate u) n "Mii::default" [] = Done ([], enc_Mii mii_default).
Proof. intros Hn. destruct (bump_ge _ _ Hn) as [m ->]. enter. rewrite src_mii_with_w by lia. reduce. reflexivity. Qed.

Lemma src_mii_incr_from n w : (20 <= n)%nat ->
  call (crate u) n "MiiIncr::from<Mii>" [enc_Mii w] = Done ([enc_Mii w], enc_MiiIncr (mii_incr_new w)).
Proof. intros Hn. destruct (bump_ge _ _ Hn) as [m ->]. encs. enter. reflexivity. Qed.

Lemma src_mii_incr_from_ref n w : (40 <= n)%nat ->
  call (crate u) n "MiiIncr::from<&Mii>" [enc_Mii w] = Done ([enc_Mii w], enc_MiiIncr (mii_incr_new w)).
Proof. intros Hn. destruct (bump_ge _ _ Hn) as [m ->]. enter. rewrite src_mii_incr_from by lia. reduce. reflexivity. Qed.

Lemma src_mii_to_chunk_incr n w : (60 <= n)%nat ->
  call (crate u) n "Mii::to_chunk_incr" [enc_Mii w] = Done ([enc_Mii w], enc_MiiIncr (incr_new (mii_incr w))).
Proof. intros Hn. destruct (bump_ge _ _ Hn) as [m ->]. enter. rewrite src_mii_incr_from_ref by lia. reduce. reflexivity. Qed.

Lemma src_mii_to_search_state n w : (60 <= n)%nat ->
  call (crate u) n "Mii::to_search_state" [enc_Mii w] = Done ([enc_Mii w], enc_MiiSearch (to_search_state (mii_chunk w))).
Proof. intros Hn. destruct (bump_ge _ _ Hn) as [m ->]. enter. rewrite src_mii_incr_from_ref by lia. reduce. enter. reflexivity. Qed.

Lemma src_mii_reset n s : (20 <= n)%nat ->
  call (crate u) n "MiiIncr::reset" [enc_MiiIncr s] = Done ([enc_MiiIncr (mii_reset s)], VUnit).
Proof. intros Hn. destruct (bump_ge _ _ Hn) as [m ->]. encs. enter. reflexivity. Qed.

(** ** push *)

Lemma src_mii_push n s data : (40 <= n)%nat -> Z.of_nat (length data) < 2 ^ 64 ->
  call (crate u) n "MiiIncr::push" [enc_MiiIncr s; vbytes data] =
  as_out (fun '(s', o) => ([enc_MiiIncr s'; vbytes data], vopt o)) (incr_push (mii_incr 0) s data).
Proof.
  intros Hn Hd. destruct (bump_ge _ _ Hn) as [m ->]. enter.
  sim_enum (fun _ : MiiIncr => True) (fun s => [("self"%string, enc_MiiIncr s); ("input"%string, vbytes data)])
    (fun k => VSome (vsize k)) vbyte mii_push_body data s.
  3: lia. 2: exact I.
  { intros [w p inc] i x _ Hi. split; [|tauto]. unfold lock. encs. reduce.
    unfold mii_push_body, byte_gtb, add_u64, two64, lift_ctl, bind; cbn [mii_w mii_prev mii_increment].
    cases. agree. }
  cbn [incr_push mii_incr]. unfold mii_push.
  destruct (for_enum mii_push_body 0 data s) as [[s'|s' k|s']| |]; unfold lift_loop, bind, as_out; reduce; reflexivity.
Qed.

(** ** find_chunk_edge *)

Lemma src_mii_search_push n s data : (60 <= n)%nat -> Z.of_nat (length data) < 2 ^ 64 ->
  call (crate u) n "MiiSearchState::push" [enc_MiiSearch s; vbytes data] =
  as_out (fun '(s', o) => ([enc_MiiSearch s'; vbytes data], vopt o)) (mii_push s data).
Proof.
  intros Hn Hd. destruct (bump_ge _ _ Hn) as [m ->]. enter.
  rewrite src_mii_push by lia. cbn [incr_push mii_incr].
  destruct (mii_push s data) as [[s' o]| |]; unfold as_out; reduce; reflexivity.
Qed.

Lemma src_mii_search_reset n s : (40 <= n)%nat ->
  call (crate u) n "MiiSearchState::reset" [enc_MiiSearch s] = Done ([enc_MiiSearch (mii_reset s)], VUnit).
Proof. intros Hn. destruct (bump_ge _ _ Hn) as [m ->]. enter. rewrite src_mii_reset by lia. reduce. reflexivity. Qed.

Lemma src_mii_find_chunk_edge n w s data : (80 <= n)%nat -> Z.of_nat (length data) < 2 ^ 64 ->
  call (crate u) n "Mii::find_chunk_edge" [enc_Mii w; enc_MiiSearch s; vbytes data] =
  as_out (fun '(s', (o, k)) => ([enc_Mii w; enc_MiiSearch s'; vbytes data], VPair (vopt o) (vsize k)))
    (find_chunk_edge (mii_chunk w) s data).
Proof.
  intros Hn Hd. destruct (bump_ge _ _ Hn) as [m ->]. enter.
  rewrite src_mii_search_push by lia. cbn [find_chunk_edge mii_chunk]. unfold mii_find_chunk_edge.
  destruct (mii_push s data) as [[s' [k|]]| |]; unfold as_out, bind; reduce; try reflexivity.
  rewrite map_length. reflexivity.
Qed.

End Crate.

