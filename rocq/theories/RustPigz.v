(** * RustPigz: the text of src/pigz.rs computes what the model in Pigz.v computes. *)

From Coq Require Import String ZifyBool ZifyNat.
From Verif Require Import Base Api Pigz Rust RustText RustSim.
Open Scope list_scope.
Open Scope Z_scope.

Definition enc_Pigz (p : PigzRsyncable) : value :=
  VStruct "PigzRsyncable" [("bits"%string, VInt U8 (pigz_bits p)); ("mask"%string, VInt U32 (pigz_mask p));
                           ("hit"%string, VInt U32 (pigz_hit p))].
Definition enc_PigzState (h : PigzState) : value := VStruct "PigzRsyncableState" [("hash"%string, VInt U32 h)].
Definition enc_PigzSearch (h : PigzState) : value := VStruct "PigzRsyncableSearchState" [("state"%string, enc_PigzState h)].
Definition enc_PigzIncr (p : PigzRsyncable) (h : PigzState) : value :=
  VStruct "PigzRsyncableIncr" [("params"%string, enc_Pigz p); ("state"%string, enc_PigzState h)].

Ltac reduce_hook ::=
  cbn beta iota zeta delta
    [enc_Pigz enc_PigzState enc_PigzSearch enc_PigzIncr type_of get_field set_field assoc assoc_set String.eqb Ascii.eqb
     Bool.eqb obind pigz_bits pigz_mask pigz_hit].

Section Crate.
Variable u : program.

(** ** Construction *)

Lemma src_pigz_with_bits n bits : (20 <= n)%nat -> 0 <= bits ->
  call (crate u) n "PigzRsyncable::with_bits" [VInt U8 bits] = as_out (fun p => ([VInt U8 bits], enc_Pigz p)) (pigz_with_bits bits).
Proof.
  intros Hn Hk. start. enter. unfold pigz_with_bits, shl_u32, sub_u32, wrap32, two32, as_out, bind.
  replace (0 <=? bits) with true by lia. cbn [andb]. cases.
Qed.

Lemma src_pigz_default n : (40 <= n)%nat ->
  call (crate u) n "PigzRsyncable::default" [] = as_out (fun p => ([], enc_Pigz p)) pigz_default.
Proof.
  intros Hn. start. enter. rewrite src_pigz_with_bits by lia. unfold pigz_default.
  destruct (pigz_with_bits 12); unfold as_out; reduce; reflexivity.
Qed.

Lemma src_pigz_state_from n p : (20 <= n)%nat ->
  call (crate u) n "PigzRsyncableState::from<&PigzRsyncable>" [enc_Pigz p] = Done ([enc_Pigz p], enc_PigzState (pigz_state_new p)).
Proof. start. enter. reflexivity. Qed.

Lemma src_pigz_search_from n p : (40 <= n)%nat ->
  call (crate u) n "PigzRsyncableSearchState::from<&PigzRsyncable>" [enc_Pigz p] = Done ([enc_Pigz p], enc_PigzSearch (pigz_state_new p)).
Proof. start. enter. rewrite src_pigz_state_from by lia. reduce. reflexivity. Qed.

Lemma src_pigz_to_search_state n p : (60 <= n)%nat ->
  call (crate u) n "PigzRsyncable::to_search_state" [enc_Pigz p] = Done ([enc_Pigz p], enc_PigzSearch (to_search_state (pigz_chunk p))).
Proof. start. enter. rewrite src_pigz_search_from by lia. reduce. reflexivity. Qed.

Lemma src_pigz_incr_from n p : (40 <= n)%nat ->
  call (crate u) n "PigzRsyncableIncr::from<PigzRsyncable>" [enc_Pigz p] = Done ([enc_Pigz p], enc_PigzIncr p (pigz_state_new p)).
Proof. start. enter. rewrite src_pigz_state_from by lia. reduce. reflexivity. Qed.

Lemma src_pigz_incr_from_ref n p : (60 <= n)%nat ->
  call (crate u) n "PigzRsyncableIncr::from<&PigzRsyncable>" [enc_Pigz p] = Done ([enc_Pigz p], enc_PigzIncr p (pigz_state_new p)).
Proof. start. enter. rewrite src_pigz_incr_from by lia. reduce. reflexivity. Qed.

Lemma src_pigz_to_chunk_incr n p : (80 <= n)%nat ->
  call (crate u) n "PigzRsyncable::to_chunk_incr" [enc_Pigz p] = Done ([enc_Pigz p], enc_PigzIncr p (incr_new (pigz_incr p))).
Proof. start. enter. rewrite src_pigz_incr_from_ref by lia. reduce. reflexivity. Qed.

(** ** Rolling *)

Lemma src_pigz_add n p h v : (20 <= n)%nat ->
  call (crate u) n "PigzRsyncableState::add" [enc_PigzState h; enc_Pigz p; vbyte v] =
  (let '(h', hit) := pigz_add p h v in Done ([enc_PigzState h'; enc_Pigz p; vbyte v], VBool hit)).
Proof. start. enter. rewrite byte_mod by lia. reflexivity. Qed.

(** ** push *)

Lemma src_pigz_push n p s data : (60 <= n)%nat -> Z.of_nat (length data) < 2 ^ 64 ->
  call (crate u) n "PigzRsyncableIncr::push" [enc_PigzIncr p s; vbytes data] =
  as_out (fun '(s', o) => ([enc_PigzIncr p s'; vbytes data], vopt o)) (incr_push (pigz_incr p) s data).
Proof.
  intros Hn Hd. start. enter.
  sim_enum (fun _ : PigzState => True) (fun s' => [("self"%string, enc_PigzIncr p s'); ("data"%string, vbytes data)])
    (fun k => VSome (vsize k)) vbyte (pigz_body p) data s.
  3: lia. 2: exact I.
  { intros s' i x _ Hi. split; [|tauto]. unfold lock. reduce.
    change (VInt U8 (b2z x)) with (vbyte x).
    rewrite src_pigz_add by lia. unfold pigz_body.
    destruct (pigz_add p s' x) as [s1 []]; unfold lift_ctl; reduce; try reflexivity.
    change (VStruct "PigzRsyncable" _) with (enc_Pigz p).
    rewrite src_pigz_state_from by lia. reduce. cases. agree. }
  cbn [incr_push pigz_incr]. unfold pigz_push.
  destruct (for_enum (pigz_body p) 0 data s) as [[s'|s' k|s']| |]; unfold lift_loop, bind, as_out; reduce; reflexivity.
Qed.

(** ** find_chunk_edge *)

Lemma src_pigz_find_chunk_edge n p s data : (80 <= n)%nat -> Z.of_nat (length data) < 2 ^ 64 ->
  call (crate u) n "PigzRsyncable::find_chunk_edge" [enc_Pigz p; enc_PigzSearch s; vbytes data] =
  as_out (fun '(s', (o, k)) => ([enc_Pigz p; enc_PigzSearch s'; vbytes data], VPair (vopt o) (vsize k)))
    (find_chunk_edge (pigz_chunk p) s data).
Proof.
  intros Hn Hd. start. enter.
  sim_enum (fun _ : PigzState => True)
    (fun s' => [("self"%string, enc_Pigz p); ("state"%string, enc_PigzSearch s'); ("data"%string, vbytes data)])
    (fun k => VPair (VSome (vsize k)) (vsize k)) vbyte (pigz_body p) data s.
  3: lia. 2: exact I.
  { intros s' i x _ Hi. split; [|tauto]. unfold lock. reduce.
    change (VInt U8 (b2z x)) with (vbyte x).
    rewrite src_pigz_add by lia. unfold pigz_body.
    destruct (pigz_add p s' x) as [s1 []]; unfold lift_ctl; reduce; try reflexivity.
    rewrite src_pigz_to_search_state by lia. reduce. cases. agree. }
  cbn [find_chunk_edge pigz_chunk]. unfold pigz_find_chunk_edge.
  destruct (for_enum (pigz_body p) 0 data s) as [[s'|s' k|s']| |]; unfold lift_loop, bind, as_out; reduce;
    rewrite ?map_length; reflexivity.
Qed.

End Crate.
