(** * RustGzip: the text of src/gzip.rs computes what the model in Gzip.v computes. *)

From Coq Require Import String ZifyBool ZifyNat.
From Verif Require Import Base Api Gzip Rust RustText RustSim.
Open Scope list_scope.
Open Scope Z_scope.

Definition enc_Gzip (p : GzipRsyncable) : value :=
  VStruct "GzipRsyncable" [("window_len"%string, vsize (gzip_window_len p)); ("modulus"%string, VInt U64 (gzip_modulus p))].
Definition enc_GzipState (a : Z) : value := VStruct "GzipRsyncableState" [("accum"%string, VWrap U64 a)].
Definition enc_GzipSearch (s : GzipSearchState) : value :=
  VStruct "GzipRsyncableSearchState" [("offset"%string, vsize (gzip_offset s)); ("state"%string, enc_GzipState (gzip_accum s))].
Definition enc_GzipIncr (p : GzipRsyncable) (s : GzipIncr) : value :=
  VStruct "GzipRsyncableIncr" [("params"%string, enc_Gzip p); ("accum"%string, VWrap U64 (gzi_accum s));
                               ("window"%string, vbytes (gzi_window s))].

Ltac reduce_hook ::=
  cbn beta iota zeta delta
    [enc_Gzip enc_GzipState enc_GzipSearch enc_GzipIncr type_of get_field set_field assoc assoc_set String.eqb Ascii.eqb
     Bool.eqb obind gzip_window_len gzip_modulus gzip_offset gzip_accum gzi_accum gzi_window].

Section Crate.
Variable u : program.

(** ** Construction *)

Lemma src_gzip_with_window_and_modulus n w m : (20 <= n)%nat ->
  call (crate u) n "GzipRsyncable::with_window_and_modulus" [vsize w; VInt U64 m] =
  Done ([vsize w; VInt U64 m], enc_Gzip (gzip_with_window_and_modulus w m)).
Proof. start. enter. reflexivity. Qed.

Lemma src_gzip_default n : (40 <= n)%nat -> call (crate u) n "GzipRsyncable::default" [] = Done ([], enc_Gzip gzip_default).
Proof.
  start. enter. change (VInt Usize 8192) with (vsize (Z.to_nat 8192)).
  rewrite src_gzip_with_window_and_modulus by lia. reduce. reflexivity.
Qed.

Lemma src_gzip_state_default n : (20 <= n)%nat -> call (crate u) n "GzipRsyncableState::default" [] = Done ([], enc_GzipState 0).
Proof. start. enter. reflexivity. Qed.

Lemma src_gzip_search_default n : (40 <= n)%nat ->
  call (crate u) n "GzipRsyncableSearchState::default" [] = Done ([], enc_GzipSearch gzip_search_default).
Proof. start. enter. rewrite src_gzip_state_default by lia. reduce. reflexivity. Qed.

Lemma src_gzip_to_search_state n p : (60 <= n)%nat ->
  call (crate u) n "GzipRsyncable::to_search_state" [enc_Gzip p] = Done ([enc_Gzip p], enc_GzipSearch (to_search_state (gzip_chunk p))).
Proof. start. enter. rewrite src_gzip_search_default by lia. reduce. reflexivity. Qed.

Lemma src_gzip_incr_from n p : (20 <= n)%nat ->
  call (crate u) n "GzipRsyncableIncr::from<GzipRsyncable>" [enc_Gzip p] = Done ([enc_Gzip p], enc_GzipIncr p gzip_incr_new).
Proof. start. enter. reflexivity. Qed.

Lemma src_gzip_incr_from_ref n p : (40 <= n)%nat ->
  call (crate u) n "GzipRsyncableIncr::from<&GzipRsyncable>" [enc_Gzip p] = Done ([enc_Gzip p], enc_GzipIncr p gzip_incr_new).
Proof. start. enter. rewrite src_gzip_incr_from by lia. reduce. reflexivity. Qed.

Lemma src_gzip_to_chunk_incr n p : (60 <= n)%nat ->
  call (crate u) n "GzipRsyncable::to_chunk_incr" [enc_Gzip p] = Done ([enc_Gzip p], enc_GzipIncr p (incr_new (gzip_incr p))).
Proof. start. enter. rewrite src_gzip_incr_from_ref by lia. reduce. reflexivity. Qed.

(** ** reset, add *)

Lemma src_gzip_state_reset n a : (20 <= n)%nat ->
  call (crate u) n "GzipRsyncableState::reset" [enc_GzipState a] = Done ([enc_GzipState 0], VUnit).
Proof. start. enter. reflexivity. Qed.

Lemma src_gzip_search_reset n s : (40 <= n)%nat ->
  call (crate u) n "GzipRsyncableSearchState::reset" [enc_GzipSearch s] = Done ([enc_GzipSearch (gzip_search_reset s)], VUnit).
Proof. start. enter. rewrite src_gzip_state_reset by lia. reduce. reflexivity. Qed.

Lemma src_gzip_incr_reset n p s : (20 <= n)%nat ->
  call (crate u) n "GzipRsyncableIncr::reset" [enc_GzipIncr p s] = Done ([enc_GzipIncr p (gzip_incr_reset s)], VUnit).
Proof. start. enter. reflexivity. Qed.

Lemma src_gzip_add n p a data i v : (30 <= n)%nat ->
  call (crate u) n "GzipRsyncableState::add" [enc_GzipState a; vbytes data; enc_Gzip p; vsize i; vbyte v] =
  as_out (fun '(a', hit) => ([enc_GzipState a'; vbytes data; enc_Gzip p; vsize i; vbyte v], VBool hit)) (gzip_add p a data i v).
Proof.
  intros Hn. start. enter. unfold gzip_add, index, rem_u64, as_out, bind.
  decide_if; reduce.
  - replace (gzip_window_len p <=? i)%nat with true by lia.
    rewrite (nth_vbyte _ _ (i - gzip_window_len p)) by lia.
    destruct (nth_error data (i - gzip_window_len p)); unfold option_map; reduce; [|reflexivity].
    rewrite !byte_mod by lia. cases.
  - replace (gzip_window_len p <=? i)%nat with false by lia.
    rewrite !byte_mod by lia. cases.
Qed.

(** ** push *)

Lemma src_gzip_push n p s data : (60 <= n)%nat -> Z.of_nat (length data) < 2 ^ 64 ->
  call (crate u) n "GzipRsyncableIncr::push" [enc_GzipIncr p s; vbytes data] =
  as_out (fun '(s', o) => ([enc_GzipIncr p s'; vbytes data], vopt o)) (incr_push (gzip_incr p) s data).
Proof.
  intros Hn Hd. start. enter.
  sim_enum (fun _ : GzipIncr => True) (fun s' => [("self"%string, enc_GzipIncr p s'); ("data"%string, vbytes data)])
    (fun k => VSome (vsize k)) vbyte (gzip_push_body p) data s.
  3: lia. 2: exact I.
  { intros [a w] i x _ Hi. split; [|tauto]. unfold lock. reduce. rewrite map_length.
    unfold gzip_push_body, lift_ctl, rem_u64, wrap64, two64, bind; cbn [gzi_accum gzi_window].
    decide_if; reduce.
    - replace (gzip_window_len p <=? length w)%nat with true by lia.
      destruct w as [|b w]; reduce; [reflexivity|]. cbn [map gzi_accum gzi_window]. reduce. rewrite !byte_mod by lia.
      decide_if; [reflexivity|]. reduce. decide_if; reduce.
      + enter. cases. agree.
      + unfold enc_GzipIncr, vbytes. cbn [gzi_accum gzi_window]. rewrite map_app. reflexivity.
    - replace (gzip_window_len p <=? length w)%nat with false by lia. cbn [gzi_accum gzi_window].
      rewrite !byte_mod by lia.
      decide_if; [reflexivity|]. reduce. decide_if; reduce.
      + enter. cases. agree.
      + unfold enc_GzipIncr, vbytes. cbn [gzi_accum gzi_window]. rewrite map_app. reflexivity. }
  cbn [incr_push gzip_incr]. unfold gzip_push.
  destruct (for_enum (gzip_push_body p) 0 data s) as [[s'|s' k|s']| |]; unfold lift_loop, bind, as_out; reduce; reflexivity.
Qed.

(** ** find_chunk_edge *)

Lemma src_gzip_find_chunk_edge n p s data : (80 <= n)%nat -> Z.of_nat (length data) < 2 ^ 64 ->
  call (crate u) n "GzipRsyncable::find_chunk_edge" [enc_Gzip p; enc_GzipSearch s; vbytes data] =
  as_out (fun '(s', (o, k)) => ([enc_Gzip p; enc_GzipSearch s'; vbytes data], VPair (vopt o) (vsize k)))
    (find_chunk_edge (gzip_chunk p) s data).
Proof.
  intros Hn Hd. start. enter.
  sim_range (fun _ : GzipSearchState => True)
    (fun s' => [("self"%string, enc_Gzip p); ("state"%string, enc_GzipSearch s'); ("data"%string, vbytes data)])
    (fun k => VPair (VSome (vsize k)) (vsize k)) (gzip_fce_body p data) (gzip_offset s) (length data - gzip_offset s)%nat s.
  2: exact I.
  { intros s' i _ Hi. split; [|tauto]. unfold lock. reduce.
    unfold gzip_fce_body, index. rewrite (nth_vbyte _ _ i) by lia.
    destruct (nth_error data i) as [x|] eqn:Ex; unfold option_map, bind; reduce; [|reflexivity].
    change (VInt U8 (b2z x)) with (vbyte x). change (VInt Usize (Z.of_nat i)) with (vsize i).
    rewrite src_gzip_add by lia.
    destruct (gzip_add p (gzip_accum s') data i x) as [[a []]| |]; unfold as_out, lift_ctl; reduce; try reflexivity.
    run. cases. agree. }
  cbn [find_chunk_edge gzip_chunk]. unfold gzip_find_chunk_edge.
  destruct (for_range (gzip_fce_body p data) (gzip_offset s) (length data - gzip_offset s) s) as [[s'|s' k|s']| |];
    unfold lift_loop, bind, as_out; reduce; rewrite ?map_length; try reflexivity.
  all: cases.
  all: unfold enc_GzipSearch; cbn [gzip_offset gzip_accum]; agree.
Qed.

End Crate.
