(** * RustRam: the text of src/ram.rs computes what the model in Ram.v computes. *)

From Coq Require Import String ZifyBool ZifyNat.
From Verif Require Import Base Api Answers Ram Rust RustText RustSim.
Open Scope list_scope.
Open Scope Z_scope.

Definition enc_Ram (w : Z) : value := VStruct "Ram" [("w"%string, VInt U64 w)].
Definition enc_RamState (s : RamState) : value :=
  VStruct "RamState" [("i"%string, VInt U64 (ram_i s)); ("max_val"%string, vbyte (ram_max_val s))].
Definition enc_RamIncr (w : Z) (s : RamState) : value :=
  VStruct "RamIncr" [("params"%string, enc_Ram w); ("state"%string, enc_RamState s)].

Ltac reduce_hook ::=
  cbn beta iota zeta delta
    [enc_Ram enc_RamState enc_RamIncr type_of get_field set_field assoc assoc_set String.eqb Ascii.eqb Bool.eqb obind
     ram_i ram_max_val].

Section Crate.
Variable u : program.

Lemma src_ram_with_w n w : (20 <= n)%nat ->
  call (crate u) n "Ram::with_w" [VInt U64 w] = Done ([VInt U64 w], enc_Ram (ram_with_w w)).
Proof. start. enter. reflexivity. Qed.

Lemma src_ram_state_default n : (20 <= n)%nat ->
  call (crate u) n "RamState::default" [] = Done ([], enc_RamState ram_state_default).
Proof. start. enter. reflexivity. Qed.

Lemma src_ram_to_search_state n w : (40 <= n)%nat ->
  call (crate u) n "Ram::to_search_state" [enc_Ram w] = Done ([enc_Ram w], enc_RamState (to_search_state (ram_chunk w))).
Proof. start. enter. rewrite src_ram_state_default by lia. reduce. reflexivity. Qed.

Lemma src_ram_incr_from n w : (40 <= n)%nat ->
  call (crate u) n "RamIncr::from<&Ram>" [enc_Ram w] = Done ([enc_Ram w], enc_RamIncr w ram_state_default).
Proof. start. enter. rewrite src_ram_state_default by lia. reduce. reflexivity. Qed.

Lemma src_ram_to_chunk_incr n w : (60 <= n)%nat ->
  call (crate u) n "Ram::to_chunk_incr" [enc_Ram w] = Done ([enc_Ram w], enc_RamIncr w (incr_new (ram_incr w))).
Proof. start. enter. rewrite src_ram_incr_from by lia. reduce. reflexivity. Qed.

(** ** push *)

Lemma src_ram_state_push n w s data : (40 <= n)%nat -> Z.of_nat (length data) < 2 ^ 64 ->
  call (crate u) n "RamState::push" [enc_RamState s; enc_Ram w; vbytes data] =
  as_out (fun '(s', o) => ([enc_RamState s'; enc_Ram w; vbytes data], vopt o)) (ram_state_push w s data).
Proof.
  intros Hn Hd. start. enter.
  sim_enum (fun _ : RamState => True)
    (fun s' => [("i"%string, VInt U64 (ram_i s)); ("self"%string, enc_RamState s'); ("params"%string, enc_Ram w);
               ("data"%string, vbytes data)])
    (fun k => VSome (vsize k)) vbyte (ram_push_body w (ram_i s)) data s.
  3: lia. 2: exact I.
  { intros [si mv] i x _ Hi. split; [|tauto]. unfold lock. reduce.
    rewrite small_mod by lia.
    unfold ram_push_body, byte_geb, add_u64, two64, lift_ctl, bind; cbn [ram_i ram_max_val].
    cases. }
  unfold ram_state_push.
  destruct (for_enum (ram_push_body w (ram_i s)) 0 data s) as [[s'|s' k|s']| |];
    unfold lift_loop, bind, as_out; reduce; try reflexivity;
    rewrite map_length, small_mod by lia; unfold add_u64, two64; cases.
Qed.

Lemma src_ram_push n w s data : (60 <= n)%nat -> Z.of_nat (length data) < 2 ^ 64 ->
  call (crate u) n "RamIncr::push" [enc_RamIncr w s; vbytes data] =
  as_out (fun '(s', o) => ([enc_RamIncr w s'; vbytes data], vopt o)) (incr_push (ram_incr w) s data).
Proof.
  start. enter. rewrite src_ram_state_push by lia. cbn [incr_push ram_incr].
  destruct (ram_state_push w s data) as [[s' o]| |]; unfold as_out; reduce; reflexivity.
Qed.

(** ** find_chunk_edge *)

Lemma ram_state_push_lt w s data s' k : ram_state_push w s data = Ok (s', Some k) -> (k < length data)%nat.
Proof.
  unfold ram_state_push. intros E.
  destruct (for_enum _ 0 data s) as [[s1|s1 k1|s1]| |] eqn:L; cbn [bind] in E; try discriminate.
  - destruct (add_u64 _ _); discriminate.
  - inversion E; subst. eapply (for_enum_answer _ _ _ 0) in L; [lia|].
    intros s2 i v s3 k2. unfold ram_push_body. intros B.
    destruct (byte_geb _ _); [|discriminate]. destruct (add_u64 _ _); cbn [bind] in B; try discriminate.
    destruct (w <? _); inversion B; lia.
  - destruct (add_u64 _ _); discriminate.
Qed.

Lemma src_ram_find_chunk_edge n w s data : (60 <= n)%nat -> Z.of_nat (length data) < 2 ^ 64 ->
  call (crate u) n "Ram::find_chunk_edge" [enc_Ram w; enc_RamState s; vbytes data] =
  as_out (fun '(s', (o, k)) => ([enc_Ram w; enc_RamState s'; vbytes data], VPair (vopt o) (vsize k)))
    (find_chunk_edge (ram_chunk w) s data).
Proof.
  intros Hn Hd. start. enter.
  rewrite src_ram_state_push by lia. cbn [find_chunk_edge ram_chunk]. unfold ram_find_chunk_edge.
  destruct (ram_state_push w s data) as [[s' [k|]]| |] eqn:E; unfold as_out, bind; reduce; try reflexivity.
  - pose proof (ram_state_push_lt _ _ _ _ _ E). cases. agree.
  - rewrite map_length. reflexivity.
Qed.

End Crate.
