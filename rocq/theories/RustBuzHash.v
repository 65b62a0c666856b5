(** * RustBuzHash: the text of src/buzhash.rs and of [borg_buzhash_table] computes what the model in BuzHash.v computes.

    [BuzHash] is generic in the hash of bytes.  Here that is any value [hv] whose [hash] method, be it one of the crate's
    or the user's, computes a function from bytes to [u32]. *)

From Coq Require Import String ZifyBool ZifyNat.
From Verif Require Import Base Api Lists Tables BuzHash Ring Rust RustText RustSim.
Open Scope list_scope.
Open Scope Z_scope.

Definition enc_Buz (hv : value) (p : BuzHash) : value :=
  VStruct "BuzHash" [("k"%string, vsize (bz_k p)); ("h"%string, hv); ("mask"%string, VInt U32 (bz_mask p));
                     ("max_chunk_size"%string, VInt U64 (bz_max_chunk_size p))].
Definition enc_BuzState (h : BuzHashState) : value := VStruct "BuzHashState" [("h"%string, VInt U32 h)].
Definition enc_BuzSearch (s : BuzHashSearchState) : value :=
  VStruct "BuzHashSearchState" [("offset"%string, vsize (bzs_offset s)); ("state"%string, enc_BuzState (bzs_state s))].
Definition enc_BuzIncr (hv : value) (p : BuzHash) (s : BuzHashIncr) : value :=
  VStruct "BuzHashIncr" [("params"%string, enc_Buz hv p); ("state"%string, enc_BuzState (bzi_state s));
                         ("buf"%string, vbytes (bzi_buf s)); ("buf_idx"%string, VWrap Usize (Z.of_nat (bzi_buf_idx s)));
                         ("input_idx"%string, VInt U64 (bzi_input_idx s))].

Definition vu32s (t : list Z) : value := VList (map (VInt U32) t).
Definition enc_TableHash (t : list Z) : value := VStruct "BuzHashTableHash" [("table"%string, vu32s t)].
Definition enc_TableBufHash (t : list Z) : value := VStruct "BuzHashTableBufHash" [("table"%string, vu32s t)].
Definition enc_SaltHash (salt : byte) (t : list Z) : value :=
  VStruct "BuzHashTableByteSaltHash" [("table"%string, vu32s t); ("salt"%string, vbyte salt)].

Ltac reduce_hook ::=
  cbn beta iota zeta delta
    [vu32s enc_TableHash enc_TableBufHash enc_SaltHash enc_Buz enc_BuzState enc_BuzSearch enc_BuzIncr type_of get_field set_field get_index set_index assoc assoc_set String.eqb Ascii.eqb
     Bool.eqb obind bz_k bz_h bz_mask bz_max_chunk_size bzs_offset bzs_state bzi_state bzi_buf bzi_buf_idx bzi_input_idx].

(** The method [hash] of [hv] is there, takes [&self] and a byte, and computes [h]. *)
Definition is_hash (prog : program) (hv : value) (h : BuzHashHash) : Prop :=
  params_of prog (append (type_of hv) "::hash") = [("self"%string, false); ("data"%string, false)] /\
  forall n b, (40 <= n)%nat ->
    call prog n (append (type_of hv) "::hash") [hv; vbyte b] = as_out (fun z => ([hv; vbyte b], VInt U32 z)) (h b).

Lemma nth_vu32 t z i : z = Z.of_nat i -> nth_error (map (VInt U32) t) (Z.to_nat z) = option_map (VInt U32) (nth_error t i).
Proof. intros ->. rewrite Nat2Z.id. apply nth_error_map. Qed.

Section Crate.
Variable u : program.

(** ** The hashes of the crate *)

Lemma src_table_hash_from n t : (20 <= n)%nat ->
  call (crate u) n "BuzHashTableHash::from<&[]>" [vu32s t] = Done ([vu32s t], enc_TableHash t).
Proof. start. enter. reflexivity. Qed.
Lemma src_table_buf_hash_from n t : (20 <= n)%nat ->
  call (crate u) n "BuzHashTableBufHash::from<[]>" [vu32s t] = Done ([vu32s t], enc_TableBufHash t).
Proof. start. enter. reflexivity. Qed.
Lemma src_salt_hash_from n salt t : (20 <= n)%nat ->
  call (crate u) n "BuzHashTableByteSaltHash::from<(..)>" [VPair (vbyte salt) (vu32s t)] =
  Done ([VPair (vbyte salt) (vu32s t)], enc_SaltHash salt t).
Proof. start. enter. reflexivity. Qed.

Lemma src_table_hash t : is_hash (crate u) (enc_TableHash t) (table_hash t).
Proof.
  split; [reflexivity|]. start. change (append (type_of (enc_TableHash t)) "::hash") with "BuzHashTableHash::hash"%string.
  enter. rewrite byte_mod by lia. unfold table_hash, index.
  rewrite (nth_vu32 _ _ (Z.to_nat (b2z b))) by (pose proof (b2z_range b); lia).
  destruct (nth_error t _); reflexivity.
Qed.
Lemma src_table_buf_hash t : is_hash (crate u) (enc_TableBufHash t) (table_hash t).
Proof.
  split; [reflexivity|]. start. change (append (type_of (enc_TableBufHash t)) "::hash") with "BuzHashTableBufHash::hash"%string.
  enter. rewrite byte_mod by lia. unfold table_hash, index.
  rewrite (nth_vu32 _ _ (Z.to_nat (b2z b))) by (pose proof (b2z_range b); lia).
  destruct (nth_error t _); reflexivity.
Qed.

Lemma lxor_byte_mod a b : Z.lxor (b2z a) (b2z b) mod 2 ^ 64 = Z.lxor (b2z a) (b2z b) /\ 0 <= Z.lxor (b2z a) (b2z b).
Proof.
  pose proof (b2z_range a). pose proof (b2z_range b).
  assert (H1 : 0 <= Z.lxor (b2z a) (b2z b)) by (apply Z.lxor_nonneg; lia). split; [|exact H1].
  apply Z.mod_small. split; [exact H1|]. destruct (Z.eq_dec (Z.lxor (b2z a) (b2z b)) 0) as [->|Hz]; [reflexivity|].
  apply Z.log2_lt_pow2; [lia|]. pose proof (Z.log2_lxor (b2z a) (b2z b) ltac:(lia) ltac:(lia)).
  pose proof (Z.log2_le_mono (b2z a) 255 ltac:(lia)). pose proof (Z.log2_le_mono (b2z b) 255 ltac:(lia)).
  change (Z.log2 255) with 7 in *. lia.
Qed.

Lemma src_salt_hash salt t : is_hash (crate u) (enc_SaltHash salt t) (table_byte_salt_hash salt t).
Proof.
  split; [reflexivity|]. start.
  change (append (type_of (enc_SaltHash salt t)) "::hash") with "BuzHashTableByteSaltHash::hash"%string.
  enter. destruct (lxor_byte_mod b salt) as [-> ?]. unfold table_byte_salt_hash, index.
  rewrite (nth_vu32 _ _ (Z.to_nat (Z.lxor (b2z b) (b2z salt)))) by lia.
  destruct (nth_error t _); reflexivity.
Qed.

(** ** borg_buzhash_table *)

Definition borg_body (seed : Z) (t : list Z) (i : nat) : res (ctl (list Z) nat) :=
  x <- index BORG_BUZHASH_BASE i ;; Ok (Next (set_nth t i (Z.lxor x seed))).

Lemma borg_loop seed : forall b a, BORG_BUZHASH_BASE = a ++ b ->
  for_range (borg_body seed) (length a) (length b) (map (fun x => Z.lxor x seed) a ++ repeat 0 (length b)) =
  Ok (Next (borg_buzhash_table seed)).
Proof.
  induction b as [|x b IH]; intros a E.
  - cbn [length for_range repeat]. unfold borg_buzhash_table. rewrite E, !app_nil_r. reflexivity.
  - cbn [length for_range repeat]. unfold borg_body at 1, index. rewrite E, nth_error_app2, Nat.sub_diag by lia.
    cbn [nth_error bind].
    pose proof (set_nth_mid _ (map (fun x => Z.lxor x seed) a) 0 (repeat 0 (length b)) (Z.lxor x seed)) as Hs.
    rewrite map_length in Hs. rewrite Hs. specialize (IH (a ++ [x])). rewrite app_length, map_app, <- !app_assoc in IH.
    cbn [length map app] in IH. rewrite <- (IH E). f_equal. lia.
Qed.

Lemma src_borg_buzhash_table n seed : (40 <= n)%nat ->
  call (crate u) n "borg_buzhash_table" [VInt U32 seed] = Done ([VInt U32 seed], vu32s (borg_buzhash_table seed)).
Proof.
  start. enter.
  rewrite repeat_length, Nat2Z.id.
  sim_range (fun t : list Z => length t = 256%nat)
    (fun t => [("t"%string, vu32s t); ("seed"%string, VInt U32 seed)]) (fun _ : nat => VUnit)
    (borg_body seed) 0%nat 256%nat (repeat 0 256).
  2: reflexivity.
  { intros t i Ht Hi. unfold lock. reduce. enter. unfold borg_body, index. rewrite (nth_vu32 _ _ i) by reflexivity.
    destruct (nth_error BORG_BUZHASH_BASE i) as [x|] eqn:Ex; unfold option_map, bind, lift_ctl; reduce;
      [|split; [reflexivity|discriminate]].
    rewrite map_length, Nat2Z.id, Ht. replace (Z.of_nat i <? Z.of_nat 256) with true by lia. reduce.
    split; [|intros t' [= <-]; rewrite length_set_nth; exact Ht]. rewrite set_nth_map. reflexivity. }
  pose proof (borg_loop seed BORG_BUZHASH_BASE [] eq_refl) as HL. cbn [length map app] in HL.
  change (length BORG_BUZHASH_BASE) with 256%nat in HL. rewrite HL. unfold lift_loop. reduce. reflexivity.
Qed.

(** ** Construction *)

Lemma src_buzhash_new n capacity mask hv h max_chunk_size : (40 <= n)%nat ->
  call (crate u) n "BuzHash::new" [vsize capacity; VInt U32 mask; hv; VInt U64 max_chunk_size] =
  as_out (fun p => ([vsize capacity; VInt U32 mask; hv; VInt U64 max_chunk_size], enc_Buz hv p))
    (buzhash_new capacity mask h max_chunk_size).
Proof.
  start. enter. unfold buzhash_new, rust_assert. destruct (0 <? capacity)%nat eqn:E.
  - replace (0 <? Z.of_nat capacity) with true by lia. reduce. reflexivity.
  - replace (0 <? Z.of_nat capacity) with false by lia. reduce. reflexivity.
Qed.

Lemma src_buzhash_new_nom n salt : (60 <= n)%nat ->
  call (crate u) n "BuzHash::new_nom" [vbyte salt] =
  as_out (fun p => ([vbyte salt], enc_Buz (enc_SaltHash salt GO_BUZHASH) p)) (buzhash_new_nom salt).
Proof.
  start. enter.
  enter. change (VList (map (VInt U32) GO_BUZHASH)) with (vu32s GO_BUZHASH).
  rewrite (src_salt_hash_from _ salt GO_BUZHASH) by lia. reduce.
  change (VInt Usize 67) with (vsize 67).
  rewrite (src_buzhash_new _ _ _ _ (table_byte_salt_hash salt GO_BUZHASH)) by lia.
  reflexivity.
Qed.

Lemma src_buz_state_default n : (20 <= n)%nat -> call (crate u) n "BuzHashState::default" [] = Done ([], enc_BuzState 0).
Proof. start. enter. reflexivity. Qed.

Lemma src_buz_search_default n : (40 <= n)%nat ->
  call (crate u) n "BuzHashSearchState::default" [] = Done ([], enc_BuzSearch buz_search_default).
Proof. start. enter. rewrite src_buz_state_default by lia. reduce. reflexivity. Qed.

Lemma src_buz_to_search_state n hv p : (60 <= n)%nat ->
  call (crate u) n "BuzHash::to_search_state" [enc_Buz hv p] = Done ([enc_Buz hv p], enc_BuzSearch (to_search_state (buz_chunk p))).
Proof. start. enter. rewrite src_buz_search_default by lia. reduce. reflexivity. Qed.

Lemma map_repeat {A B} (f : A -> B) a n : map f (repeat a n) = repeat (f a) n.
Proof. induction n; simpl; congruence. Qed.

Lemma src_buz_incr_from n hv p : (40 <= n)%nat ->
  call (crate u) n "BuzHashIncr::from<BuzHash>" [enc_Buz hv p] = Done ([enc_Buz hv p], enc_BuzIncr hv p (buz_incr_new p)).
Proof.
  start. enter. rewrite src_buz_state_default by lia. reduce. unfold enc_BuzIncr, buz_incr_new, vbytes.
  cbn [bzi_state bzi_buf bzi_buf_idx bzi_input_idx]. rewrite map_repeat, Nat2Z.id. reflexivity.
Qed.

Lemma src_buz_incr_from_ref n hv p : (60 <= n)%nat ->
  call (crate u) n "BuzHashIncr::from<&BuzHash>" [enc_Buz hv p] = Done ([enc_Buz hv p], enc_BuzIncr hv p (buz_incr_new p)).
Proof. start. enter. rewrite src_buz_incr_from by lia. reduce. reflexivity. Qed.

Lemma src_buz_to_chunk_incr n hv p : (80 <= n)%nat ->
  call (crate u) n "BuzHash::to_chunk_incr" [enc_Buz hv p] = Done ([enc_Buz hv p], enc_BuzIncr hv p (incr_new (buz_incr p))).
Proof. start. enter. rewrite src_buz_incr_from_ref by lia. reduce. reflexivity. Qed.

Lemma src_buz_state_reset n h : (20 <= n)%nat ->
  call (crate u) n "BuzHashState::reset" [enc_BuzState h] = Done ([enc_BuzState 0], VUnit).
Proof. start. enter. reflexivity. Qed.

Lemma src_buz_search_reset n s : (40 <= n)%nat ->
  call (crate u) n "BuzHashSearchState::reset" [enc_BuzSearch s] = Done ([enc_BuzSearch (buz_search_reset s)], VUnit).
Proof. start. enter. rewrite src_buz_state_reset by lia. reduce. reflexivity. Qed.

Lemma src_buz_incr_reset n hv p s : (40 <= n)%nat ->
  call (crate u) n "BuzHashIncr::reset" [enc_BuzIncr hv p s] = Done ([enc_BuzIncr hv p (buz_incr_reset s)], VUnit).
Proof. start. enter. rewrite src_buz_state_reset by lia. reduce. reflexivity. Qed.

(** ** The hash *)

Section Hash.
Variable hv : value.
Variable p : BuzHash.
Hypothesis Hhash : is_hash (crate u) hv (bz_h p).

Lemma src_buz_add n h v : (60 <= n)%nat ->
  call (crate u) n "BuzHashState::add" [enc_BuzState h; enc_Buz hv p; vbyte v] =
  as_out (fun h' => ([enc_BuzState h'; enc_Buz hv p; vbyte v], VUnit)) (buz_add p h v).
Proof.
  start. destruct Hhash as [Hp Hc]. cbn [params_of] in Hp. enter. change (VInt U8 (b2z v)) with (vbyte v). rewrite Hc by lia. rewrite Hp. unfold buz_add.
  destruct (bz_h p v) as [z| |]; unfold as_out, bind; reduce; reflexivity.
Qed.

Lemma src_buz_add_overflow n h a r : (60 <= n)%nat ->
  call (crate u) n "BuzHashState::add_overflow" [enc_BuzState h; enc_Buz hv p; vbyte a; vbyte r] =
  as_out (fun h' => ([enc_BuzState h'; enc_Buz hv p; vbyte a; vbyte r], VUnit)) (buz_add_overflow p h a r).
Proof.
  start. destruct Hhash as [Hp Hc]. cbn [params_of] in Hp. enter. change (VInt U8 (b2z r)) with (vbyte r).
  rewrite Hc by lia. rewrite Hp. unfold buz_add_overflow.
  destruct (bz_h p r) as [z| |]; unfold as_out, bind; reduce; try reflexivity.
  rewrite (Z.mod_small (Z.of_nat (bz_k p) mod 8)) by (pose proof (Z.mod_pos_bound (Z.of_nat (bz_k p)) 8 ltac:(lia)); lia).
  change (VInt U8 (b2z a)) with (vbyte a). rewrite Hc by lia. rewrite Hp.
  destruct (bz_h p a) as [y| |]; unfold as_out; reduce; try reflexivity.
  rewrite Nat2Z.inj_mod. reflexivity.
Qed.

Lemma src_buz_add_buf n h data i : (80 <= n)%nat ->
  call (crate u) n "BuzHashState::add_buf" [enc_BuzState h; vbytes data; enc_Buz hv p; vsize i] =
  as_out (fun h' => ([enc_BuzState h'; vbytes data; enc_Buz hv p; vsize i], VUnit)) (buz_add_buf p h data i).
Proof.
  start. enter. unfold buz_add_buf. destruct (bz_k p <=? i)%nat eqn:Ek.
  - replace (Z.of_nat (bz_k p) <=? Z.of_nat i) with true by lia. reduce.
    replace (0 <=? Z.of_nat i - Z.of_nat (bz_k p)) with true by lia. reduce.
    unfold index. rewrite (nth_vbyte _ _ (i - bz_k p)) by lia.
    destruct (nth_error data (i - bz_k p)) as [r|]; unfold option_map, bind at 1; reduce; [|reflexivity].
    rewrite (nth_vbyte _ _ i) by lia.
    destruct (nth_error data i) as [a|]; unfold option_map, bind at 1; reduce; [|reflexivity].
    change (VInt U8 (b2z a)) with (vbyte a). change (VInt U8 (b2z r)) with (vbyte r).
    rewrite src_buz_add_overflow by lia. destruct (buz_add_overflow p h a r); unfold as_out; reduce; reflexivity.
  - replace (Z.of_nat (bz_k p) <=? Z.of_nat i) with false by lia. reduce.
    unfold index. rewrite (nth_vbyte _ _ i) by lia.
    destruct (nth_error data i) as [a|]; unfold option_map, bind at 1; reduce; [|reflexivity].
    change (VInt U8 (b2z a)) with (vbyte a).
    rewrite src_buz_add by lia. destruct (buz_add p h a); unfold as_out; reduce; reflexivity.
Qed.

(** ** find_chunk_edge *)

Lemma src_buz_find_chunk_edge n s data : (100 <= n)%nat -> Z.of_nat (length data) < 2 ^ 64 ->
  call (crate u) n "BuzHash::find_chunk_edge" [enc_Buz hv p; enc_BuzSearch s; vbytes data] =
  as_out (fun '(s', (o, k)) => ([enc_Buz hv p; enc_BuzSearch s'; vbytes data], VPair (vopt o) (vsize k)))
    (find_chunk_edge (buz_chunk p) s data).
Proof.
  intros Hn Hd. start. enter.
  sim_range (fun _ : BuzHashSearchState => True)
    (fun s' => [("self"%string, enc_Buz hv p); ("state"%string, enc_BuzSearch s'); ("data"%string, vbytes data)])
    (fun k => VPair (VSome (vsize k)) (vsize k)) (buz_fce_body p data) (bzs_offset s) (length data - bzs_offset s)%nat s.
  2: exact I.
  { intros s' i _ Hi. split; [|tauto]. unfold lock. reduce. change (VInt Usize (Z.of_nat i)) with (vsize i).
    rewrite src_buz_add_buf by lia. unfold buz_fce_body.
    destruct (buz_add_buf p (bzs_state s') data i) as [h| |]; unfold as_out, bind; reduce; try reflexivity.
    destruct (Z.land h (bz_mask p) =? bz_mask p); unfold lift_ctl; reduce; [|reflexivity].
    rewrite (src_buz_search_reset _ {| bzs_offset := bzs_offset s'; bzs_state := h |}) by lia.
    reduce. cases. agree. }
  cbn [find_chunk_edge buz_chunk]. unfold buz_find_chunk_edge.
  destruct (for_range _ _ _ s) as [[s'|s' k|s']| |]; unfold lift_loop, bind, as_out; reduce; rewrite ?map_length; cases.
  all: try (unfold enc_BuzSearch; cbn [bzs_state bzs_offset]; agree).
Qed.

(** ** push *)

Ltac push_tail v :=
  lazymatch goal with
  | Hb : Z.of_nat (length (bzi_buf ?s)) < 2 ^ 64 |- _ =>
      change (VInt U8 (b2z v)) with (vbyte v); rewrite map_length, Nat2Z.id; unfold store;
      destruct (bzi_buf_idx s <? length (bzi_buf s))%nat eqn:Ei;
      [ replace (Z.of_nat (bzi_buf_idx s) <? Z.of_nat (length (bzi_buf s))) with true by lia
      | replace (Z.of_nat (bzi_buf_idx s) <? Z.of_nat (length (bzi_buf s))) with false by lia; reduce; reflexivity ];
      reduce; change (VInt U8 (b2z v)) with (vbyte v); rewrite (set_nth_map vbyte (bzi_buf s) (bzi_buf_idx s) v);
      rewrite (small_mod (Z.of_nat (bzi_buf_idx s) + 1)) by lia
  end.

Ltac push_end :=
  lazymatch goal with
  | p : BuzHash |- _ =>
      unfold rem_usize; destruct (bz_k p) as [|k'] eqn:Ek0; reduce; [reflexivity|];
      replace (Z.of_nat (S k') =? 0) with false by lia; reduce; unfold add_u64; change two64 with (2 ^ 64); cases; try reflexivity;
      unfold enc_BuzIncr, vbytes; cbn [bzi_state bzi_buf bzi_buf_idx bzi_input_idx];
      rewrite Nat2Z.inj_mod, Nat2Z.inj_add; reflexivity
  end.

Lemma src_buz_push_byte n s v : (80 <= n)%nat ->
  Z.of_nat (bz_k p) < 2 ^ 64 -> Z.of_nat (length (bzi_buf s)) < 2 ^ 64 ->
  call (crate u) n "BuzHashIncr::push_byte" [enc_BuzIncr hv p s; vbyte v] =
  as_out (fun s' => ([enc_BuzIncr hv p s'; vbyte v], VUnit)) (buz_push_byte p s v).
Proof.
  intros Hn Hk Hb. start. enter. rewrite (small_mod (Z.of_nat (bz_k p))) by lia. unfold buz_push_byte.
  destruct (Z.of_nat (bz_k p) <=? bzi_input_idx s) eqn:Ek; reduce.
  - unfold index. rewrite (nth_vbyte _ _ (bzi_buf_idx s)) by lia.
    destruct (nth_error (bzi_buf s) (bzi_buf_idx s)) as [o|]; unfold option_map, bind; reduce; [|reflexivity].
    change (VInt U8 (b2z v)) with (vbyte v). change (VInt U8 (b2z o)) with (vbyte o).
    rewrite src_buz_add_overflow by lia. destruct (buz_add_overflow p (bzi_state s) v o) as [h| |]; unfold as_out; reduce;
      try reflexivity.
    push_tail v.
    push_end.
  - change (VInt U8 (b2z v)) with (vbyte v).
    rewrite src_buz_add by lia. destruct (buz_add p (bzi_state s) v) as [h| |]; unfold as_out, bind; reduce;
      try reflexivity.
    push_tail v. push_end.
Qed.

Lemma buz_push_byte_buf s v s' : buz_push_byte p s v = Ok s' -> length (bzi_buf s') = length (bzi_buf s).
Proof.
  unfold buz_push_byte, store. destruct (if _ <=? _ then _ else _); [|discriminate..]. cbn [bind].
  destruct (_ <? _)%nat; [|discriminate]. cbn [bind]. destruct (rem_usize _ _); [|discriminate..]. cbn [bind].
  destruct (add_u64 _ _); [|discriminate..]. cbn [bind]. intros [= <-]. apply length_set_nth.
Qed.

Lemma src_buz_push n s data : (100 <= n)%nat ->
  Z.of_nat (bz_k p) < 2 ^ 64 -> Z.of_nat (length (bzi_buf s)) < 2 ^ 64 -> Z.of_nat (length data) < 2 ^ 64 ->
  call (crate u) n "BuzHashIncr::push" [enc_BuzIncr hv p s; vbytes data] =
  as_out (fun '(s', o) => ([enc_BuzIncr hv p s'; vbytes data], vopt o)) (incr_push (buz_incr p) s data).
Proof.
  intros Hn Hk Hb Hd. start. enter.
  sim_enum (fun s' : BuzHashIncr => Z.of_nat (length (bzi_buf s')) < 2 ^ 64)
    (fun s' => [("self"%string, enc_BuzIncr hv p s'); ("data"%string, vbytes data)])
    (fun k => VSome (vsize k)) vbyte (buz_push_body p) data s.
  3: lia. 2: exact Hb.
  { intros s' i x Hb' Hi. unfold lock. reduce. change (VInt U8 (b2z x)) with (vbyte x).
    rewrite src_buz_push_byte by (assumption || lia). unfold buz_push_body.
    destruct (buz_push_byte p s' x) as [s1| |] eqn:E; unfold as_out, bind; reduce; [|split; [reflexivity|discriminate]..].
    destruct (Z.land (bzi_state s1) (bz_mask p) =? bz_mask p); unfold lift_ctl; reduce.
    - rewrite src_buz_incr_reset by lia. reduce. split; [|discriminate]. cases. agree.
    - destruct (bz_max_chunk_size p <? bzi_input_idx s1); reduce.
      + rewrite src_buz_incr_reset by lia. reduce. split; [|discriminate]. cases. agree.
      + split; [reflexivity|]. intros s2 [= <-]. rewrite (buz_push_byte_buf _ _ _ E). assumption. }
  cbn [incr_push buz_incr]. unfold buz_push.
  destruct (for_enum (buz_push_body p) 0 data s) as [[s'|s' k|s']| |]; unfold lift_loop, bind, as_out; reduce; reflexivity.
Qed.

End Hash.
End Crate.
