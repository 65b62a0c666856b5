(** * RustZstd: the text of src/zstd.rs computes what the model in Zstd.v computes. *)

From Coq Require Import String ZifyBool ZifyNat.
From Verif Require Import Base Api Lists Zstd ZstdProofs Rust RustText RustSim.
Open Scope list_scope.
Open Scope Z_scope.

Definition enc_Zstd (p : Zstd) : value :=
  VStruct "Zstd" [("hit_mask"%string, VInt U64 (zd_hit_mask p)); ("prime_power"%string, VInt U64 (zd_prime_power p))].
Definition enc_ZstdState (h : ZstdState) : value := VStruct "ZstdState" [("hash"%string, VWrap U64 h)].
Definition enc_ZstdSearch (s : ZstdSearchState) : value :=
  VStruct "ZstdSearchState" [("state"%string, enc_ZstdState (zss_state s)); ("offset"%string, vsize (zss_offset s))].
(** [input_offs] stays 0. *)
Definition enc_ZstdIncr (p : Zstd) (s : ZstdIncr) : value :=
  VStruct "ZstdIncr" [("params"%string, enc_Zstd p); ("state"%string, enc_ZstdState (zi_state s));
                      ("window"%string, vbytes (zi_window s)); ("window_offs"%string, vsize (zi_window_offs s));
                      ("window_full"%string, VBool (zi_window_full s)); ("input_offs"%string, VInt U64 0)].

Ltac reduce_hook ::=
  cbn beta iota zeta delta
    [enc_Zstd enc_ZstdState enc_ZstdSearch enc_ZstdIncr type_of get_field set_field get_index set_index assoc assoc_set
     String.eqb Ascii.eqb Bool.eqb obind zd_hit_mask zd_prime_power zss_state zss_offset zi_state zi_window zi_window_offs
     zi_window_full].

Section Crate.
Variable u : program.

(** ** Construction *)

Lemma src_zstd_with_target n t : (60 <= n)%nat -> 0 <= t < 2 ^ 64 ->
  call (crate u) n "Zstd::with_target_section_size" [VInt U64 t] =
  as_out (fun p => ([VInt U64 t], enc_Zstd p)) (zstd_with_target_section_size t).
Proof.
  intros Hn Ht. start. run. unfold zstd_with_target_section_size, try_into_u32, rust_assert.
  change two32 with (2 ^ 32). destruct (Z.shiftr t 20 <? 2 ^ 32) eqn:E; unfold bind at 1; reduce; [|reflexivity].
  destruct (Z.shiftr t 20 =? 0) eqn:E0; unfold bind at 1; reduce; [reflexivity|].
  unfold leading_zeros_u32. rewrite E0.
  assert (Hl : 0 <= Z.log2 (Z.shiftr t 20) <= 31).
  { split; [apply Z.log2_nonneg|]. apply Z.lt_succ_r. apply Z.log2_lt_pow2; [|lia].
    pose proof (proj2 (Z.shiftr_nonneg t 20) (proj1 Ht)). lia. }
  rewrite lxor_31 by assumption. unfold shl_u64, sub_u64, wrap64. change two64 with (2 ^ 64).
  replace (Z.log2 (Z.shiftr t 20) + 20 <? 2 ^ 32) with true by lia. reduce.
  replace (Z.log2 (Z.shiftr t 20) + 20 <? 64) with true by lia. reduce.
  replace (0 <=? Z.log2 (Z.shiftr t 20) + 20) with true by lia. unfold andb, bind.
  cases.
Qed.

Lemma src_zstd_default n : (80 <= n)%nat -> call (crate u) n "Zstd::default" [] = as_out (fun p => ([], enc_Zstd p)) zstd_default.
Proof.
  start. enter. rewrite src_zstd_with_target by lia. unfold zstd_default. change (Z.shiftl 8 20) with 8388608.
  destruct (zstd_with_target_section_size 8388608); unfold as_out; reduce; reflexivity.
Qed.

Lemma src_zstd_state_default n : (20 <= n)%nat -> call (crate u) n "ZstdState::default" [] = Done ([], enc_ZstdState 0).
Proof. start. enter. reflexivity. Qed.

Lemma src_zstd_search_default n : (40 <= n)%nat ->
  call (crate u) n "ZstdSearchState::default" [] = Done ([], enc_ZstdSearch zstd_search_default).
Proof. start. enter. rewrite src_zstd_state_default by lia. reduce. reflexivity. Qed.

Lemma src_zstd_to_search_state n p : (60 <= n)%nat ->
  call (crate u) n "Zstd::to_search_state" [enc_Zstd p] = Done ([enc_Zstd p], enc_ZstdSearch (to_search_state (zstd_chunk p))).
Proof. start. enter. rewrite src_zstd_search_default by lia. reduce. reflexivity. Qed.

Lemma src_zstd_incr_from n p : (40 <= n)%nat ->
  call (crate u) n "ZstdIncr::from<Zstd>" [enc_Zstd p] = Done ([enc_Zstd p], enc_ZstdIncr p zstd_incr_new).
Proof. start. enter. rewrite src_zstd_state_default by lia. reduce. run. reflexivity. Qed.

Lemma src_zstd_incr_from_ref n p : (60 <= n)%nat ->
  call (crate u) n "ZstdIncr::from<&Zstd>" [enc_Zstd p] = Done ([enc_Zstd p], enc_ZstdIncr p zstd_incr_new).
Proof. start. enter. rewrite src_zstd_incr_from by lia. reduce. reflexivity. Qed.

Lemma src_zstd_to_chunk_incr n p : (80 <= n)%nat ->
  call (crate u) n "Zstd::to_chunk_incr" [enc_Zstd p] = Done ([enc_Zstd p], enc_ZstdIncr p (incr_new (zstd_incr p))).
Proof. start. enter. rewrite src_zstd_incr_from_ref by lia. reduce. reflexivity. Qed.

(** ** The hash *)

(** The body of the loop of [ZstdState::append]. *)
Definition append_body (h : ZstdState) (_ : nat) (b : byte) : res (ctl ZstdState nat) := Ok (Next (zstd_append_byte h b)).

Lemma append_loop l : forall i h, for_enum append_body i l h = Ok (Next (zstd_append h l)).
Proof. induction l as [|b l IH]; intros i h; [reflexivity|]. cbn [for_enum]. unfold append_body at 1. cbn [bind]. apply IH. Qed.

Lemma src_zstd_append n h data : (40 <= n)%nat ->
  call (crate u) n "ZstdState::append" [enc_ZstdState h; vbytes data] =
  Done ([enc_ZstdState (zstd_append h data); vbytes data], VUnit).
Proof.
  start. enter.
  sim_enum (fun _ : ZstdState => True) (fun h' => [("self"%string, enc_ZstdState h'); ("data"%string, vbytes data)])
    (fun _ : nat => VUnit) vbyte append_body data h.
  3: lia. 2: exact I.
  { intros h' i x _ Hi. split; [|tauto]. unfold lock. reduce. run. rewrite byte_mod by lia. reflexivity. }
  rewrite append_loop. unfold lift_loop. reduce. reflexivity.
Qed.

Lemma src_zstd_rotate n h r a pp : (40 <= n)%nat ->
  call (crate u) n "ZstdState::rotate" [enc_ZstdState h; vbyte r; vbyte a; VInt U64 pp] =
  Done ([enc_ZstdState (zstd_rotate h r a pp); vbyte r; vbyte a; VInt U64 pp], VUnit).
Proof. start. run. rewrite !byte_mod by lia. reflexivity. Qed.

Lemma src_zstd_at_split n h p : (20 <= n)%nat ->
  call (crate u) n "ZstdState::at_split" [enc_ZstdState h; enc_Zstd p] =
  Done ([enc_ZstdState h; enc_Zstd p], VBool (zstd_at_split p h)).
Proof. start. run. reflexivity. Qed.

Lemma src_zstd_search_append n s data : (60 <= n)%nat ->
  call (crate u) n "ZstdSearchState::append" [enc_ZstdSearch s; vbytes data] =
  Done ([enc_ZstdSearch {| zss_state := zstd_append (zss_state s) data; zss_offset := zss_offset s |}; vbytes data], VUnit).
Proof. start. enter. rewrite src_zstd_append by lia. reduce. reflexivity. Qed.

Lemma src_zstd_search_rotate n s r a pp : (60 <= n)%nat ->
  call (crate u) n "ZstdSearchState::rotate" [enc_ZstdSearch s; vbyte r; vbyte a; VInt U64 pp] =
  Done ([enc_ZstdSearch {| zss_state := zstd_rotate (zss_state s) r a pp; zss_offset := zss_offset s |}; vbyte r; vbyte a;
         VInt U64 pp], VUnit).
Proof.
  start. enter. change (VInt U8 (b2z r)) with (vbyte r). change (VInt U8 (b2z a)) with (vbyte a).
  rewrite src_zstd_rotate by lia. reduce. reflexivity.
Qed.

Lemma src_zstd_search_at_split n s p : (40 <= n)%nat ->
  call (crate u) n "ZstdSearchState::at_split" [enc_ZstdSearch s; enc_Zstd p] =
  Done ([enc_ZstdSearch s; enc_Zstd p], VBool (zstd_at_split p (zss_state s))).
Proof. start. enter. rewrite src_zstd_at_split by lia. reduce. reflexivity. Qed.

Lemma src_rsync_length n : (20 <= n)%nat -> call (crate u) n "RSYNC_LENGTH" [] = Done ([], vsize RSYNC_LENGTH).
Proof. start. enter. reflexivity. Qed.

(** ** find_chunk_edge *)

Ltac fce_rest p h0 off data :=
  sim_range (fun _ : ZstdState => True)
    (fun h => [("self"%string, enc_Zstd p);
               ("state"%string, enc_ZstdSearch {| zss_state := h; zss_offset := off |}); ("data"%string, vbytes data)])
    (fun k => VPair (VSome (vsize k)) (vsize (length data - RSYNC_LENGTH))) (zstd_fce_body p data) off
    (length data - off)%nat h0;
  [ | exact I | ];
  [ let h := fresh "h" in let i := fresh "i" in let Hi := fresh "Hi" in
    intros h i _ Hi; split; [|tauto]; unfold lock; reduce; rewrite src_rsync_length by lia; reduce;
    change (Z.of_nat RSYNC_LENGTH) with 32; unfold zstd_fce_body, sub_usize, index, RSYNC_LENGTH;
    destruct (32 <=? i)%nat eqn:?; unfold bind at 1;
    [ replace (32 <=? Z.of_nat i) with true by lia; reduce; rewrite (nth_vbyte _ _ (i - 32)) by lia;
      let r := fresh "r" in destruct (nth_error data (i - 32)) as [r|]; unfold option_map, bind at 1; reduce; [|reflexivity];
      rewrite (nth_vbyte _ _ i) by lia;
      let a := fresh "a" in destruct (nth_error data i) as [a|]; unfold option_map, bind; reduce; [|reflexivity];
      change (VInt U8 (b2z r)) with (vbyte r); change (VInt U8 (b2z a)) with (vbyte a);
      rewrite (src_zstd_search_rotate _ {| zss_state := h; zss_offset := off |} r a) by lia; reduce;
      rewrite (src_zstd_search_at_split _ {| zss_state := zstd_rotate h r a (zd_prime_power p); zss_offset := off |}) by lia; reduce;
      destruct (zstd_at_split p (zstd_rotate h r a (zd_prime_power p))); unfold lift_ctl; reduce; [|reflexivity];
      rewrite src_rsync_length by lia; reduce; rewrite map_length; cases; unfold RSYNC_LENGTH; agree
    | replace (32 <=? Z.of_nat i) with false by lia; reduce; reflexivity ]
  | destruct (for_range (zstd_fce_body p data) off (length data - off) h0) as [[?h|?h ?k|?h]| |]; unfold lift_loop, bind, as_out;
    reduce; try reflexivity; rewrite src_rsync_length by lia; reduce; rewrite map_length; cases;
    unfold RSYNC_LENGTH in *; unfold enc_ZstdSearch; cbn [zss_state zss_offset]; agree ].

Lemma src_zstd_find_chunk_edge n p s data : (100 <= n)%nat -> Z.of_nat (length data) < 2 ^ 64 - 32 ->
  call (crate u) n "Zstd::find_chunk_edge" [enc_Zstd p; enc_ZstdSearch s; vbytes data] =
  as_out (fun '(s', (o, k)) => ([enc_Zstd p; enc_ZstdSearch s'; vbytes data], VPair (vopt o) (vsize k)))
    (find_chunk_edge (zstd_chunk p) s data).
Proof.
  intros Hn Hd. start. enter. rewrite src_rsync_length by lia. reduce. cbn [find_chunk_edge zstd_chunk]. unfold zstd_find_chunk_edge.
  change (Z.of_nat RSYNC_LENGTH) with 32. destruct (zss_offset s <? RSYNC_LENGTH)%nat eqn:E.
  - replace (Z.of_nat (zss_offset s) <? 32) with true by (unfold RSYNC_LENGTH in E; lia). reduce.
    rewrite src_rsync_length by lia. reduce.
    rewrite (slice_bytes data _ _ (zss_offset s) (Nat.min RSYNC_LENGTH (length data)))
      by (unfold RSYNC_LENGTH; rewrite ?map_length; lia).
    destruct (sub_slice data (zss_offset s) (Nat.min RSYNC_LENGTH (length data))) as [seed| |] eqn:Es; unfold bind at 2; reduce;
      [|reflexivity|exfalso; unfold sub_slice in Es; destruct (_ && _); discriminate].
    rewrite src_zstd_search_append by lia. reduce.
    assert (Hseed : length seed = (Nat.min RSYNC_LENGTH (length data) - zss_offset s)%nat).
    { apply (sub_slice_len _ _ _ _ Es). }
    rewrite map_length. unfold RSYNC_LENGTH in E, Hseed.
    replace (Z.of_nat (zss_offset s) + Z.of_nat (length seed) <? 2 ^ 64) with true by lia. reduce.
    rewrite src_rsync_length by lia. reduce. unfold bind at 1. cbn [zss_offset zss_state].
    rewrite <- Nat2Z.inj_add. change (Z.of_nat RSYNC_LENGTH) with 32.
    destruct (zss_offset s + length seed <? RSYNC_LENGTH)%nat eqn:E1.
    + replace (Z.of_nat (zss_offset s + length seed) <? 32) with true by (unfold RSYNC_LENGTH in E1; lia). reduce. reflexivity.
    + replace (Z.of_nat (zss_offset s + length seed) <? 32) with false by (unfold RSYNC_LENGTH in E1; lia). reduce.
      fce_rest p (zstd_append (zss_state s) seed) (zss_offset s + length seed)%nat data.
  - replace (Z.of_nat (zss_offset s) <? 32) with false by (unfold RSYNC_LENGTH in E; lia). reduce. unfold bind at 1. rewrite E.
    fce_rest p (zss_state s) (zss_offset s) data.
Qed.

(** ** push *)

Lemma copy_bytes dst za zb src a b : za = Z.of_nat a -> zb = Z.of_nat b ->
  (if (za <=? zb) && (zb <=? Z.of_nat (length (map vbyte dst))) && (Z.of_nat (length (map vbyte src)) =? zb - za)
   then Done (VList (firstn (Z.to_nat za) (map vbyte dst) ++ map vbyte src ++ skipn (Z.to_nat zb) (map vbyte dst))) else Panics) =
  match copy_from_slice dst a b src with Ok l => Done (vbytes l) | _ => Panics end.
Proof.
  intros -> ->. unfold copy_from_slice, sub_slice. rewrite !map_length, !Nat2Z.id, skipn_map, firstn_map, <- !map_app.
  destruct (a <=? b)%nat eqn:E1, (b <=? length dst)%nat eqn:E2; cbn [andb bind];
    repeat match goal with |- context [(?x <=? ?y)%Z] => destruct (x <=? y) eqn:? end; try reflexivity; try lia.
  cbn [andb]. destruct (length src =? b - a)%nat eqn:E3, (Z.of_nat (length src) =? Z.of_nat b - Z.of_nat a) eqn:E4; try reflexivity; lia.
Qed.

Ltac push_rest p s1 use_len data :=
  unfold zstd_push_rotate;
  rewrite (slice_bytes data _ _ use_len (length data)) by (rewrite ?map_length; lia);
  let tail := fresh "tail" in let Et := fresh "Et" in
  destruct (sub_slice data use_len (length data)) as [tail| |] eqn:Et; unfold bind at 1; reduce;
    [|reflexivity|exfalso; unfold sub_slice in Et; destruct (_ && _); discriminate];
  apply sub_slice_len in Et;
  sim_enum (fun s' : ZstdIncr => Z.of_nat (length (zi_window s')) < 2 ^ 64)
    (fun s' => [("use_len"%string, vsize use_len); ("self"%string, enc_ZstdIncr p s'); ("data"%string, vbytes data)])
    (fun k => VSome (vsize k)) vbyte (zstd_push_body p use_len) tail s1;
  [ let s' := fresh "s'" in let i := fresh "i" in let x := fresh "x" in let Hw' := fresh "Hw'" in let Hi := fresh "Hi" in
    intros s' i x Hw' Hi; unfold lock; reduce; unfold zstd_push_body, index;
    rewrite (nth_vbyte _ _ (zi_window_offs s')) by lia;
    let r := fresh "r" in let Er := fresh "Er" in
    destruct (nth_error (zi_window s') (zi_window_offs s')) as [r|] eqn:Er; unfold option_map, bind; reduce;
      [|split; [reflexivity|discriminate]];
    let Hlt := fresh "Hlt" in
    pose proof (proj1 (nth_error_Some (zi_window s') (zi_window_offs s')) ltac:(rewrite Er; discriminate)) as Hlt;
    change (VInt U8 (b2z r)) with (vbyte r); change (VInt U8 (b2z x)) with (vbyte x);
    rewrite src_zstd_rotate by lia; reduce; unfold store;
    replace (zi_window_offs s' <? length (zi_window s'))%nat with true by (symmetry; apply Nat.ltb_lt; exact Hlt);
    rewrite map_length, Nat2Z.id;
    replace (Z.of_nat (zi_window_offs s') <? Z.of_nat (length (zi_window s'))) with true by lia; reduce;
    change (VInt U8 (b2z x)) with (vbyte x);
    rewrite (set_nth_map vbyte (zi_window s') (zi_window_offs s') x), ?map_length, ?length_set_nth;
    replace (Z.of_nat (zi_window_offs s') + 1 <? 2 ^ 64) with true by lia; reduce;
    rewrite map_length, length_set_nth;
    let w := fresh "w" in let Ew := fresh "Ew" in
    destruct (length (zi_window s')) as [|w] eqn:Ew; [lia|];
    replace (Z.of_nat (S w) =? 0) with false by lia; reduce;
    replace ((Z.of_nat (zi_window_offs s') + 1) mod Z.of_nat (S w)) with (Z.of_nat ((zi_window_offs s' + 1) mod S w))
      by (rewrite Nat2Z.inj_mod, Nat2Z.inj_add; reflexivity);
    rewrite src_zstd_at_split by lia; reduce;
    destruct (zstd_at_split p (zstd_rotate (zi_state s') r x (zd_prime_power p))); unfold lift_ctl; reduce;
    [ split; [cases; agree|discriminate]
    | split; [reflexivity|]; let s2 := fresh "s2" in intros s2 [= <-]; cbn [zi_window]; rewrite length_set_nth, Ew; assumption ]
  | assumption | lia
  | destruct (for_enum (zstd_push_body p use_len) 0 tail s1) as [[?s'|?s' ?k|?s']| |]; unfold lift_loop, bind, as_out; reduce; reflexivity ].

Lemma src_zstd_push n p s data : (80 <= n)%nat ->
  Z.of_nat (length (zi_window s)) < 2 ^ 64 -> Z.of_nat (length data) < 2 ^ 64 ->
  call (crate u) n "ZstdIncr::push" [enc_ZstdIncr p s; vbytes data] =
  as_out (fun '(s', o) => ([enc_ZstdIncr p s'; vbytes data], vopt o)) (incr_push (zstd_incr p) s data).
Proof.
  intros Hn Hw Hd. start. enter. cbn [incr_push zstd_incr]. unfold zstd_push. destruct (zi_window_full s) eqn:Ef; cbn [negb]; reduce.
  - push_rest p s 0%nat data.
  - rewrite map_length. unfold sub_usize. destruct (zi_window_offs s <=? length (zi_window s))%nat eqn:Eo; unfold bind at 1; reduce.
    + replace (Z.of_nat (zi_window_offs s) <=? Z.of_nat (length (zi_window s))) with true by lia. reduce.
      rewrite map_length.
      set (use_len := Nat.min (length (zi_window s) - zi_window_offs s) (length data)).
      replace (Z.min (Z.of_nat (length (zi_window s)) - Z.of_nat (zi_window_offs s)) (Z.of_nat (length data))) with (Z.of_nat use_len) by lia.
      replace (Z.of_nat (zi_window_offs s) + Z.of_nat use_len <? 2 ^ 64) with true by lia. reduce.
      rewrite (slice_bytes data 0 (Z.of_nat use_len) 0 use_len) by reflexivity.
      destruct (sub_slice data 0 use_len) as [src| |] eqn:Es; unfold bind at 1; reduce;
        [|reflexivity|exfalso; unfold sub_slice in Es; destruct (_ && _); discriminate].
      rewrite (copy_bytes (zi_window s) _ _ src (zi_window_offs s) (zi_window_offs s + use_len)) by lia.
      assert (Hc : forall win, copy_from_slice (zi_window s) (zi_window_offs s) (zi_window_offs s + use_len) src = Ok win ->
                length win = length (zi_window s)).
      { intros win. unfold copy_from_slice, sub_slice. destruct (_ && _) eqn:Eb; cbn [bind]; [|discriminate].
        destruct (Nat.eqb _ _) eqn:El; intros [= <-]. rewrite !app_length, firstn_length, skipn_length. lia. }
      destruct (copy_from_slice (zi_window s) (zi_window_offs s) (zi_window_offs s + use_len) src) as [win| |] eqn:Ew; unfold bind at 1; reduce;
        [|reflexivity|exfalso; unfold copy_from_slice, sub_slice in Ew; destruct (_ && _); cbn [bind] in Ew; try discriminate; destruct (Nat.eqb _ _); discriminate].
      specialize (Hc win eq_refl).
      replace (Z.of_nat (zi_window_offs s) + Z.of_nat use_len <? 2 ^ 64) with true by lia. reduce.
      rewrite map_length.
      replace (Z.of_nat (zi_window_offs s) + Z.of_nat use_len =? Z.of_nat (length win)) with (Nat.eqb (zi_window_offs s + use_len) (length win)) by lia.
      destruct (Nat.eqb (zi_window_offs s + use_len) (length win)) eqn:Ee; cbn [negb]; reduce.
      * rewrite (src_zstd_append _ (zi_state s) win) by lia. reduce.
        set (s1 := {| zi_state := zstd_append (zi_state s) win; zi_window := win; zi_window_offs := 0; zi_window_full := true |}).
        assert (Hw1 : Z.of_nat (length (zi_window s1)) < 2 ^ 64) by (cbn [s1 zi_window]; lia).
        change (VStruct "ZstdIncr"
          [("params"%string, enc_Zstd p); ("state"%string, enc_ZstdState (zstd_append (zi_state s) win)); ("window"%string, vbytes win);
           ("window_offs"%string, VInt Usize 0); ("window_full"%string, VBool true); ("input_offs"%string, VInt U64 0)])
          with (enc_ZstdIncr p s1).
        push_rest p s1 use_len data.
      * rewrite Ef. unfold as_out. cbv beta iota. unfold enc_ZstdIncr. cbn [zi_state zi_window zi_window_offs zi_window_full vopt]. unfold vsize. rewrite Nat2Z.inj_add. reflexivity.
    + replace (Z.of_nat (zi_window_offs s) <=? Z.of_nat (length (zi_window s))) with false by lia. reduce. reflexivity.
Qed.

End Crate.
