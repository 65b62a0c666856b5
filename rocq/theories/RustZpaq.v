(** * RustZpaq: the text of src/zpaq.rs computes what the model in Zpaq.v computes. *)

From Coq Require Import String ZifyBool ZifyNat.
From Verif Require Import Base Api Lists Range Zpaq Float Rust RustText RustSim RustRange.
Open Scope list_scope.
Open Scope Z_scope.

Definition enc_Zpaq (p : Zpaq) : value :=
  VStruct "Zpaq" [("range"%string, enc_range (zq_range p)); ("max_hash"%string, VInt U32 (zq_max_hash p))].
Definition enc_ZpaqHash (h : ZpaqHash) : value :=
  VStruct "ZpaqHash" [("hash"%string, VWrap U32 (zh_hash h)); ("last_byte"%string, vbyte (zh_last_byte h));
                      ("predicted_byte"%string, vbytes (zh_predicted_byte h))].
Definition enc_ZpaqSearch (s : ZpaqState) : value :=
  VStruct "ZpaqSearchState" [("state"%string, enc_ZpaqHash (zs_state s)); ("idx"%string, VInt U64 (zs_idx s))].
Definition enc_ZpaqIncr (p : Zpaq) (s : ZpaqState) : value :=
  VStruct "ZpaqIncr" [("params"%string, enc_Zpaq p); ("state"%string, enc_ZpaqHash (zs_state s));
                      ("idx"%string, VInt U64 (zs_idx s))].

Ltac reduce_hook ::=
  cbn beta iota zeta delta
    [enc_Zpaq enc_ZpaqHash enc_ZpaqSearch enc_ZpaqIncr enc_range VPair type_of get_field set_field get_index set_index assoc assoc_set
     String.eqb Ascii.eqb Bool.eqb obind zq_range zq_max_hash zh_hash zh_last_byte zh_predicted_byte zs_state zs_idx].

(** [fragment_ave_from_max] as floating-point arithmetic computes it. *)
Definition float_fn (frag : Z -> Z) : code := Given [("max"%string, false)] (fun vs =>
  match vs with [VInt U64 m] => Done (vs, VInt U8 (frag m)) | _ => Stuck end).
Definition floats (u : program) : Prop := exists frag,
  u "Zpaq::fragment_ave_from_max"%string = Some (float_fn frag) /\ forall m, 0 <= m < 2 ^ 64 -> ave_computed m (frag m).

Definition fragment_ave_with (frag : Z -> Z) (r : range) : res Z :=
  match end_bound r with
  | Included i => Ok (frag i)
  | Excluded i => v <- sub_u64 i 1 ;; Ok (frag v)
  | Unbounded =>
      match start_bound r with
      | Included i => v <- mul_u64 64 i ;; Ok (frag v)
      | Excluded i => j <- add_u64 i 1 ;; v <- mul_u64 64 j ;; Ok (frag v)
      | Unbounded => Ok 16
      end
  end.

(** Where it differs from the model's, the constructors assert. *)
Lemma same_ave m f r : 0 <= m < 2 ^ 64 -> ave_computed m f -> 0 <= f /\ zpaq_with_average_and_range f r = zpaq_with_average_and_range (fragment_ave_from_max m) r.
Proof.
  intros Hm H. destruct (ave_spec m f Hm H) as [A B]. destruct (Z.lt_ge_cases m (2 ^ 45)) as [L|L].
  - rewrite (A L). split; [unfold fragment_ave_from_max; lia|reflexivity].
  - specialize (B L). split; [lia|].
    assert (33 <= fragment_ave_from_max m). { unfold fragment_ave_from_max. assert (45 <= Z.log2 m) by (apply Z.log2_le_pow2; lia). lia. }
    unfold zpaq_with_average_and_range, max_hash_from_fragment_ave, rust_assert.
    replace (f <=? 32) with false by lia. replace (fragment_ave_from_max m <=? 32) with false by lia. reflexivity.
Qed.

Lemma same_ave_range frag r : (forall m, 0 <= m < 2 ^ 64 -> ave_computed m (frag m)) -> word_range r ->
  (forall f, fragment_ave_with frag r = Ok f -> 0 <= f) /\
  bind (fragment_ave_with frag r) (fun f => zpaq_with_average_and_range f r) = zpaq_with_range r.
Proof.
  intros HF [W1 W2]. assert (S : forall m, 0 <= m < 2 ^ 64 -> 0 <= frag m /\ forall r, zpaq_with_average_and_range (frag m) r = zpaq_with_average_and_range (fragment_ave_from_max m) r).
  { intros m Hm. split; [apply (same_ave m _ r Hm (HF m Hm))|intros; apply (same_ave m _ _ Hm (HF m Hm))]. }
  assert (OI : forall a b : Z, Ok a = Ok b -> b = a) by congruence.
  unfold zpaq_with_range, fragment_ave_from_range, fragment_ave_with, add_u64, sub_u64, mul_u64. change two64 with (2 ^ 64) in *.
  destruct r as [[i|i|] [j|j|]]; cbn [start_bound end_bound fst snd] in *;
    repeat (unfold bind at 1; cbv beta iota); repeat match goal with |- context [if ?c then _ else _] => destruct c eqn:?; unfold bind; cbv beta iota end;
    split; try (intros f Ef; apply OI in Ef; subst f); try discriminate; try reflexivity; try lia; try (refine (proj1 (S _ _)); lia); try (refine (proj2 (S _ _) _); lia).
Qed.

Section Crate.
Variable u : program.

Lemma src_under_min_range n r item : (60 <= n)%nat ->
  call (crate u) n "R::under_min" [enc_range r; VInt U64 item] = Done ([enc_range r; VInt U64 item], VBool (under_min r item)).
Proof. intros. destruct r as [a b]. apply (src_under_min u n (RTuple a b)). assumption. Qed.
Lemma src_exceeds_max_range n r item : (60 <= n)%nat ->
  call (crate u) n "R::exceeds_max" [enc_range r; VInt U64 item] = Done ([enc_range r; VInt U64 item], VBool (exceeds_max r item)).
Proof. intros. destruct r as [a b]. apply (src_exceeds_max u n (RTuple a b)). assumption. Qed.

(** ** Construction *)

Section Float.
Variable frag : Z -> Z.
Hypothesis Hfrag : u "Zpaq::fragment_ave_from_max"%string = Some (float_fn frag).

Lemma src_fragment_ave_from_max n m : (20 <= n)%nat ->
  call (crate u) n "Zpaq::fragment_ave_from_max" [VInt U64 m] = Done ([VInt U64 m], VInt U8 (frag m)).
Proof. intros. enter. rewrite Hfrag. reflexivity. Qed.

Lemma src_fragment_ave_from_range n r : (60 <= n)%nat ->
  call (crate u) n "Zpaq::fragment_ave_from_range" [enc_range_value r] =
  as_out (fun f => ([enc_range_value r], VInt U8 f)) (fragment_ave_with frag (bounds_of r)).
Proof.
  start. unfold fragment_ave_with, add_u64, sub_u64, mul_u64.
  destruct r as [[?|?|] [?|?|]|? ?|? ?|?|?|?|]; cbn [enc_range_value enc_bound bounds_of start_bound end_bound fst snd];
    enter; change two64 with (2 ^ 64); cases; try reflexivity; unfold bind; cases; try reflexivity.
  all: rewrite src_fragment_ave_from_max by lia; rewrite Hfrag; unfold float_fn; reduce; reflexivity.
Qed.
End Float.

Lemma src_range_from_fragment_ave n f : (40 <= n)%nat ->
  call (crate u) n "Zpaq::range_from_fragment_ave" [VInt U8 f] =
  as_out (fun r => ([VInt U8 f], VCon ".." [match fst r with Included z => VInt U64 z | _ => VUnit end;
                                            match snd r with Excluded z => VInt U64 z | _ => VUnit end]))
    (range_from_fragment_ave f).
Proof.
  start. enter. unfold range_from_fragment_ave, rust_assert, shl_u64, bind. cases.
Qed.

(** The same, as a range of the standard library. *)
Lemma src_range_from_fragment_ave_value n f : (40 <= n)%nat ->
  exists rv, call (crate u) n "Zpaq::range_from_fragment_ave" [VInt U8 f] =
    as_out (fun r => ([VInt U8 f], enc_range_value rv)) (range_from_fragment_ave f) /\
    (forall r, range_from_fragment_ave f = Ok r -> bounds_of rv = r).
Proof.
  intros Hn. rewrite src_range_from_fragment_ave by assumption. unfold range_from_fragment_ave, rust_assert, shl_u64, bind.
  exists (RRange (wrap64 (Z.shiftl 64 (f - 10))) (wrap64 (Z.shiftl 8128 f))).
  repeat match goal with |- context [if ?c then _ else _] => destruct c end; (split; [reflexivity|]); intros r Hr;
    inversion Hr; reflexivity.
Qed.

Lemma src_range_from_max n m : (20 <= n)%nat ->
  call (crate u) n "Zpaq::range_from_max" [VInt U64 m] = Done ([VInt U64 m], enc_range_value (RRange (m / 64) m)) /\
  bounds_of (RRange (m / 64) m) = range_from_max m.
Proof. split; [start; enter|]; reflexivity. Qed.

Lemma src_max_hash_from_fragment_ave n f : (40 <= n)%nat -> 0 <= f ->
  call (crate u) n "Zpaq::max_hash_from_fragment_ave" [VInt U8 f] =
  as_out (fun h => ([VInt U8 f], VInt U32 h)) (max_hash_from_fragment_ave f).
Proof.
  intros Hn Hf. start. enter. unfold max_hash_from_fragment_ave, rust_assert, shl_u32, bind. cases.
Qed.

Lemma src_zpaq_with_average_and_range n f r : (80 <= n)%nat -> 0 <= f ->
  call (crate u) n "Zpaq::with_average_and_range" [VInt U8 f; enc_range_value r] =
  as_out (fun p => ([VInt U8 f; enc_range_value r], enc_Zpaq p)) (zpaq_with_average_and_range f (bounds_of r)).
Proof.
  intros Hn Hf. start. enter. rewrite type_of_range. reduce. rewrite src_into_tuple by lia. reduce.
  rewrite src_max_hash_from_fragment_ave by lia. unfold zpaq_with_average_and_range.
  destruct (max_hash_from_fragment_ave f); unfold as_out, bind; reduce; reflexivity.
Qed.

Lemma src_zpaq_with_range n r : (100 <= n)%nat -> floats u -> word_range (bounds_of r) ->
  call (crate u) n "Zpaq::with_range" [enc_range_value r] =
  as_out (fun p => ([enc_range_value r], enc_Zpaq p)) (zpaq_with_range (bounds_of r)).
Proof.
  intros Hn (frag & Hu & HF) Hr. destruct (same_ave_range frag _ HF Hr) as [S1 S2]. rewrite <- S2. revert Hn.
  start. enter.
rewrite (src_fragment_ave_from_range frag Hu) by lia.
  destruct (fragment_ave_with frag (bounds_of r)) as [f| |] eqn:E; unfold as_out at 1, bind; reduce; try reflexivity.
  specialize (S1 f eq_refl). rewrite src_zpaq_with_average_and_range by lia.
  destruct (zpaq_with_average_and_range f (bounds_of r)); unfold as_out; reduce; reflexivity.
Qed.

Lemma src_zpaq_with_average_size_pow_2 n f : (100 <= n)%nat -> 0 <= f ->
  call (crate u) n "Zpaq::with_average_size_pow_2" [VInt U8 f] =
  as_out (fun p => ([VInt U8 f], enc_Zpaq p)) (zpaq_with_average_size_pow_2 f).
Proof.
  intros Hn Hf. start. enter. unfold zpaq_with_average_size_pow_2.
  match goal with |- context [call_with _ (eval _ (lock ?k)) _ _] =>
    destruct (src_range_from_fragment_ave_value k f ltac:(lia)) as (rv & E & B) end.
  rewrite E. destruct (range_from_fragment_ave f) as [r| |]; unfold as_out at 1, bind; reduce; try reflexivity.
  rewrite src_zpaq_with_average_and_range by lia. rewrite (B r eq_refl).
  destruct (zpaq_with_average_and_range f r); unfold as_out; reduce; reflexivity.
Qed.

Lemma src_zpaq_with_max_size n m : (100 <= n)%nat -> floats u -> 0 <= m < 2 ^ 64 ->
  call (crate u) n "Zpaq::with_max_size" [VInt U64 m] =
  as_out (fun p => ([VInt U64 m], enc_Zpaq p)) (zpaq_with_max_size m).
Proof.
  intros Hn (frag & Hu & HF) Hm. unfold zpaq_with_max_size. destruct (same_ave m (frag m) (range_from_max m) Hm (HF m Hm)) as [P <-]. revert Hn.
  start. enter. rewrite (src_fragment_ave_from_max frag Hu) by lia. rewrite Hu. unfold float_fn. reduce. look. reduce.
  assert (E : forall k, (20 <= k)%nat -> call (crate u) k "Zpaq::range_from_max" [VInt U64 m] = Done ([VInt U64 m], enc_range_value (RRange (m / 64) m))) by (intros k Hk; apply src_range_from_max, Hk).
  rewrite E by lia. reduce. rewrite (src_zpaq_with_average_and_range _ _ (RRange (m / 64) m)) by lia. change (bounds_of (RRange (m / 64) m)) with (range_from_max m).
  destruct (zpaq_with_average_and_range (frag m) (range_from_max m)); unfold as_out; reduce; reflexivity.
Qed.

Lemma src_zpaq_default n : (120 <= n)%nat ->
  call (crate u) n "Zpaq::default" [] = as_out (fun p => ([], enc_Zpaq p)) zpaq_default.
Proof.
  start. enter. rewrite src_zpaq_with_average_size_pow_2 by lia. unfold zpaq_default.
  destruct (zpaq_with_average_size_pow_2 16); unfold as_out; reduce; reflexivity.
Qed.

(** ** The hash *)

Lemma src_zpaq_hash_default n : (20 <= n)%nat ->
  call (crate u) n "ZpaqHash::default" [] = Done ([], enc_ZpaqHash zpaq_hash_default).
Proof. start. enter. reflexivity. Qed.

Lemma b2z_eqb a b : (b2z a =? b2z b) = byte_eqb a b.
Proof. destruct (byte_eqb_spec a b) as [->|H]; [apply Z.eqb_refl|]. apply Z.eqb_neq. intros E. apply H, b2z_inj, E. Qed.

Lemma src_zpaq_hash_feed n s c : (60 <= n)%nat ->
  call (crate u) n "ZpaqHash::feed" [enc_ZpaqHash s; vbyte c] =
  as_out (fun s' => ([enc_ZpaqHash s'; vbyte c], VInt U32 (zh_hash s'))) (zpaq_hash_feed s c).
Proof.
  start. enter. rewrite !byte_mod by lia. unfold zpaq_hash_feed, index.
  rewrite (nth_vbyte _ _ (Z.to_nat (b2z (zh_last_byte s)))) by (pose proof (b2z_range (zh_last_byte s)); lia).
  destruct (nth_error (zh_predicted_byte s) (Z.to_nat (b2z (zh_last_byte s)))) as [pb|] eqn:Ep;
    unfold option_map, bind; reduce; [|reflexivity].
  rewrite b2z_eqb. unfold store. rewrite !byte_mod by lia.
  destruct (byte_eqb c pb); reduce; rewrite ?byte_mod by lia.
  all: rewrite map_length; pose proof (b2z_range (zh_last_byte s));
    change (VInt U8 (b2z c)) with (vbyte c);
    rewrite (set_nth_map vbyte (zh_predicted_byte s) (Z.to_nat (b2z (zh_last_byte s))) c); cases; reflexivity.
Qed.

Lemma ints_eqb_bytes a b : ints_eqb (map vbyte a) (map vbyte b) = Done (list_byte_eqb a b).
Proof.
  revert b. induction a as [|x a IH]; intros [|y b]; try reflexivity.
  cbn [map ints_eqb list_byte_eqb]. unfold vbyte. cbn [ity_eqb]. rewrite b2z_eqb. destruct (byte_eqb x y); [|reflexivity].
  apply IH.
Qed.

Lemma src_zpaq_hash_eq n a b : (40 <= n)%nat ->
  call (crate u) n "ZpaqHash::eq" [enc_ZpaqHash a; enc_ZpaqHash b] =
  Done ([enc_ZpaqHash a; enc_ZpaqHash b], VBool (zpaq_hash_eqb a b)).
Proof.
  start. enter. unfold zpaq_hash_eqb. destruct (zh_hash a =? zh_hash b); reduce; [|reflexivity].
  rewrite b2z_eqb. destruct (byte_eqb (zh_last_byte a) (zh_last_byte b)); reduce; [|reflexivity].
  rewrite ints_eqb_bytes. reduce. reflexivity.
Qed.

(** ** States *)

Lemma src_zpaq_search_default n : (40 <= n)%nat ->
  call (crate u) n "ZpaqSearchState::default" [] = Done ([], enc_ZpaqSearch zpaq_state_default).
Proof. start. enter. rewrite src_zpaq_hash_default by lia. reduce. reflexivity. Qed.

Lemma src_zpaq_search_from n p : (60 <= n)%nat ->
  call (crate u) n "ZpaqSearchState::from<&Zpaq>" [enc_Zpaq p] = Done ([enc_Zpaq p], enc_ZpaqSearch zpaq_state_default).
Proof. start. enter. rewrite src_zpaq_search_default by lia. reduce. reflexivity. Qed.

Lemma src_zpaq_to_search_state n p : (60 <= n)%nat ->
  call (crate u) n "Zpaq::to_search_state" [enc_Zpaq p] = Done ([enc_Zpaq p], enc_ZpaqSearch (to_search_state (zpaq_chunk p))).
Proof. start. enter. rewrite src_zpaq_search_default by lia. reduce. reflexivity. Qed.

Lemma src_zpaq_incr_from n p : (40 <= n)%nat ->
  call (crate u) n "ZpaqIncr::from<Zpaq>" [enc_Zpaq p] = Done ([enc_Zpaq p], enc_ZpaqIncr p zpaq_state_default).
Proof. start. enter. rewrite src_zpaq_hash_default by lia. reduce. reflexivity. Qed.

Lemma src_zpaq_incr_from_ref n p : (60 <= n)%nat ->
  call (crate u) n "ZpaqIncr::from<&Zpaq>" [enc_Zpaq p] = Done ([enc_Zpaq p], enc_ZpaqIncr p zpaq_state_default).
Proof. start. enter. rewrite src_zpaq_incr_from by lia. reduce. reflexivity. Qed.

Lemma src_zpaq_to_chunk_incr n p : (80 <= n)%nat ->
  call (crate u) n "Zpaq::to_chunk_incr" [enc_Zpaq p] = Done ([enc_Zpaq p], enc_ZpaqIncr p (incr_new (zpaq_incr p))).
Proof. start. enter. rewrite src_zpaq_incr_from_ref by lia. reduce. reflexivity. Qed.

Lemma src_zpaq_incr_reset n p s : (40 <= n)%nat ->
  call (crate u) n "ZpaqIncr::reset" [enc_ZpaqIncr p s] = Done ([enc_ZpaqIncr p (zpaq_state_reset s)], VUnit).
Proof. start. enter. rewrite src_zpaq_hash_default by lia. reduce. reflexivity. Qed.

Lemma src_zpaq_search_feed n s v : (80 <= n)%nat ->
  call (crate u) n "ZpaqSearchState::feed" [enc_ZpaqSearch s; vbyte v] =
  as_out (fun s' => ([enc_ZpaqSearch s'; vbyte v], VInt U32 (zh_hash (zs_state s')))) (zpaq_feed s v).
Proof.
  start. enter. unfold zpaq_feed, add_u64. change two64 with (2 ^ 64). destruct (zs_idx s + 1 <? 2 ^ 64); unfold bind at 1; reduce; [|reflexivity].
  change (VInt U8 (b2z v)) with (vbyte v). rewrite src_zpaq_hash_feed by lia.
  destruct (zpaq_hash_feed (zs_state s) v); unfold as_out, bind; reduce; reflexivity.
Qed.

Lemma src_zpaq_incr_feed n p s v : (80 <= n)%nat ->
  call (crate u) n "ZpaqIncr::feed" [enc_ZpaqIncr p s; vbyte v] =
  as_out (fun s' => ([enc_ZpaqIncr p s'; vbyte v], VInt U32 (zh_hash (zs_state s')))) (zpaq_feed s v).
Proof.
  start. enter. unfold zpaq_feed, add_u64. change two64 with (2 ^ 64). destruct (zs_idx s + 1 <? 2 ^ 64); unfold bind at 1; reduce; [|reflexivity].
  change (VInt U8 (b2z v)) with (vbyte v). rewrite src_zpaq_hash_feed by lia.
  destruct (zpaq_hash_feed (zs_state s) v); unfold as_out, bind; reduce; reflexivity.
Qed.

Lemma src_zpaq_split_here n p h i : (80 <= n)%nat ->
  call (crate u) n "Zpaq::split_here" [enc_Zpaq p; VInt U32 h; VInt U64 i] =
  Done ([enc_Zpaq p; VInt U32 h; VInt U64 i], VBool (zpaq_split_here p h i)).
Proof.
  start. enter. unfold zpaq_split_here. destruct (h <? zq_max_hash p); reduce.
  - rewrite src_under_min_range by lia. reduce. destruct (under_min (zq_range p) i); reduce; [|reflexivity].
    rewrite (src_exceeds_max_range _ (zq_range p) i) by lia. reduce. reflexivity.
  - rewrite (src_exceeds_max_range _ (zq_range p) i) by lia. reduce. reflexivity.
Qed.

(** ** push *)

Lemma src_zpaq_push n p s data : (100 <= n)%nat -> Z.of_nat (length data) < 2 ^ 64 ->
  call (crate u) n "ZpaqIncr::push" [enc_ZpaqIncr p s; vbytes data] =
  as_out (fun '(s', o) => ([enc_ZpaqIncr p s'; vbytes data], vopt o)) (incr_push (zpaq_incr p) s data).
Proof.
  intros Hn Hd. start. enter.
  sim_enum (fun _ : ZpaqState => True) (fun s' => [("self"%string, enc_ZpaqIncr p s'); ("data"%string, vbytes data)])
    (fun k => VSome (vsize k)) vbyte (zpaq_push_body p) data s.
  3: lia. 2: exact I.
  { intros s' i x _ Hi. split; [|tauto]. unfold lock. reduce. change (VInt U8 (b2z x)) with (vbyte x).
    rewrite src_zpaq_incr_feed by lia. unfold zpaq_push_body.
    destruct (zpaq_feed s' x) as [s1| |]; unfold as_out, bind, lift_ctl; reduce; try reflexivity.
    rewrite src_zpaq_split_here by lia. reduce. destruct (zpaq_split_here p (zh_hash (zs_state s1)) (zs_idx s1)); reduce; [|reflexivity].
    rewrite src_zpaq_incr_reset by lia. reduce. cases. agree. }
  cbn [incr_push zpaq_incr]. unfold zpaq_push.
  destruct (for_enum (zpaq_push_body p) 0 data s) as [[s'|s' k|s']| |]; unfold lift_loop, bind, as_out; reduce; reflexivity.
Qed.

(** ** find_chunk_edge *)

Lemma src_zpaq_find_chunk_edge n p s data : (100 <= n)%nat -> Z.of_nat (length data) < 2 ^ 64 -> 0 <= zs_idx s ->
  call (crate u) n "Zpaq::find_chunk_edge" [enc_Zpaq p; enc_ZpaqSearch s; vbytes data] =
  as_out (fun '(s', (o, k)) => ([enc_Zpaq p; enc_ZpaqSearch s'; vbytes data], VPair (vopt o) (vsize k)))
    (find_chunk_edge (zpaq_chunk p) s data).
Proof.
  intros Hn Hd Hs. start. enter.
  sim_enum (fun s' : ZpaqState => 0 <= zs_idx s')
    (fun s' => [("self"%string, enc_Zpaq p); ("state"%string, enc_ZpaqSearch s'); ("data"%string, vbytes data)])
    (fun k => VPair (VSome (vsize k)) (vsize k)) vbyte (zpaq_fce_body p) data s.
  3: lia. 2: assumption.
  { intros s' i x Hs' Hi. unfold lock. reduce. change (VInt U8 (b2z x)) with (vbyte x).
    rewrite src_zpaq_search_feed by lia. unfold zpaq_fce_body.
    destruct (zpaq_feed s' x) as [s1| |] eqn:E; unfold as_out, bind, lift_ctl; reduce; [|split; [reflexivity|discriminate]..].
    assert (Hs1 : 0 <= zs_idx s1).
    { unfold zpaq_feed, add_u64 in E. destruct (_ <? _); [|discriminate]. cbn [bind] in E.
      destruct (zpaq_hash_feed _ _); [|discriminate..]. injection E as <-. cbn [zs_idx]. lia. }
    unfold add_u64. change two64 with (2 ^ 64). destruct (zs_idx s1 + 1 <? 2 ^ 64) eqn:E1; reduce; [|split; [reflexivity|discriminate]].
    rewrite (small_mod (zs_idx s1 + 1)) by lia.
    rewrite src_zpaq_split_here by lia. reduce.
    destruct (zpaq_split_here p (zh_hash (zs_state s1)) (zs_idx s1 + 1)); reduce.
    - rewrite src_zpaq_to_search_state by lia. reduce. split; [|discriminate]. cases. agree.
    - split; [reflexivity|]. intros s2 [= <-]. assumption. }
  cbn [find_chunk_edge zpaq_chunk]. unfold zpaq_find_chunk_edge.
  destruct (for_enum (zpaq_fce_body p) 0 data s) as [[s'|s' k|s']| |]; unfold lift_loop, bind, as_out; reduce;
    rewrite ?map_length; reflexivity.
Qed.

End Crate.
