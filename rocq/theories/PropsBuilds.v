(** * PropsBuilds: C72, the source text built without overflow checks. *)

From Coq Require Import String ZifyBool ZifyNat.
From Verif Require Import Base Float Api Spec Tables Range Gear Pigz Zpaq Zstd ZstdProofs Builtin Release PropsRelease.
From Verif Require Import Rust RustText RustSim RustMeta RustLib RustConfig RustGear RustPigz RustRange RustZpaq RustZstd PropsSource.
Open Scope list_scope.
Open Scope Z_scope.

(** ** Any program *)

(** Once the fuel is enough, more of it changes nothing. *)
Theorem C72_more_fuel : forall prog n m f vs, (n <= m)%nat -> call prog n f vs <> NoFuel -> call prog m f vs = call prog n f vs.
Proof.
  intros prog n m f vs H N. destruct (upto_call_with False (eval prog (lock n)) (eval prog (lock m))) with (prog := prog) (f := f) (vs := vs) as [E|[[[] _]|E]].
  - intros rho e. rewrite <- !eval_by_eval. apply upto_eval; [intros; apply upto_refl|exact H].
  - contradiction.
  - exact E.
Qed.
Print Assumptions C72_more_fuel.

(** What the checked build computes, the build without checks computes too; and it is stuck only where the checked one panics or is stuck. *)
Theorem C72_release_extends : forall prog n m f vs, (n <= m)%nat ->
  match call prog n f vs with
  | Done x => call_by release_op prog m f vs = Done x
  | Stuck => call_by release_op prog m f vs = Stuck
  | Panics | NoFuel => True
  end.
Proof.
  intros prog n m f vs H. destruct (upto_call_with True (eval prog (lock n)) (eval_by release_op prog (lock m))) with (prog := prog) (f := f) (vs := vs) as [E|[[_ E]|E]].
  - intros rho e. rewrite <- eval_by_eval. apply upto_eval; [exact release_op_upto|exact H].
  - rewrite E. exact I.
  - rewrite E. exact I.
  - rewrite E. destruct (call prog n f vs); trivial.
Qed.
Print Assumptions C72_release_extends.

(** The operators are modular arithmetic. *)
Theorem C72_operators : forall t a b, 0 <= a < ity_size t -> 0 <= b < ity_size t ->
  release_op Add (VInt t a) (VInt t b) = Done (VInt t ((a + b) mod ity_size t)) /\
  release_op Sub (VInt t a) (VInt t b) = Done (VInt t ((a - b) mod ity_size t)) /\
  release_op Mul (VInt t a) (VInt t b) = Done (VInt t ((a * b) mod ity_size t)) /\
  forall u n, 0 <= n ->
    release_op Shl (VInt t a) (VInt u n) = Done (VInt t (Z.shiftl a (n mod ity_bits t) mod ity_size t)) /\
    release_op Shr (VInt t a) (VInt u n) = Done (VInt t (Z.shiftr a (n mod ity_bits t))).
Proof. exact release_op_mod. Qed.
Print Assumptions C72_operators.

(** ** The chunkers *)

Definition method_r (prog : program) (n : nat) (v : value) (m : string) (args : list value) : out (list value * value) :=
  call_by release_op prog n (append (type_of v) (append "::" m)) (v :: args).
Definition text_instance_r (prog : program) (n : nat) (hv : value) (c : config) : res value :=
  returned read_value (call_by release_op prog n (ctor_name c) (ctor_args hv c)).
Definition text_incr_r (prog : program) (n : nat) (hv : value) (c : config) : res Incr :=
  pv <- text_instance_r prog n hv c ;;
  s0 <- returned read_value (method_r prog n pv "to_chunk_incr" []) ;;
  Ok {| incr_state := value; incr_new := s0;
        incr_push := fun s data => returned read_push (method_r prog n s "push" [vbytes data]) |}.
Definition text_chunk_r (prog : program) (n : nat) (hv : value) (c : config) : res Chunk :=
  pv <- text_instance_r prog n hv c ;;
  s0 <- returned read_value (method_r prog n pv "to_search_state" []) ;;
  Ok {| search_state := value; to_search_state := s0;
        find_chunk_edge := fun s data => returned read_find (method_r prog n pv "find_chunk_edge" [s; vbytes data]) |}.

Lemma returned_refines : forall A (rd : list value -> value -> option A) prog n f vs,
  refines (returned rd (call prog n f vs)) (returned rd (call_by release_op prog n f vs)).
Proof.
  intros A rd prog n f vs x E. assert (H := C72_release_extends prog n n f vs (le_n n)).
  destruct (call prog n f vs) as [[l v]| | |]; try discriminate. rewrite H. exact E.
Qed.

Theorem C72_push : forall prog n hv c data sched adj o,
  (C <- text_incr prog n hv c ;; rmap observe (run_incr adj C data sched)) = Ok o ->
  (C <- text_incr_r prog n hv c ;; rmap observe (run_incr adj C data sched)) = Ok o.
Proof.
  intros prog n hv c data sched adj o. unfold text_incr, text_incr_r, text_incr_of, text_instance, text_instance_r, method, method_r.
  assert (H1 := returned_refines _ read_value prog n (ctor_name c) (ctor_args hv c)).
  destruct (returned read_value (call prog n (ctor_name c) (ctor_args hv c))) as [pv| |]; try discriminate. rewrite (H1 pv eq_refl). cbn [bind].
  assert (H2 := returned_refines _ read_value prog n (append (type_of pv) (append "::" "to_chunk_incr")) [pv]).
  destruct (returned read_value (call prog n (append (type_of pv) (append "::" "to_chunk_incr")) [pv])) as [s0| |]; try discriminate. rewrite (H2 s0 eq_refl).
  cbn [bind]. unfold run_incr. cbn [incr_state incr_new incr_push]. intros E.
  match type of E with rmap observe ?m = _ => destruct m as [r| |] eqn:Er; cbn [rmap] in E; try discriminate end.
  apply (drive_push_refines _ adj _ (fun s data => returned read_push (method_r prog n s "push" [vbytes data])) data) in Er;
    [|intros s d; apply returned_refines].
  unfold method_r in Er. rewrite Er. exact E.
Qed.
Print Assumptions C72_push.

Theorem C72_find_chunk_edge : forall prog n hv c data sched sh o,
  (C <- text_chunk prog n hv c ;; rmap observe (run_chunk sh C data sched)) = Ok o ->
  (C <- text_chunk_r prog n hv c ;; rmap observe (run_chunk sh C data sched)) = Ok o.
Proof.
  intros prog n hv c data sched sh o. unfold text_chunk, text_chunk_r, text_chunk_of, text_instance, text_instance_r, method, method_r.
  assert (H1 := returned_refines _ read_value prog n (ctor_name c) (ctor_args hv c)).
  destruct (returned read_value (call prog n (ctor_name c) (ctor_args hv c))) as [pv| |]; try discriminate. rewrite (H1 pv eq_refl). cbn [bind].
  assert (H2 := returned_refines _ read_value prog n (append (type_of pv) (append "::" "to_search_state")) [pv]).
  destruct (returned read_value (call prog n (append (type_of pv) (append "::" "to_search_state")) [pv])) as [s0| |]; try discriminate. rewrite (H2 s0 eq_refl).
  cbn [bind]. unfold run_chunk. cbn [search_state to_search_state find_chunk_edge]. intros E.
  match type of E with rmap observe ?m = _ => destruct m as [r| |] eqn:Er; cbn [rmap] in E; try discriminate end.
  apply (drive_chunk_refines _ sh _ (fun s data => returned read_find (method_r prog n pv "find_chunk_edge" [s; vbytes data])) data) in Er;
    [|intros s d; apply returned_refines].
  unfold method_r in Er. rewrite Er. exact E.
Qed.
Print Assumptions C72_find_chunk_edge.

(** So without checks the text cuts by the rules of the specification. *)
Lemma run_of_observe : forall C adj data sched o, rmap observe (run_incr adj C data sched) = Ok o ->
  exists r, run_incr adj C data sched = Ok r /\ observe r = o.
Proof. intros C adj data sched o E. destruct (run_incr adj C data sched) as [r| |]; try discriminate. injection E as <-. exists r. split; reflexivity. Qed.
Lemma chunk_run_of_observe : forall C sh data sched o, rmap observe (run_chunk sh C data sched) = Ok o ->
  exists r, run_chunk sh C data sched = Ok r /\ observe r = o.
Proof. intros C sh data sched o E. destruct (run_chunk sh C data sched) as [r| |]; try discriminate. injection E as <-. exists r. split; reflexivity. Qed.

Theorem C72_push_rule : forall u hv c n L CT, typed c -> fits (crate u) hv c -> incr_sound c ->
  (120 + L <= n)%nat -> Z.of_nat L < 2 ^ 63 -> text_incr (crate u) n hv c = Ok CT ->
  exists CR, text_incr_r (crate u) n hv c = Ok CR /\ incr_conforms (incr_adj c) CR (incr_first c) (fun k => (k <= L)%nat).
Proof.
  intros u hv c n L CT T F S Hn HL E. assert (K := C71_text_push_rule u hv c n L CT T F S Hn HL E).
  assert (P := fun data sched o => C72_push (crate u) n hv c data sched (incr_adj c) o). rewrite E in P. cbn [bind] in P.
  destruct (text_incr_r (crate u) n hv c) as [CR| |].
  2, 3: exfalso; specialize (P [] [] _ eq_refl); discriminate.
  exists CR. split; [reflexivity|]. cbn [bind] in P. intros data Hd. destruct (K data Hd) as (cs & Hc & Ks). exists cs. split; [exact Hc|].
  intros sched. destruct (Ks sched) as [(r & later & E1 & K1) (r' & E2 & K2)]. split.
  - assert (Q := P data sched (observe r)). rewrite E1 in Q. destruct (run_of_observe _ _ _ _ _ (Q eq_refl)) as (rr & -> & O).
    unfold observe in O. injection O as O1 O2 O3 O4. exists rr, later. split; [reflexivity|]. rewrite O1, O2. exact K1.
  - assert (Q := P data (sched ++ drain data) (observe r')). rewrite E2 in Q. destruct (run_of_observe _ _ _ _ _ (Q eq_refl)) as (rr & -> & O).
    unfold observe in O. injection O as O1 O2 O3 O4. exists rr. split; [reflexivity|]. rewrite O1, O2. exact K2.
Qed.
Print Assumptions C72_push_rule.

Theorem C72_find_rule : forall u hv c n L CT rule sh, typed c -> fits (crate u) hv c -> chunk_sound c -> chunk_rule c = Some rule ->
  (120 + L <= n)%nat -> Z.of_nat L < 2 ^ 63 -> text_chunk (crate u) n hv c = Ok CT ->
  exists CR, text_chunk_r (crate u) n hv c = Ok CR /\
    chunk_conforms sh CR (ends_at (per_chunk rule)) (fun k => (k <= L)%nat) (look_back c).
Proof.
  intros u hv c n L CT rule sh T F S R Hn HL E. assert (K := C71_text_find_rule u hv c n L CT rule sh T F S R Hn HL E).
  assert (P := fun data sched o => C72_find_chunk_edge (crate u) n hv c data sched sh o). rewrite E in P. cbn [bind] in P.
  destruct (text_chunk_r (crate u) n hv c) as [CR| |].
  2, 3: exfalso; specialize (P [] [] _ eq_refl); discriminate.
  exists CR. split; [reflexivity|]. cbn [bind] in P. intros data Hd. destruct (K data Hd) as (cs & Hc & Ks). exists cs. split; [exact Hc|].
  intros sched. destruct (Ks sched) as [(r & E1 & K1) (r' & E2 & K2)]. split.
  - assert (Q := P data sched (observe r)). rewrite E1 in Q. destruct (chunk_run_of_observe _ _ _ _ _ (Q eq_refl)) as (rr & -> & O).
    unfold observe in O. injection O as O1 O2 O3 O4. exists rr. split; [reflexivity|]. rewrite O1, O2, O3, O4. exact K1.
  - assert (Q := P data (sched ++ drain data) (observe r')). rewrite E2 in Q. destruct (chunk_run_of_observe _ _ _ _ _ (Q eq_refl)) as (rr & -> & O).
    unfold observe in O. injection O as O1 O2 O3 O4. exists rr. split; [reflexivity|]. rewrite O1, O3. exact K2.
Qed.
Print Assumptions C72_find_rule.

(** ** The slice iterators *)
Definition text_next_r (prog : program) (n : nat) (it : value) : res (value * option value) :=
  returned read_next (method_r prog n it "next" []).
Definition text_iter_r (prog : program) (n : nat) (hv : value) (c : config) (f : string) (data : list byte) : res value :=
  pv <- text_instance_r prog n hv c ;;
  s0 <- returned read_value (method_r prog n pv "to_chunk_incr" []) ;;
  returned read_value (call_by release_op prog n f [s0; vbytes data]).

Theorem C72_iter_slices : forall prog n hv c f data fuel,
  refines (it <- text_iter prog n hv c f data ;; collect (text_next prog n) fuel it)
          (it <- text_iter_r prog n hv c f data ;; collect (text_next_r prog n) fuel it) /\
  refines (it <- text_iter prog n hv c f data ;; take_next (text_next prog n) fuel it)
          (it <- text_iter_r prog n hv c f data ;; take_next (text_next_r prog n) fuel it).
Proof.
  intros prog n hv c f data fuel.
  assert (I : refines (text_iter prog n hv c f data) (text_iter_r prog n hv c f data)).
  { unfold text_iter, text_iter_r. apply refines_bind; [apply returned_refines|]. intros pv. apply refines_bind; [apply returned_refines|].
    intros s0. apply returned_refines. }
  split; (apply refines_bind; [exact I|]); induction fuel as [|k IH]; intros it; cbn [collect take_next]; try apply refines_refl;
    (apply refines_bind; [apply returned_refines|]); intros [it' o].
  - destruct o; [|apply refines_refl]. apply refines_bind; [apply IH|]. intros [? ?]. apply refines_refl.
  - apply refines_bind; [apply IH|]. intros [? ?]. apply refines_refl.
Qed.
Print Assumptions C72_iter_slices.

(** ** Constructors

    The arguments that only the checked build rejects: the text without checks makes the chunkers of [Release.v]. *)

Ltac reduce_core_r :=
  cbn beta iota zeta delta
    [eval_by release_op params_of assoc assoc_set String.eqb Ascii.eqb Bool.eqb String.append
     obind andthen pure_then ret evals seq scoped assign write_back bind_params select type_of
     int_op wrap_op bin_op prim_op mutprim_op get_field set_field get_index set_index get_slice len_of copy_slice cast
     checked of_bool firsts seconds zip env_app env_length env_keep arrange gate
     ity_eqb ity_bits ity_size fn_params fn_body VUnit VPair VSome VNone Nat.leb negb bump vbyte vbytes vopt vsize].
Ltac reduce_r := reduce_core_r; repeat (progress (look; lits); reduce_core_r).
Ltac enter_r :=
  match goal with
  | |- context [call_with (crate ?u) (eval_by release_op (crate ?u) (lock ?n)) ?f ?vs] =>
      let t := eval cbv beta delta [call_with] in (call_with (crate u) (eval_by release_op (crate u) n) f vs) in
      change (call_with (crate u) (eval_by release_op (crate u) (lock n)) f vs) with t
  end; look; reduce_r.
Ltac start_r :=
  intros;
  match goal with
  | H : (_ <= ?n)%nat |- context [call_with _ (eval_by release_op _ (lock ?n))] =>
      let m := fresh "m" in destruct (bump_ge _ _ H) as [m ->]
  end.

(** As [same_ave] in RustZpaq.v. *)
Lemma same_ave_r m f r : 0 <= m < 2 ^ 64 -> ave_computed m f -> 0 <= f /\ zpaq_with_average_and_range_r f r = zpaq_with_average_and_range_r (fragment_ave_from_max m) r.
Proof.
  intros Hm H. destruct (ave_spec m f Hm H) as [A B]. destruct (Z.lt_ge_cases m (2 ^ 45)) as [L|L].
  - rewrite (A L). split; [unfold fragment_ave_from_max; lia|reflexivity].
  - specialize (B L). split; [lia|].
    assert (33 <= fragment_ave_from_max m). { unfold fragment_ave_from_max. assert (45 <= Z.log2 m) by (apply Z.log2_le_pow2; lia). lia. }
    unfold zpaq_with_average_and_range_r, max_hash_from_fragment_ave_r, rust_assert.
    replace (f <=? 32) with false by lia. replace (fragment_ave_from_max m <=? 32) with false by lia. reflexivity.
Qed.

Definition fragment_ave_with_r (frag : Z -> Z) (r : range) : Z :=
  match end_bound r with
  | Included i => frag i
  | Excluded i => frag (sub_w64 i 1)
  | Unbounded =>
      match start_bound r with
      | Included i => frag (mul_w64 64 i)
      | Excluded i => frag (mul_w64 64 (add_w64 i 1))
      | Unbounded => 16
      end
  end.

Lemma same_ave_range_r frag r : (forall m, 0 <= m < 2 ^ 64 -> ave_computed m (frag m)) -> word_range r ->
  0 <= fragment_ave_with_r frag r /\ zpaq_with_average_and_range_r (fragment_ave_with_r frag r) r = zpaq_with_range_r r.
Proof.
  intros HF [W1 W2]. assert (W : forall z, 0 <= wrap64 z < 2 ^ 64) by (intros z; unfold wrap64; change two64 with (2 ^ 64); apply Z.mod_pos_bound; lia).
  assert (WA : forall a b, 0 <= a -> 0 <= b -> 0 <= add_w64 a b < 2 ^ 64) by (intros a b Ha Hb; unfold add_w64; destruct (Z.ltb_spec (a + b) two64); [change two64 with (2 ^ 64) in *; lia|apply W]).
  assert (WM : forall a b, 0 <= a -> 0 <= b -> 0 <= mul_w64 a b < 2 ^ 64) by (intros a b Ha Hb; unfold mul_w64; destruct (Z.ltb_spec (a * b) two64); [change two64 with (2 ^ 64) in *; nia|apply W]).
  assert (WS : forall a, 0 <= a < 2 ^ 64 -> 0 <= sub_w64 a 1 < 2 ^ 64) by (intros a Ha; unfold sub_w64; destruct (Z.leb_spec 1 a); [lia|apply W]).
  unfold zpaq_with_range_r, fragment_ave_from_range_r, fragment_ave_with_r.
  destruct r as [[i|i|] [j|j|]]; cbn [start_bound end_bound fst snd] in *;
    try (apply same_ave_r; [|apply HF]; (assumption || (apply WS; lia) || (apply WM; [lia|]; (lia || (apply WA; lia))))); (split; [lia|reflexivity]).
Qed.

Section Crate.
Variable u : program.

(** A call that the checked build completes. *)
Lemma same_r n f vs x : call (crate u) n f vs = Done x -> call_by release_op (crate u) n f vs = Done x.
Proof. intros E. assert (H := C72_release_extends (crate u) n n f vs (le_n n)). rewrite E in H. exact H. Qed.

Lemma shift_mod z k b : 0 <= b -> Z.shiftl z (if b <? k then b else b mod k) = Z.shiftl z (b mod k).
Proof. intros H. destruct (Z.ltb_spec b k); [rewrite Z.mod_small by lia|]; reflexivity. Qed.

Lemma src_msb_mask_r n k : (20 <= n)%nat -> is_u64 k ->
  call_by release_op (crate u) n "msb_mask" [VInt Usize k] = Done ([VInt Usize k], VInt U32 (msb_mask_r k)).
Proof.
  intros Hn Hk. unfold is_u64 in Hk. start_r. enter_r. rewrite !shift_mod; [reflexivity|lia|].
  destruct (k <=? 32) eqn:E; [lia|apply Z.mod_pos_bound; lia].
Qed.

Lemma src_gear_r n k : (40 <= n)%nat -> is_u64 k ->
  call_by release_op (crate u) n "Gear32::with_average_size_log2" [VInt Usize k] =
  Done ([VInt Usize k], enc_Gear32 (gear_with_average_size_log2_r k)).
Proof. intros Hn Hk. start_r. enter_r. rewrite src_msb_mask_r by (try assumption; lia). reduce_r. reflexivity. Qed.

Lemma src_pigz_r n b : (20 <= n)%nat -> 0 <= b ->
  call_by release_op (crate u) n "PigzRsyncable::with_bits" [VInt U8 b] = Done ([VInt U8 b], enc_Pigz (pigz_with_bits_r b)).
Proof. intros Hn Hb. start_r. enter_r. rewrite !shift_mod by lia. reflexivity. Qed.

Lemma src_into_tuple_r n r : (60 <= n)%nat ->
  call_by release_op (crate u) n "R::into_tuple" [enc_range_value r] = Done ([enc_range_value r], enc_range (into_tuple (bounds_of r))).
Proof. intros H. apply same_r, src_into_tuple, H. Qed.

Lemma src_zpaq_r n f r : (80 <= n)%nat -> 0 <= f ->
  call_by release_op (crate u) n "Zpaq::with_average_and_range" [VInt U8 f; enc_range_value r] =
  as_out (fun p => ([VInt U8 f; enc_range_value r], enc_Zpaq p)) (zpaq_with_average_and_range_r f (bounds_of r)).
Proof.
  intros Hn Hf. start_r. enter_r. rewrite type_of_range. reduce_r. rewrite src_into_tuple_r by lia. reduce_r.
  enter_r. unfold zpaq_with_average_and_range_r, max_hash_from_fragment_ave_r, rust_assert.
  destruct (f <=? 32) eqn:E; unfold as_out, bind; reduce_r; [|reflexivity].
  rewrite E, shift_mod by lia. reflexivity.
Qed.

Lemma src_fragment_ave_from_max_r frag n m : u "Zpaq::fragment_ave_from_max"%string = Some (float_fn frag) -> (20 <= n)%nat ->
  call_by release_op (crate u) n "Zpaq::fragment_ave_from_max" [VInt U64 m] = Done ([VInt U64 m], VInt U8 (frag m)).
Proof. intros Hu Hn. apply same_r, (src_fragment_ave_from_max u frag Hu), Hn. Qed.

Lemma src_fragment_ave_from_range_r frag n r : u "Zpaq::fragment_ave_from_max"%string = Some (float_fn frag) -> (60 <= n)%nat ->
  call_by release_op (crate u) n "Zpaq::fragment_ave_from_range" [enc_range_value r] =
  Done ([enc_range_value r], VInt U8 (fragment_ave_with_r frag (bounds_of r))).
Proof.
  intros Hu. start_r. unfold fragment_ave_with_r, sub_w64, add_w64, mul_w64, wrap64.
  destruct r as [[?|?|] [?|?|]|? ?|? ?|?|?|?|]; cbn [enc_range_value enc_bound bounds_of start_bound end_bound fst snd];
    enter_r; change two64 with (2 ^ 64); rewrite ?(src_fragment_ave_from_max_r frag) by (assumption || lia); rewrite ?Hu; unfold float_fn; reduce_r; try reflexivity.
Qed.

Lemma src_zpaq_range_r n r : (100 <= n)%nat -> floats u -> word_range (bounds_of r) ->
  call_by release_op (crate u) n "Zpaq::with_range" [enc_range_value r] =
  as_out (fun p => ([enc_range_value r], enc_Zpaq p)) (zpaq_with_range_r (bounds_of r)).
Proof.
  intros Hn (frag & Hu & HF) Hr. destruct (same_ave_range_r frag _ HF Hr) as [S1 S2]. rewrite <- S2. revert Hn.
  start_r. enter_r. rewrite (src_fragment_ave_from_range_r frag) by (assumption || lia). reduce_r.
  rewrite src_zpaq_r by (exact S1 || lia).
  destruct (zpaq_with_average_and_range_r (fragment_ave_with_r frag (bounds_of r)) (bounds_of r)); unfold as_out; reduce_r; reflexivity.
Qed.

Lemma src_zpaq_max_r n m : (100 <= n)%nat -> floats u -> 0 <= m < 2 ^ 64 ->
  call_by release_op (crate u) n "Zpaq::with_max_size" [VInt U64 m] = as_out (fun p => ([VInt U64 m], enc_Zpaq p)) (zpaq_with_max_size_r m).
Proof.
  intros Hn (frag & Hu & HF) Hm. unfold zpaq_with_max_size_r. destruct (same_ave_r m (frag m) (range_from_max m) Hm (HF m Hm)) as [P <-]. revert Hn.
  start_r. enter_r. rewrite (src_fragment_ave_from_max_r frag) by (assumption || lia). rewrite Hu. unfold float_fn. reduce_r. look. reduce_r.
  assert (E : forall k, (20 <= k)%nat -> call_by release_op (crate u) k "Zpaq::range_from_max" [VInt U64 m] = Done ([VInt U64 m], enc_range_value (RRange (m / 64) m))).
  { intros k Hk. apply same_r, (proj1 (src_range_from_max u k m Hk)). }
  rewrite E by lia. reduce_r. rewrite (src_zpaq_r _ _ (RRange (m / 64) m)) by lia. change (bounds_of (RRange (m / 64) m)) with (range_from_max m).
  destruct (zpaq_with_average_and_range_r (frag m) (range_from_max m)); unfold as_out; reduce_r; reflexivity.
Qed.

Lemma src_zpaq_ave_r n f : (100 <= n)%nat -> 0 <= f ->
  call_by release_op (crate u) n "Zpaq::with_average_size_pow_2" [VInt U8 f] =
  as_out (fun p => ([VInt U8 f], enc_Zpaq p)) (zpaq_with_average_size_pow_2_r f).
Proof.
  intros Hn Hf. start_r. enter_r. enter_r. unfold zpaq_with_average_size_pow_2_r, range_from_fragment_ave_r, rust_assert.
  destruct (f <=? 32) eqn:E1; unfold bind at 1; reduce_r; [|reflexivity].
  destruct (10 <=? f) eqn:E2; unfold bind at 1; reduce_r; [|reflexivity]. unfold bind. rewrite ?E1, ?E2. rewrite !shift_mod by lia.
  set (r := RRange (Z.shiftl 64 ((f - 10) mod 64) mod 2 ^ 64) (Z.shiftl 8128 (f mod 64) mod 2 ^ 64)).
  change (VCon ".." [VInt U64 (Z.shiftl 64 ((f - 10) mod 64) mod 2 ^ 64); VInt U64 (Z.shiftl 8128 (f mod 64) mod 2 ^ 64)]) with (enc_range_value r).
  rewrite src_zpaq_r by lia. change (Included (shl_w64 64 (f - 10)), Excluded (shl_w64 8128 f)) with (bounds_of r).
  destruct (zpaq_with_average_and_range_r f (bounds_of r)); unfold as_out; reduce_r; reflexivity.
Qed.

Lemma src_zstd_r n t : (60 <= n)%nat -> 0 <= t < 2 ^ 64 ->
  call_by release_op (crate u) n "Zstd::with_target_section_size" [VInt U64 t] =
  as_out (fun p => ([VInt U64 t], enc_Zstd p)) (zstd_with_target_section_size_r t).
Proof.
  intros Hn Ht. start_r. repeat enter_r. unfold zstd_with_target_section_size_r, try_into_u32, rust_assert.
  change two32 with (2 ^ 32). destruct (Z.shiftr t 20 <? 2 ^ 32) eqn:E; unfold bind at 1; reduce_r; [|reflexivity].
  destruct (Z.shiftr t 20 =? 0) eqn:E0; unfold bind at 1; reduce_r; [reflexivity|].
  unfold leading_zeros_u32. rewrite E0.
  assert (Hl : 0 <= Z.log2 (Z.shiftr t 20) <= 31).
  { split; [apply Z.log2_nonneg|]. apply Z.lt_succ_r. apply Z.log2_lt_pow2; [|lia].
    pose proof (proj2 (Z.shiftr_nonneg t 20) (proj1 Ht)). lia. }
  rewrite lxor_31 by assumption.
  replace (Z.log2 (Z.shiftr t 20) + 20 <? 2 ^ 32) with true by lia. reduce_r. rewrite !shift_mod by lia. reflexivity.
Qed.
End Crate.

(** The instance that a configuration gets, in any case. *)
Theorem C72_constructors : forall u n, (120 <= n)%nat ->
  let run f args := returned read_value (call_by release_op (crate u) n f args) in
  (forall k, is_u64 k -> run "Gear32::with_average_size_log2"%string [VInt Usize k] = Ok (enc_Gear32 (gear_with_average_size_log2_r k))) /\
  (forall b, 0 <= b < 256 -> run "PigzRsyncable::with_bits"%string [VInt U8 b] = Ok (enc_Pigz (pigz_with_bits_r b))) /\
  (forall f r, 0 <= f < 256 -> run "Zpaq::with_average_and_range"%string [VInt U8 f; enc_range_value r] =
     rmap enc_Zpaq (zpaq_with_average_and_range_r f (bounds_of r))) /\
  (forall r, floats u -> word_range (bounds_of r) -> run "Zpaq::with_range"%string [enc_range_value r] = rmap enc_Zpaq (zpaq_with_range_r (bounds_of r))) /\
  (forall f, 0 <= f < 256 -> run "Zpaq::with_average_size_pow_2"%string [VInt U8 f] = rmap enc_Zpaq (zpaq_with_average_size_pow_2_r f)) /\
  (forall m, floats u -> is_u64 m -> run "Zpaq::with_max_size"%string [VInt U64 m] = rmap enc_Zpaq (zpaq_with_max_size_r m)) /\
  (forall t, is_u64 t -> run "Zstd::with_target_section_size"%string [VInt U64 t] = rmap enc_Zstd (zstd_with_target_section_size_r t)).
Proof.
  intros u n Hn run. unfold run.
  assert (G : forall A (f : A -> value) a m, returned read_value (as_out (fun p => (a, f p)) m) = rmap f m) by (intros A f a []; reflexivity).
  split; [intros; rewrite src_gear_r by (try assumption; lia); reflexivity|].
  split; [intros; rewrite src_pigz_r by lia; reflexivity|].
  split; [intros; rewrite src_zpaq_r by lia; apply G|]. split; [intros; rewrite src_zpaq_range_r by (lia || assumption); apply G|].
  split; [intros; rewrite src_zpaq_ave_r by lia; apply G|]. split; [intros; rewrite src_zpaq_max_r by (lia || assumption); apply G|].
  intros t Ht. unfold is_u64 in Ht. rewrite src_zstd_r by (try lia; exact Ht). apply G.
Qed.
Print Assumptions C72_constructors.

(** Evaluated without checks: Gear32 with 33 (which the checked build rejects) is Gear32 with 1; with 32 every byte is a
    chunk; RollSum without window still divides by zero. *)
Definition text_push_r (c : config) : res (list nat * (nat * nat * bool)) :=
  C <- text_incr_r (crate no_user) 140 VUnit c ;; rmap observe (run_incr (incr_adj c) C some_bytes [4; 6; 6; 6; 6; 6; 6; 6; 6; 6; 6]%nat).
Example C72_case :
  text_push (CfgGear 33) = Panic /\ text_push_r (CfgGear 33) = text_push_r (CfgGear 1) /\
  text_push_r (CfgGear 1) = Ok ([1; 2; 3; 4; 5; 6; 9]%nat, (10%nat, 10%nat, true)) /\
  text_push_r (CfgGear 32) = Ok ([1; 2; 3; 4; 5; 6; 7; 8; 9; 10]%nat, (10%nat, 10%nat, true)) /\
  text_push_r (CfgPigz 34) = text_push_r (CfgPigz 2) /\ text_push (CfgPigz 34) = Panic /\
  text_push_r (CfgRollSum 0) = Panic.
Proof. vm_compute. repeat split; reflexivity. Qed.
