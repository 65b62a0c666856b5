(** * PropsSource: C71, the model is what the source text computes.

    [RustText.v] is the text of src/*.rs (written by tools/transcribe.py), [Rust.v] says what such a text does, and
    [RustConfig.v] drives it: constructor, [to_chunk_incr] / [to_search_state], then [push] / [find_chunk_edge] / the slice
    iterators.  [n] bounds the depth of the evaluation; any large enough [n] gives the same. *)

From Coq Require Import String ZifyBool ZifyNat.
From Verif Require Import Base Api Lists Spec Range Mii Ram Gear Pigz Gzip FastCdc Bup BuzHash Zpaq Zstd Tables Builtin BuiltinProofs IterProofs IterOps IterAll.
From Verif Require Import Rust RustText RustSim RustLib RustConfig.
From Verif Require Import RustMii RustRam RustGear RustPigz RustGzip RustFastCdc RustBup RustBuzHash RustRange RustZpaq RustZstd.
Open Scope list_scope.
Open Scope Z_scope.

(** All that a caller sees of a run. *)
Definition observe {S} (r : run S) : list nat * (nat * nat * bool) := (r_cuts r, (r_base r, r_seen r, r_none r)).

(** ** Runs of [push] and of [find_chunk_edge] *)

(** A constructor panics in the source exactly when it does in the model. *)
Lemma ctor_ends : forall c, incr_of c <> Diverge.
Proof.
  intros c. destruct c; cbn [incr_of]; try discriminate;
    unfold gear_with_average_size_log2, msb_mask, pigz_with_bits, buzhash_new, zpaq_with_average_and_range, max_hash_from_fragment_ave, zstd_with_target_section_size,
      try_into_u32, rust_assert, shl_u32, shl_u64, sub_u32, add_u64, sub_u64, bind;
    repeat match goal with |- context [if ?b then _ else _] => destruct b; try discriminate end; try discriminate.
Qed.

Lemma ctor_ends_chunk : forall c, chunk_of c <> Diverge.
Proof.
  intros c E. apply (ctor_ends c). destruct c; cbn [chunk_of incr_of] in *; try discriminate;
    match type of E with bind ?m _ = _ => destruct m; cbn [bind] in *; try discriminate; reflexivity end.
Qed.

Theorem C71_constructors : forall u hv c n, typed c -> fits (crate u) hv c -> (120 <= n)%nat ->
  match incr_of c with
  | Ok _ => exists pv, text_instance (crate u) n hv c = Ok pv
  | _ => text_instance (crate u) n hv c = Panic
  end.
Proof.
  intros u hv c n T F Hn. assert (H := incr_text_all u n hv c T F Hn). destruct (incr_of c) eqn:E; try exact H.
  - destruct H as (pv & _ & _ & _ & H & _). exists pv. exact H.
  - exfalso. exact (ctor_ends c E).
Qed.
Print Assumptions C71_constructors.

Lemma text_incr_all : forall u hv c n L, typed c -> fits (crate u) hv c -> (120 + L <= n)%nat -> Z.of_nat L < 2 ^ 63 ->
  match incr_of c with
  | Ok C => exists CT e Inv, text_incr (crate u) n hv c = Ok CT /\ simulates L C CT e Inv
  | _ => text_incr (crate u) n hv c = Panic
  end.
Proof.
  intros u hv c n L T F Hn HL. assert (H := incr_text_all u n hv c T F ltac:(lia)). unfold text_incr.
  destruct (incr_of c) as [C| |] eqn:E; [|rewrite H; reflexivity|exfalso; exact (ctor_ends c E)].
  destruct H as (pv & T' & enc & Inv & -> & H1 & H2 & H3 & H4). cbn [bind].
  destruct (text_incr_sim (crate u) n L T' C enc Inv 120 pv H1 H2 H3 Hn HL H4) as (CT & E1 & e & E2).
  exists CT, e, Inv. split; assumption.
Qed.

Lemma text_chunk_all : forall u hv c n L, typed c -> fits (crate u) hv c -> (120 + L <= n)%nat -> Z.of_nat L < 2 ^ 63 ->
  match chunk_of c with
  | Ok C => exists CT e Inv, text_chunk (crate u) n hv c = Ok CT /\ simulates_chunk L C CT e Inv
  | _ => text_chunk (crate u) n hv c = Panic
  end.
Proof.
  intros u hv c n L T F Hn HL. assert (H := chunk_text_all u n hv c T F ltac:(lia)). unfold text_chunk.
  destruct (chunk_of c) as [C| |] eqn:E; [|rewrite H; reflexivity|exfalso; exact (ctor_ends_chunk c E)].
  destruct H as (pv & enc & Inv & -> & H1 & H2 & H3 & H4). cbn [bind].
  destruct (text_chunk_sim (crate u) n L (type_of pv) C enc Inv 120 pv eq_refl H1 H2 H3 Hn HL H4) as (CT & E1 & e & E2).
  exists CT, e, Inv. split; assumption.
Qed.

(** Every built-in chunker, every configuration, every data and every way of pushing it. *)
Theorem C71_push : forall u hv c n data sched adj, typed c -> fits (crate u) hv c ->
  (120 + length data <= n)%nat -> Z.of_nat (length data) < 2 ^ 63 ->
  (C <- text_incr (crate u) n hv c ;; rmap observe (run_incr adj C data sched)) =
  (C <- incr_of c ;; rmap observe (run_incr adj C data sched)).
Proof.
  intros u hv c n data sched adj T F Hn HL. assert (H := text_incr_all u hv c n (length data) T F Hn HL).
  destruct (incr_of c) as [C| |] eqn:E; [|rewrite H; reflexivity|exfalso; exact (ctor_ends c E)].
  destruct H as (CT & e & Inv & -> & H). cbn [bind]. rewrite (run_incr_sim _ _ _ _ _ H) by lia.
  destruct (run_incr adj C data sched); reflexivity.
Qed.
Print Assumptions C71_push.

Theorem C71_find_chunk_edge : forall u hv c n data sched shrink, typed c -> fits (crate u) hv c ->
  (120 + length data <= n)%nat -> Z.of_nat (length data) < 2 ^ 63 ->
  (C <- text_chunk (crate u) n hv c ;; rmap observe (run_chunk shrink C data sched)) =
  (C <- chunk_of c ;; rmap observe (run_chunk shrink C data sched)).
Proof.
  intros u hv c n data sched shrink T F Hn HL. assert (H := text_chunk_all u hv c n (length data) T F Hn HL).
  destruct (chunk_of c) as [C| |] eqn:E; [| |]; try (rewrite H; reflexivity).
  - destruct H as (CT & e & Inv & -> & H). cbn [bind]. rewrite (run_chunk_sim _ _ _ _ _ H) by lia.
    destruct (run_chunk shrink C data sched); reflexivity.
  - exfalso. exact (ctor_ends_chunk c E).
Qed.
Print Assumptions C71_find_chunk_edge.

(** ** The rules, of the source itself

    What [Spec.v] says of a chunker, said of the text: no function of the model occurs. *)

Lemma conforms_sim : forall L A B e Inv adj first, simulates L A B e Inv -> incr_conforms adj A first stream_len -> Z.of_nat L < 2 ^ 63 ->
  incr_conforms adj B first (fun k => (k <= L)%nat).
Proof.
  intros L A B e Inv adj first S H HL data Hd. destruct (H data) as (cs & Hc & K); [unfold stream_len; lia|].
  exists cs. split; [exact Hc|]. intros sched. rewrite !(run_incr_sim _ _ _ _ _ S) by exact Hd. destruct (K sched) as [(r & later & -> & K1) (r' & -> & K2)].
  split; [exists (map_run e r), later|exists (map_run e r')]; (split; [reflexivity|assumption]).
Qed.

Lemma chunk_conforms_sim : forall L A B e Inv sh first keep, simulates_chunk L A B e Inv -> chunk_conforms sh A first stream_len keep -> Z.of_nat L < 2 ^ 63 ->
  chunk_conforms sh B first (fun k => (k <= L)%nat) keep.
Proof.
  intros L A B e Inv sh first keep S H HL data Hd. destruct (H data) as (cs & Hc & K); [unfold stream_len; lia|].
  exists cs. split; [exact Hc|]. intros sched. rewrite !(run_chunk_sim _ _ _ _ _ S) by exact Hd. destruct (K sched) as [(r & -> & K1) (r' & -> & K2)].
  split; [exists (map_run e r)|exists (map_run e r')]; (split; [reflexivity|assumption]).
Qed.

Theorem C71_text_push_rule : forall u hv c n L CT, typed c -> fits (crate u) hv c -> incr_sound c ->
  (120 + L <= n)%nat -> Z.of_nat L < 2 ^ 63 -> text_incr (crate u) n hv c = Ok CT ->
  incr_conforms (incr_adj c) CT (incr_first c) (fun k => (k <= L)%nat).
Proof.
  intros u hv c n L CT T F S Hn HL E. assert (H := text_incr_all u hv c n L T F Hn HL).
  destruct (incr_of c) as [C| |] eqn:EC; [|rewrite H in E; discriminate|exfalso; exact (ctor_ends c EC)].
  destruct H as (CT' & e & Inv & E' & H). rewrite E in E'. injection E' as <-.
  exact (conforms_sim L C CT e Inv _ _ H (incr_all c C T EC S) HL).
Qed.
Print Assumptions C71_text_push_rule.

Theorem C71_text_find_rule : forall u hv c n L CT rule sh, typed c -> fits (crate u) hv c -> chunk_sound c -> chunk_rule c = Some rule ->
  (120 + L <= n)%nat -> Z.of_nat L < 2 ^ 63 -> text_chunk (crate u) n hv c = Ok CT ->
  chunk_conforms sh CT (ends_at (per_chunk rule)) (fun k => (k <= L)%nat) (look_back c).
Proof.
  intros u hv c n L CT rule sh T F S R Hn HL E. assert (H := text_chunk_all u hv c n L T F Hn HL).
  destruct (chunk_of c) as [C| |] eqn:EC; try (rewrite H in E; discriminate).
  destruct H as (CT' & e & Inv & E' & H). rewrite E in E'. injection E' as <-.
  exact (chunk_conforms_sim L C CT e Inv sh _ _ H (chunk_all c C rule sh T EC S R) HL).
Qed.
Print Assumptions C71_text_find_rule.

(** ** The slice iterators *)

Lemma text_iter_all : forall u hv c n data, typed c -> fits (crate u) hv c -> (140 + length data <= n)%nat ->
  match incr_of c with
  | Ok C => exists T enc Inv, computes_push (crate u) T C enc Inv 120 /\
      (forall s d s' o, Inv s -> incr_push C s d = Ok (s', o) -> Inv s') /\ Inv (incr_new C) /\
      text_iter (crate u) n hv c "ChunkIncr::iter_slices" data = Ok (enc_Iter enc (iter_slices C (incr_new C) data)) /\
      text_iter (crate u) n hv c "ChunkIncr::iter_slices_strict" data = Ok (enc_IterStrict enc (iter_slices_strict C (incr_new C) data))
  | _ => forall f, text_iter (crate u) n hv c f data = Panic
  end.
Proof.
  intros u hv c n data T F Hn. assert (H := incr_text_all u n hv c T F ltac:(lia)). unfold text_iter.
  destruct (incr_of c) as [C| |] eqn:E; [|rewrite H; reflexivity|exfalso; exact (ctor_ends c E)].
  destruct H as (pv & T' & enc & Inv & -> & H1 & H2 & H3 & H4). cbn [bind]. rewrite H4. cbn [returned read_value bind].
  exists T', enc, Inv. rewrite src_iter_slices, src_iter_slices_strict by lia.
  split; [exact H1|]. split; [exact H2|]. split; [exact H3|]. split; reflexivity.
Qed.

(** [iter_slices]: any number of calls of [next], and the iteration to its end; the slices and what is left. *)
Theorem C71_iter_slices : forall u hv c n data k, typed c -> fits (crate u) hv c ->
  (140 + length data <= n)%nat -> Z.of_nat (length data) < 2 ^ 63 ->
  (it <- text_iter (crate u) n hv c "ChunkIncr::iter_slices" data ;;
   '(l, it') <- take_next (text_next (crate u) n) k it ;; r <- text_remainder (crate u) n it' ;; Ok (l, r)) =
  (C <- incr_of c ;; '(l, it') <- take_next iter_slices_next k (iter_slices C (incr_new C) data) ;;
   Ok (map vbytes l, vbytes (snd (into_parts it')))) /\
  (it <- text_iter (crate u) n hv c "ChunkIncr::iter_slices" data ;;
   '(l, it') <- collect (text_next (crate u) n) k it ;; r <- text_remainder (crate u) n it' ;; Ok (l, r)) =
  (C <- incr_of c ;; '(l, it') <- collect iter_slices_next k (iter_slices C (incr_new C) data) ;;
   Ok (map vbytes l, vbytes (snd (into_parts it')))).
Proof.
  intros u hv c n data k T F Hn HL. assert (H := text_iter_all u hv c n data T F Hn).
  destruct (incr_of c) as [C| |] eqn:E; [|rewrite H; split; reflexivity|exfalso; exact (ctor_ends c E)].
  destruct H as (T' & enc & Inv & H1 & H2 & H3 & -> & _). cbn [bind].
  assert (R : ready C Inv (length data) (iter_slices C (incr_new C) data)) by (split; [exact H3|cbn; lia]).
  assert (S := text_next_sim u T' C enc Inv n (length data) H1 H2 Hn HL). split.
  - destruct (take_next_sim (enc_Iter enc) vbytes _ _ _ S k _ R) as [-> _].
    destruct (take_next iter_slices_next k _) as [[l it']| |]; cbn [rmap bind]; try reflexivity.
    rewrite (text_remainder_sim u C enc n (length data)) by lia. reflexivity.
  - destruct (collect_sim (enc_Iter enc) vbytes _ _ _ S k _ R) as [-> _].
    destruct (collect iter_slices_next k _) as [[l it']| |]; cbn [rmap bind]; try reflexivity.
    rewrite (text_remainder_sim u C enc n (length data)) by lia. reflexivity.
Qed.
Print Assumptions C71_iter_slices.

(** [iter_slices_strict]: any mixture of [next] and [take_rem], then [into_parts]. *)
Fixpoint text_strict_calls (prog : program) (n : nat) (ops : list strict_op) (it : value) : res (list (strict_op * option value) * value) :=
  match ops with
  | [] => r <- text_remainder prog n it ;; Ok ([], r)
  | OpNext :: ops' =>
      '(it', o) <- text_next prog n it ;; '(rest, r) <- text_strict_calls prog n ops' it' ;; Ok ((OpNext, o) :: rest, r)
  | OpTakeRem :: ops' =>
      '(it', v) <- text_take_rem prog n it ;; '(rest, r) <- text_strict_calls prog n ops' it' ;; Ok ((OpTakeRem, Some v) :: rest, r)
  end.
Definition event_value (e : strict_event) : strict_op * option value :=
  match e with
  | Got v => (OpNext, Some (vbytes v))
  | NotYet => (OpNext, None)
  | Took v => (OpTakeRem, Some (vbytes v))
  end.

Theorem C71_iter_slices_strict : forall u hv c n data ops, typed c -> fits (crate u) hv c ->
  (140 + length data <= n)%nat -> Z.of_nat (length data) < 2 ^ 63 ->
  (it <- text_iter (crate u) n hv c "ChunkIncr::iter_slices_strict" data ;; text_strict_calls (crate u) n ops it) =
  (C <- incr_of c ;; '(ev, it') <- strict_calls ops (iter_slices_strict C (incr_new C) data) ;;
   Ok (map event_value ev, vbytes (snd (into_parts it')))).
Proof.
  intros u hv c n data ops T F Hn HL. assert (H := text_iter_all u hv c n data T F Hn).
  destruct (incr_of c) as [C| |] eqn:E; [|rewrite H; reflexivity|exfalso; exact (ctor_ends c E)].
  destruct H as (T' & enc & Inv & H1 & H2 & H3 & _ & ->). cbn [bind].
  assert (R : ready C Inv (length data) (iter_slices_strict C (incr_new C) data)) by (split; [exact H3|cbn; lia]).
  assert (S := text_strict_next_sim u T' C enc Inv n (length data) H1 H2 Hn HL). revert R.
  generalize (iter_slices_strict C (incr_new C) data) as it. induction ops as [|op ops IH]; intros it R; cbn [text_strict_calls strict_calls].
  - rewrite (text_remainder_strict_sim u C enc n (length data)) by lia. reflexivity.
  - destruct op; cbn [strict_call].
    + destruct (S it R) as [-> K]. destruct (iter_slices_strict_next it) as [[it1 o]| |]; cbn [rmap bind]; try reflexivity.
      rewrite (IH it1 (K _ _ eq_refl)). destruct (strict_calls ops it1) as [[ev it2]| |]; cbn [bind]; try reflexivity. destruct o; reflexivity.
    + rewrite (text_take_rem_sim u C enc n (length data)) by lia. cbn [take_rem fst snd bind].
      rewrite IH by (destruct R as [R1 R2]; split; [exact R1|cbn; lia]).
      destruct (strict_calls ops _) as [[ev it2]| |]; reflexivity.
Qed.
Print Assumptions C71_iter_slices_strict.

(** Of the source itself: the slices that [iter_slices] yields are the data. *)
Theorem C71_text_lossless : forall u hv c n data fuel it l it', typed c -> fits (crate u) hv c ->
  (140 + length data <= n)%nat -> Z.of_nat (length data) < 2 ^ 63 ->
  text_iter (crate u) n hv c "ChunkIncr::iter_slices" data = Ok it ->
  collect (text_next (crate u) n) fuel it = Ok (l, it') ->
  exists out, l = map vbytes out /\ concat out = data.
Proof.
  intros u hv c n data fuel it l it' T F Hn HL E1 E2. assert (H := text_iter_all u hv c n data T F Hn).
  destruct (incr_of c) as [C| |] eqn:E; try (rewrite H in E1; discriminate).
  destruct H as (T' & enc & Inv & H1 & H2 & H3 & E' & _). rewrite E1 in E'. injection E' as ->.
  assert (R : ready C Inv (length data) (iter_slices C (incr_new C) data)) by (split; [exact H3|cbn; lia]).
  assert (S := text_next_sim u T' C enc Inv n (length data) H1 H2 Hn HL).
  destruct (collect_sim (enc_Iter enc) vbytes _ _ _ S fuel _ R) as [E3 _]. rewrite E2 in E3.
  destruct (collect iter_slices_next fuel (iter_slices C (incr_new C) data)) as [[out it2]| |] eqn:E4; cbn [rmap] in E3; try discriminate.
  injection E3 as -> ->. exists out. split; [reflexivity|]. apply collect_concat in E4. exact (proj1 E4).
Qed.
Print Assumptions C71_text_lossless.

(** ** Any state, and the rest of the public functions

    A run only reaches states that [to_chunk_incr] leads to.  [push] and [find_chunk_edge] agree on every state of a chunker
    ([pv] is its instance, [enc] writes a state of the model as a value, [Inv] is what the field types imply); a [push]
    leaves [self] the same value and its argument unchanged. *)
Theorem C71_any_state : forall u hv c n, typed c -> fits (crate u) hv c -> (120 <= n)%nat ->
  match incr_of c with
  | Ok C => exists pv T enc (Inv : incr_state C -> Prop), text_instance (crate u) n hv c = Ok pv /\ Inv (incr_new C) /\
      (forall s d s' o, Inv s -> incr_push C s d = Ok (s', o) -> Inv s') /\
      forall m s data, Inv s -> (120 + length data <= m)%nat -> Z.of_nat (length data) < 2 ^ 64 ->
        type_of (enc s) = T /\
        call (crate u) m (append T "::push") [enc s; vbytes data] =
        match incr_push C s data with
        | Ok (s', o) => Done ([enc s'; vbytes data], vopt o)
        | Panic => Panics
        | Diverge => NoFuel
        end
  | _ => text_instance (crate u) n hv c = Panic
  end.
Proof.
  intros u hv c n T F Hn. assert (H := incr_text_all u n hv c T F Hn).
  destruct (incr_of c) as [C| |] eqn:E; [|exact H|exfalso; exact (ctor_ends c E)].
  destruct H as (pv & T' & enc & Inv & Ei & H1 & H2 & H3 & H4). exists pv, T', enc, Inv.
  split; [exact Ei|]. split; [exact H3|]. split; [exact H2|].
  intros m s data Hs Hm Hd. destruct H1 as (Ht & _ & H1). split; [apply Ht|].
  rewrite (H1 m s data) by (try assumption; lia). destruct (incr_push C s data) as [[s' o]| |]; reflexivity.
Qed.
Print Assumptions C71_any_state.

(** The other ways of making a chunker. *)
Theorem C71_defaults : forall u n, (120 <= n)%nat ->
  let run f args := returned read_value (call (crate u) n f args) in
  run "Mii::default"%string [] = Ok (enc_Mii mii_default) /\
  run "Gear32::default"%string [] = rmap enc_Gear32 gear_default /\
  run "PigzRsyncable::default"%string [] = rmap enc_Pigz pigz_default /\
  run "GzipRsyncable::default"%string [] = Ok (enc_Gzip gzip_default) /\
  run "FastCdc::default"%string [] = Ok (enc_FastCdc fastcdc_default) /\
  run "FastCdcIncr::default"%string [] = Ok (enc_FcIncr fastcdc_default (incr_new (fastcdc_incr fastcdc_default))) /\
  run "RollSum::default"%string [] = Ok (enc_RollSum rollsum_default) /\
  run "RollSumIncr::default"%string [] = Ok (enc_RsIncr (incr_new (rollsum_incr rollsum_default))) /\
  run "Zpaq::default"%string [] = rmap enc_Zpaq zpaq_default /\
  run "Zstd::default"%string [] = rmap enc_Zstd zstd_default /\
  (forall salt, run "BuzHash::new_nom"%string [vbyte salt] = rmap (enc_Buz (enc_SaltHash salt GO_BUZHASH)) (buzhash_new_nom salt)) /\
  (forall r, floats u -> word_range (bounds_of r) -> run "Zpaq::with_range"%string [enc_range_value r] = rmap enc_Zpaq (zpaq_with_range (bounds_of r))) /\
  (forall f, 0 <= f -> run "Zpaq::with_average_size_pow_2"%string [VInt U8 f] = rmap enc_Zpaq (zpaq_with_average_size_pow_2 f)) /\
  (forall m, floats u -> is_u64 m -> run "Zpaq::with_max_size"%string [VInt U64 m] = rmap enc_Zpaq (zpaq_with_max_size m)).
Proof.
  intros u n Hn run. unfold run.
  rewrite src_mii_default, src_gear_default, src_pigz_default, src_gzip_default, src_fastcdc_default, src_fc_incr_default,
    src_rollsum_default, src_rs_incr_default, src_zpaq_default, src_zstd_default by lia.
  assert (G : forall A (f : A -> value) a m, returned read_value (as_out (fun p => (a, f p)) m) = rmap f m) by (intros A f a []; reflexivity).
  rewrite !G. repeat (split; [reflexivity|]). repeat split; intros.
  - rewrite src_buzhash_new_nom by lia. apply G.
  - rewrite src_zpaq_with_range by (lia || assumption). apply G.
  - rewrite src_zpaq_with_average_size_pow_2 by lia. apply G.
  - rewrite src_zpaq_with_max_size by (lia || assumption). apply G.
Qed.
Print Assumptions C71_defaults.

(** The byte-wise interface of bup, the tables of buzhash, and src/range.rs on every kind of range. *)
Theorem C71_helpers : forall u n, (120 <= n)%nat ->
  (forall s ch, Z.of_nat (length (rsi_window s)) < 2 ^ 64 ->
     call (crate u) n "RollSumIncr::roll_byte"%string [enc_RsIncr s; vbyte ch] =
     as_out (fun s' => ([enc_RsIncr s'; vbyte ch], VUnit)) (roll_byte s ch)) /\
  (forall s data, Z.of_nat (length (rsi_window s)) < 2 ^ 64 ->
     call (crate u) n "RollSumIncr::roll"%string [enc_RsIncr s; vbytes data] =
     as_out (fun s' => ([enc_RsIncr s'; vbytes data], VUnit)) (roll_bytes s data)) /\
  (forall s, call (crate u) n "RollSumIncr::digest"%string [enc_RsIncr s] = Done ([enc_RsIncr s], VInt U32 (rollsum_incr_digest s))) /\
  (forall seed, call (crate u) n "borg_buzhash_table"%string [VInt U32 seed] = Done ([VInt U32 seed], vu32s (borg_buzhash_table seed))) /\
  (forall t, is_hash (crate u) (enc_TableHash t) (table_hash t) /\ is_hash (crate u) (enc_TableBufHash t) (table_hash t)) /\
  (forall salt t, is_hash (crate u) (enc_SaltHash salt t) (table_byte_salt_hash salt t)) /\
  (forall r x,
     call (crate u) n "R::contains"%string [enc_range_value r; VInt U64 x] =
       Done ([enc_range_value r; VInt U64 x], VBool (range_contains (bounds_of r) x)) /\
     call (crate u) n "R::exceeds_max"%string [enc_range_value r; VInt U64 x] =
       Done ([enc_range_value r; VInt U64 x], VBool (exceeds_max (bounds_of r) x)) /\
     call (crate u) n "R::under_min"%string [enc_range_value r; VInt U64 x] =
       Done ([enc_range_value r; VInt U64 x], VBool (under_min (bounds_of r) x)) /\
     call (crate u) n "R::into_tuple"%string [enc_range_value r] =
       Done ([enc_range_value r], enc_range (into_tuple (bounds_of r)))).
Proof.
  intros u n Hn. split; [intros; apply src_roll_byte; try assumption; lia|]. split; [intros; apply src_roll; try assumption; lia|].
  split; [intros; apply src_rs_incr_digest; lia|]. split; [intros; apply src_borg_buzhash_table; lia|].
  split; [intros; split; [apply src_table_hash|apply src_table_buf_hash]|]. split; [intros; apply src_salt_hash|].
  intros r x. split; [apply src_contains; lia|]. split; [apply src_exceeds_max; lia|]. split; [apply src_under_min; lia|apply src_into_tuple; lia].
Qed.
Print Assumptions C71_helpers.

(** The constant tables are those of the text. *)
Theorem C71_tables : forall u name t l, In (name, (t, l)) tables ->
  exists f, crate u name = Some (Given [] f) /\ f [] = Done ([], VList (map (VInt t) l)).
Proof. intros u name t l H. repeat (destruct H as [H|H]; [injection H as <- <- <-; eexists; split; reflexivity|]). destruct H. Qed.
Print Assumptions C71_tables.
Example C71_tables_case : map fst tables = ["GO_BUZHASH"; "BORG_BUZHASH_BASE"; "GEAR_32"; "GEAR_64"]%string.
Proof. reflexivity. Qed.

(** Evaluated. *)
Definition no_user : program := fun _ => None.
Definition some_bytes : list byte := [x01; x02; x03; x01; x05; x02; x00; x04; x08; x09].
Definition text_push (c : config) : res (list nat * (nat * nat * bool)) :=
  C <- text_incr (crate no_user) 140 (enc_TableHash GO_BUZHASH) c ;; rmap observe (run_incr (incr_adj c) C some_bytes [4; 6; 6; 6; 6; 6; 6]%nat).
Definition text_find (c : config) : res (list nat * (nat * nat * bool)) :=
  C <- text_chunk (crate no_user) 140 (enc_TableHash GO_BUZHASH) c ;; rmap observe (run_chunk true C some_bytes [4; 6; 8; 8; 10; 10; 10; 10; 10]%nat).
Example C71_case :
  text_push (CfgMii 2) = Ok ([3; 5; 9]%nat, (10%nat, 10%nat, true)) /\
  text_push (CfgRam 2) = Ok ([5; 9]%nat, (10%nat, 10%nat, true)) /\
  text_push (CfgGear 2) = Ok ([5; 7; 8; 9]%nat, (10%nat, 10%nat, true)) /\ text_push (CfgGear 33) = Panic /\
  text_push (CfgGzip 2 4) = Ok ([4; 8; 9]%nat, (10%nat, 10%nat, true)) /\
  text_push (CfgFastCdc GEAR_64 2 4 6) = Ok ([6]%nat, (10%nat, 10%nat, true)) /\
  text_push (CfgRollSum 0) = Panic /\ text_find (CfgRollSum 0) = Ok ([], (10%nat, 10%nat, true)) /\
  text_find (CfgBuzHash 3 3 (table_hash GO_BUZHASH) 100) = Ok ([6; 7; 9]%nat, (9%nat, 10%nat, true)) /\
  text_push (CfgZpaq 1 (Included 2, Included 4)) = Ok ([5; 7; 9]%nat, (10%nat, 10%nat, true)) /\
  text_push (CfgZstd 4) = Panic.
Proof. vm_compute. repeat split; reflexivity. Qed.

(** The conditions of the theorems hold of these. *)
Example C71_case_fits :
  let hv := enc_TableHash GO_BUZHASH in
  fits (crate no_user) hv (CfgGzip 2 4) /\ fits (crate no_user) hv (CfgRollSum 0) /\
  fits (crate no_user) hv (CfgBuzHash 3 3 (table_hash GO_BUZHASH) 100) /\
  typed (CfgBuzHash 3 3 (table_hash GO_BUZHASH) 100).
Proof. cbn [fits]. split; [lia|]. split; [lia|]. split; [split; [lia|apply src_table_hash]|]. cbv [typed].
  split; [unfold is_u32; lia|]. split; [unfold is_u64; lia|]. intros b. destruct b; eexists; (split; [reflexivity|]); unfold is_u32; lia.
Qed.
