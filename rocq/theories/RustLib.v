(** * RustLib: the text of src/lib.rs computes what the model in Api.v computes.

    The iterators of src/lib.rs are generic in the chunker [C: ChunkIncr].  Here [C] is any type of which the program
    has a method [push] that computes the [incr_push] of a model [C]; the chunker may be the crate's or the user's. *)

From Coq Require Import String ZifyBool ZifyNat.
From Verif Require Import Base Api Lists Rust RustText RustSim.
Open Scope list_scope.
Open Scope Z_scope.

(** The source type [T] implements [ChunkIncr], and its [push] computes that of the model [C]: states of the model
    that satisfy [Inv] stand for the values [enc] makes of them. *)
Definition computes_push (prog : program) (T : string) (C : Incr) (enc : incr_state C -> value) (Inv : incr_state C -> Prop) (N : nat) : Prop :=
  (forall s, type_of (enc s) = T) /\
  (exists x, params_of prog (append T "::push") = [("self"%string, true); (x, false)]) /\
  (forall n s data, (N + length data <= n)%nat -> Inv s -> Z.of_nat (length data) < 2 ^ 64 ->
     call prog n (append T "::push") [enc s; vbytes data] =
     as_out (fun '(s', o) => ([enc s'; vbytes data], vopt o)) (incr_push C s data)).

Definition enc_Iter {C : Incr} (enc : incr_state C -> value) (it : SliceIter C) : value :=
  VStruct "IterSlices" [("rem"%string, vbytes (it_rem it)); ("chunker"%string, enc (it_chunker it))].
Definition enc_IterStrict {C : Incr} (enc : incr_state C -> value) (it : SliceIter C) : value :=
  VStruct "IterSlicesStrict" [("rem"%string, vbytes (it_rem it)); ("chunker"%string, enc (it_chunker it))].
(** [Option<&[u8]>] *)
Definition vitem (o : option (list byte)) : value := match o with Some l => VSome (vbytes l) | None => VNone end.

Ltac reduce_hook ::=
  cbn beta iota zeta delta
    [enc_Iter enc_IterStrict vitem type_of get_field set_field assoc assoc_set String.eqb Ascii.eqb Bool.eqb obind it_rem it_chunker].

Section Crate.
Variable u : program.
Variable T : string.
Variable C : Incr.
Variable enc : incr_state C -> value.
Variable Inv : incr_state C -> Prop.
Variable N : nat.

Lemma src_iter_slices n s data : (20 <= n)%nat ->
  call (crate u) n "ChunkIncr::iter_slices" [enc s; vbytes data] =
  Done ([enc s; vbytes data], enc_Iter enc (iter_slices C s data)).
Proof. start. enter. reflexivity. Qed.

Lemma src_iter_slices_strict n s data : (20 <= n)%nat ->
  call (crate u) n "ChunkIncr::iter_slices_strict" [enc s; vbytes data] =
  Done ([enc s; vbytes data], enc_IterStrict enc (iter_slices_strict C s data)).
Proof. start. enter. reflexivity. Qed.

Lemma src_take_rem n (it : SliceIter C) : (20 <= n)%nat ->
  call (crate u) n "IterSlicesStrict::take_rem" [enc_IterStrict enc it] =
  Done ([enc_IterStrict enc (fst (take_rem it))], vbytes (snd (take_rem it))).
Proof. start. enter. reflexivity. Qed.

Lemma src_into_parts n (it : SliceIter C) : (20 <= n)%nat ->
  call (crate u) n "IterSlices::into_parts" [enc_Iter enc it] =
  Done ([enc_Iter enc it], VPair (enc (fst (into_parts it))) (vbytes (snd (into_parts it)))).
Proof. start. enter. reflexivity. Qed.

Lemma src_into_parts_strict n (it : SliceIter C) : (20 <= n)%nat ->
  call (crate u) n "IterSlicesStrict::into_parts" [enc_IterStrict enc it] =
  Done ([enc_IterStrict enc it], VPair (enc (fst (into_parts it))) (vbytes (snd (into_parts it)))).
Proof. start. enter. reflexivity. Qed.

Hypothesis HC : computes_push (crate u) T C enc Inv N.

Lemma src_iter_slices_strict_next n it : (20 + N + length (it_rem it) <= n)%nat -> Inv (it_chunker it) -> Z.of_nat (length (it_rem it)) < 2 ^ 64 ->
  call (crate u) n "IterSlicesStrict::next" [enc_IterStrict enc it] =
  as_out (fun '(it', o) => ([enc_IterStrict enc it'], vitem o)) (iter_slices_strict_next it).
Proof.
  intros Hn HI Hr. destruct HC as (Ht & [x Hp] & Hc). assert (Hn' : (20 <= n)%nat) by lia.
  destruct (bump_ge _ _ Hn') as [m ->]. 
  cbn [bump] in Hn. unfold params_of in Hp. enter. rewrite Ht, Hp, Hc by (assumption || lia).
  unfold iter_slices_strict_next. destruct (incr_push C (it_chunker it) (it_rem it)) as [[s' [l|]]| |]; unfold as_out, bind; reduce; try reflexivity.
  unfold split_at. rewrite map_length.
  destruct (Nat.leb l (length (it_rem it))) eqn:E; [replace (Z.of_nat l <=? Z.of_nat (length (it_rem it))) with true by lia
    | replace (Z.of_nat l <=? Z.of_nat (length (it_rem it))) with false by lia]; reduce; [|reflexivity].
  rewrite Nat2Z.id, firstn_map, skipn_map. reflexivity.
Qed.

Lemma src_iter_slices_next n it : (20 + N + length (it_rem it) <= n)%nat -> Inv (it_chunker it) -> Z.of_nat (length (it_rem it)) < 2 ^ 64 ->
  call (crate u) n "IterSlices::next" [enc_Iter enc it] =
  as_out (fun '(it', o) => ([enc_Iter enc it'], vitem o)) (iter_slices_next it).
Proof.
  destruct it as [rem st]; cbn [it_rem it_chunker]; intros Hn HI Hr. destruct HC as (Ht & [x Hp] & Hc). assert (Hn' : (20 <= n)%nat) by lia.
  destruct (bump_ge _ _ Hn') as [m ->]. cbn [bump] in Hn. unfold params_of in Hp. enter. unfold iter_slices_next.
  cbn [it_rem it_chunker].
  destruct rem as [|b0 r]; cbn [map]; reduce; [reflexivity|].
  change (VList (VInt U8 (b2z b0) :: map vbyte r)) with (vbytes (b0 :: r)).
  rewrite Ht, Hp, Hc by (assumption || lia).
  destruct (incr_push C st (b0 :: r)) as [[s' [l|]]| |]; unfold as_out, bind; reduce; try reflexivity.
  unfold split_at. change (S (length (map vbyte r))) with (length (map vbyte (b0 :: r))). rewrite map_length.
  destruct (Nat.leb l (length (b0 :: r))) eqn:E; [replace (Z.of_nat l <=? Z.of_nat (length (b0 :: r))) with true by lia
    | replace (Z.of_nat l <=? Z.of_nat (length (b0 :: r))) with false by lia]; reduce; [|reflexivity].
  rewrite Nat2Z.id, firstn_map, skipn_map. reflexivity.
Qed.

End Crate.
