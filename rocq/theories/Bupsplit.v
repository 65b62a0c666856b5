(** * Bupsplit: tests/qc_bup.rs, and the crate [rollsum] it compares with.

    [rollsum::Bup] (version 0.3) is not in the repository; what the tests use of it is written down here from the published
    algorithm ([bupsplit.c] of bup).  Whether [find_chunk_edge] starts over after an edge is a parameter: every theorem says for which of
    the two it holds. *)

From Verif Require Import Base Api Bup.

Record Bup : Type := { b_s1 : Z; b_s2 : Z; b_window : list byte; b_wofs : nat }.

(** [Bup::default()]: a window of 64 zeros. *)
Definition bup_new : Bup := {| b_s1 := 64 * 31; b_s2 := 64 * 63 * 31; b_window := repeat x00 64; b_wofs := 0 |}.

(** [roll_byte].  The sums are numbers here, whatever the word they are kept in (C83_words: none can overflow). *)
Definition bup_roll (s : Bup) (ch : byte) : Bup :=
  let drop := nth (b_wofs s) (b_window s) x00 in
  let s1 := b_s1 s + b2z ch - b2z drop in
  {| b_s1 := s1; b_s2 := b_s2 s + s1 - 64 * (b2z drop + 31);
     b_window := firstn (b_wofs s) (b_window s) ++ ch :: skipn (S (b_wofs s)) (b_window s); b_wofs := (b_wofs s + 1) mod 64 |}.
Definition bup_sum (s : Bup) : Z := Z.lor (Z.shiftl (b_s1 s) 16 mod 2 ^ 32) (Z.land (b_s2 s) 0xffff).

(** [CHUNK_BITS] is 13. *)
Definition bup_edge (s : Bup) : bool := Z.land (bup_sum s) (Z.shiftl 1 13 - 1) =? Z.shiftl 1 13 - 1.
Fixpoint bup_find (resets : bool) (s : Bup) (i : nat) (data : list byte) : Bup * option (nat * Z) :=
  match data with
  | [] => (s, None)
  | b :: r => let s' := bup_roll s b in
      if bup_edge s' then ((if resets then bup_new else s'), Some ((i + 1)%nat, bup_sum s')) else bup_find resets s' (i + 1) r
  end.
Definition bup_find_chunk_edge (resets : bool) (s : Bup) (data : list byte) : Bup * option (nat * Z) := bup_find resets s 0 data.

(** ** The tests *)

Definition same_answer (a : option nat) (b : option (nat * Z)) : bool :=
  match a, option_map fst b with Some x, Some y => Nat.eqb x y | None, None => true | _, _ => false end.

(** tests/qc_bup.rs:7-15 [simple_eq]. *)
Definition qc_simple_eq (resets : bool) (xs : list byte) : res bool :=
  '(_, v1) <- rollsum_push (rollsum_incr_new rollsum_default) xs ;;
  Ok (same_answer v1 (snd (bup_find_chunk_edge resets bup_new xs))).

(** tests/qc_bup.rs:22-40, the loop of [iter_eq]. *)
Fixpoint qc_iter_loop (resets : bool) (fuel : nat) (m1 : RollSumIncr) (m2 : Bup) (x : list byte) : res bool :=
  match fuel with
  | O => Diverge
  | S fuel' =>
      '(m1', v1) <- rollsum_push m1 x ;;
      let '(m2', v2) := bup_find_chunk_edge resets m2 x in
      if negb (same_answer v1 v2) then Ok false
      else match v1 with
           | None => Ok true
           | Some k =>
               '(_, x') <- split_at x k ;;
               match x' with [] => Ok true | _ => qc_iter_loop resets fuel' m1' m2' x' end
           end
  end.
(** tests/qc_bup.rs:17-41 [iter_eq]. *)
Definition qc_iter_eq (resets : bool) (fuel : nat) (xs : list byte) : res bool :=
  qc_iter_loop resets fuel (rollsum_incr_new rollsum_default) bup_new xs.

(** tests/qc_bup.rs:44-52 [chk_a]. *)
Definition qc_chk_a (resets : bool) (x : list byte) : res unit := b <- qc_simple_eq resets x ;; rust_assert b.

(** tests/qc_bup.rs:54-67 [chk_b]. *)
Fixpoint qc_chk_b_loop (m1 : RollSumIncr) (m2 : Bup) (x : list byte) : res unit :=
  match x with
  | [] => Ok tt
  | v :: r =>
      m1' <- roll_byte m1 v ;;
      let m2' := bup_roll m2 v in
      _ <- rust_assert (rollsum_incr_digest m1' =? bup_sum m2') ;;
      _ <- rust_assert (Bool.eqb (rollsum_incr_at_split m1') (bup_edge m2')) ;;
      qc_chk_b_loop m1' m2' r
  end.
Definition qc_chk_b (x : list byte) : res unit := qc_chk_b_loop (rollsum_incr_new rollsum_default) bup_new x.

(** ** The tests of src/bup.rs that compare with the same crate, for the bytes [b] that the generator draws *)

(** src/bup.rs:271-277. *)
Fixpoint compare_rollsum_loop (m1 : RollSumIncr) (m2 : Bup) (b : list byte) : res (RollSumIncr * Bup) :=
  match b with
  | [] => Ok (m1, m2)
  | v :: r =>
      m1' <- roll_byte m1 v ;;
      let m2' := bup_roll m2 v in
      _ <- rust_assert (rollsum_incr_digest m1' =? bup_sum m2') ;;
      compare_rollsum_loop m1' m2' r
  end.
(** src/bup.rs:250-283 [compare_rollsum]. *)
Definition compare_rollsum (b : list byte) : res unit :=
  let m1 := rollsum_incr_new rollsum_default in
  let m2 := bup_new in
  _ <- rust_assert (rollsum_incr_digest m1 =? bup_sum m2) ;;
  m1 <- roll_byte m1 x04 ;;
  let m2 := bup_roll m2 x04 in
  _ <- rust_assert (rollsum_incr_digest m1 =? bup_sum m2) ;;
  m1 <- roll_byte m1 x12 ;;
  let m2 := bup_roll m2 x12 in
  _ <- rust_assert (rollsum_incr_digest m1 =? bup_sum m2) ;;
  '(m1, m2) <- compare_rollsum_loop m1 m2 b ;;
  m1 <- roll_bytes m1 b ;;
  let m2 := fold_left bup_roll b m2 in
  rust_assert (rollsum_incr_digest m1 =? bup_sum m2).

(** src/bup.rs:297-308. *)
Fixpoint compare_bup_loop (resets : bool) (fuel : nat) (m1 : RollSumIncr) (m2 : Bup) (x : list byte) : res unit :=
  match fuel with
  | O => Diverge
  | S fuel' =>
      '(m1', v1) <- rollsum_push m1 x ;;
      let '(m2', v2) := bup_find_chunk_edge resets m2 x in
      _ <- rust_assert (same_answer v1 v2) ;;
      match v1 with
      | None => Ok tt
      | Some v => '(_, x') <- split_at x v ;; compare_bup_loop resets fuel' m1' m2' x'
      end
  end.
(** src/bup.rs:285-309 [compare_bup]. *)
Definition compare_bup (resets : bool) (fuel : nat) (b : list byte) : res unit :=
  compare_bup_loop resets fuel (rollsum_incr_new rollsum_default) bup_new b.
