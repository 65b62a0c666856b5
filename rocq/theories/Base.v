(** * Base: results, machine words and Rust loop forms shared by every model file.

    Conventions of the whole development
    - a byte ([u8]) is [Coq.Init.Byte.byte]; [b2z] is the cast [as u32] / [as u64] / [as usize];
    - [u32] and [u64] values are [Z]; [Wrapping] operations reduce explicitly modulo [2^32] / [2^64];
    - plain [+], [-], [*], [<<] on integers are *checked*: they give [Panic] exactly where a Rust build with
      overflow checks panics.  A theorem concluding [Ok] therefore covers builds with and without the checks;
    - slice lengths and slice indices ([usize]) are [nat]: a Rust slice has at most [isize::MAX] bytes, so
      [i + 1] on an index cannot overflow and is not checked. *)

From Coq Require Export List ZArith Lia Bool.
From Coq Require Export Init.Byte.
From Coq Require Strings.Byte.
Export ListNotations.
Open Scope Z_scope.

(** Outcome of running a piece of Rust: a value, a panic, or "out of fuel" for a loop that was not seen to end. *)
Inductive res (A : Type) : Type :=
| Ok (a : A)
| Panic
| Diverge.
Arguments Ok {A} a.
Arguments Panic {A}.
Arguments Diverge {A}.

Definition bind {A B} (m : res A) (f : A -> res B) : res B :=
  match m with
  | Ok a => f a
  | Panic => Panic
  | Diverge => Diverge
  end.
Notation "x <- m ;; k" := (bind m (fun x => k)) (at level 61, m at next level, right associativity).
Notation "' p <- m ;; k" := (bind m (fun p => k)) (at level 61, p pattern, m at next level, right associativity).

(** [v as u32], [v as u64], [v as usize] for [v : u8]. *)
Definition b2z (b : byte) : Z := Z.of_N (Byte.to_N b).

(** [b > c], [b >= c] on [u8]. *)
Definition byte_gtb (b c : byte) : bool := b2z c <? b2z b.
Definition byte_geb (b c : byte) : bool := b2z c <=? b2z b.
Definition byte_eqb (b c : byte) : bool := Byte.eqb b c.

Definition two32 : Z := 2 ^ 32.
Definition two64 : Z := 2 ^ 64.

(** [std::num::Wrapping<u32>] / [Wrapping<u64>]: every operation reduces modulo the word size. *)
Definition wrap32 (x : Z) : Z := x mod two32.
Definition wrap64 (x : Z) : Z := x mod two64.

(** Checked [u64] / [u32] / [usize] arithmetic (overflow is a panic in a checked build). *)
Definition add_u64 (a b : Z) : res Z := if a + b <? two64 then Ok (a + b) else Panic.
Definition sub_u64 (a b : Z) : res Z := if b <=? a then Ok (a - b) else Panic.
Definition mul_u64 (a b : Z) : res Z := if a * b <? two64 then Ok (a * b) else Panic.
(** [a << n] on [u32] / [u64]: the shift *amount* is checked, bits shifted out are dropped. *)
Definition shl_u32 (a n : Z) : res Z := if (0 <=? n) && (n <? 32) then Ok (wrap32 (Z.shiftl a n)) else Panic.
Definition shl_u64 (a n : Z) : res Z := if (0 <=? n) && (n <? 64) then Ok (wrap64 (Z.shiftl a n)) else Panic.
(** [a - b] on [u32]. *)
Definition sub_u32 (a b : Z) : res Z := if b <=? a then Ok (a - b) else Panic.
(** [a - b] on [usize] (indices and lengths are [nat]). *)
Definition sub_usize (a b : nat) : res nat := if Nat.leb b a then Ok (a - b)%nat else Panic.

(** [assert!(c)]. *)
Definition rust_assert (c : bool) : res unit := if c then Ok tt else Panic.

(** [l[i]]: bounds-checked indexing. *)
Definition index {A} (l : list A) (i : nat) : res A :=
  match nth_error l i with
  | Some a => Ok a
  | None => Panic
  end.

(** [l[i] = v]: bounds-checked store. *)
Fixpoint set_nth {A} (l : list A) (i : nat) (v : A) : list A :=
  match l, i with
  | [], _ => []
  | _ :: t, O => v :: t
  | x :: t, S i' => x :: set_nth t i' v
  end.
Definition store {A} (l : list A) (i : nat) (v : A) : res (list A) :=
  if Nat.ltb i (length l) then Ok (set_nth l i v) else Panic.

(** [&l[lo..hi]]: bounds-checked subslice. *)
Definition sub_slice {A} (l : list A) (lo hi : nat) : res (list A) :=
  if (Nat.leb lo hi && Nat.leb hi (length l))%bool then Ok (firstn (hi - lo) (skipn lo l)) else Panic.

(** Control flow of a loop body: fall through to the next iteration, [return r], or (for [loop]) [break]. *)
Inductive ctl (S R : Type) : Type :=
| Next (s : S)
| Return (s : S) (r : R)
| Break (s : S).
Arguments Next {S R} s.
Arguments Return {S R} s r.
Arguments Break {S R} s.

(** [for (i, v) in data.iter().enumerate() { body }], started at index [i]. *)
Fixpoint for_enum {S R A} (body : S -> nat -> A -> res (ctl S R)) (i : nat) (data : list A) (s : S)
  : res (ctl S R) :=
  match data with
  | [] => Ok (Next s)
  | v :: rest =>
      c <- body s i v ;;
      match c with
      | Next s' => for_enum body (Datatypes.S i) rest s'
      | other => Ok other
      end
  end.

(** [for i in lo..hi { body }] with [n = hi - lo] iterations (none when [hi <= lo]). *)
Fixpoint for_range {S R} (body : S -> nat -> res (ctl S R)) (lo n : nat) (s : S) : res (ctl S R) :=
  match n with
  | O => Ok (Next s)
  | Datatypes.S n' =>
      c <- body s lo ;;
      match c with
      | Next s' => for_range body (Datatypes.S lo) n' s'
      | other => Ok other
      end
  end.

(** [loop { body }] with explicit fuel; running out of fuel is [Diverge]. *)
Fixpoint loop {S R} (fuel : nat) (body : S -> res (ctl S R)) (s : S) : res (ctl S R) :=
  match fuel with
  | O => Diverge
  | Datatypes.S fuel' =>
      c <- body s ;;
      match c with
      | Next s' => loop fuel' body s'
      | other => Ok other
      end
  end.
