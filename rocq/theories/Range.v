(** * Range: model of src/range.rs. *)

From Verif Require Import Base.

(** [std::ops::Bound<u64>]. *)
Inductive bound : Type :=
| Included (z : Z)
| Excluded (z : Z)
| Unbounded.

(** A value of a type implementing [RangeBounds<u64>], seen through [start_bound()] and [end_bound()].
    Simplification: only the bounds are kept, as nothing in the crate looks at anything else of a range. *)
Definition range : Type := (bound * bound)%type.
Definition start_bound (r : range) : bound := fst r.
Definition end_bound (r : range) : bound := snd r.

(** src/range.rs:22-41 [RangeExt::exceeds_max]. *)
Definition exceeds_max (r : range) (item : Z) : bool :=
  match end_bound r with
  | Included i => i <? item
  | Excluded i => i <=? item
  | Unbounded => false
  end.

(** src/range.rs:43-62 [RangeExt::under_min]. *)
Definition under_min (r : range) (item : Z) : bool :=
  match start_bound r with
  | Included i => item <? i
  | Excluded i => item <=? i
  | Unbounded => false
  end.

(** src/range.rs:64-78 [RangeExt::contains]. *)
Definition range_contains (r : range) (item : Z) : bool :=
  if under_min r item then false
  else if exceeds_max r item then false
  else true.

(** src/range.rs:103-109 [bound_cloned]. *)
Definition bound_cloned (b : bound) : bound :=
  match b with
  | Unbounded => Unbounded
  | Included x => Included x
  | Excluded x => Excluded x
  end.

(** src/range.rs:80-88 [RangeExt::into_tuple]. *)
Definition into_tuple (r : range) : range := (bound_cloned (start_bound r), bound_cloned (end_bound r)).

(** The bounds of a [RangeBounds<u64>]. *)
Definition word_range (r : range) : Prop :=
  match fst r with Included i | Excluded i => 0 <= i < 2 ^ 64 | Unbounded => True end /\
  match snd r with Included i | Excluded i => 0 <= i < 2 ^ 64 | Unbounded => True end.
