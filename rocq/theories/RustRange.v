(** * RustRange: the text of src/range.rs computes what the model in Range.v computes, for every kind of range. *)

From Coq Require Import String ZifyBool ZifyNat.
From Verif Require Import Base Api Range Rust RustText RustSim.
Open Scope list_scope.
Open Scope Z_scope.

Definition enc_bound (b : bound) : value :=
  match b with
  | Included z => VCon "Included" [VInt U64 z]
  | Excluded z => VCon "Excluded" [VInt U64 z]
  | Unbounded => VCon "Unbounded" []
  end.
(** The range as a pair of bounds, as the crate keeps it. *)
Definition enc_range (r : range) : value := VPair (enc_bound (start_bound r)) (enc_bound (end_bound r)).

(** The types of the standard library that implement [RangeBounds<u64>]. *)
Inductive range_value : Type :=
| RTuple (a b : bound)     (* (a, b) *)
| RRange (a b : Z)         (* a..b *)
| RInclusive (a b : Z)     (* a..=b *)
| RFrom (a : Z)            (* a.. *)
| RTo (b : Z)              (* ..b *)
| RToInclusive (b : Z)     (* ..=b *)
| RFull.                   (* .. *)

Definition enc_range_value (r : range_value) : value :=
  match r with
  | RTuple a b => VPair (enc_bound a) (enc_bound b)
  | RRange a b => VCon ".." [VInt U64 a; VInt U64 b]
  | RInclusive a b => VCon "..=" [VInt U64 a; VInt U64 b]
  | RFrom a => VCon "a.." [VInt U64 a]
  | RTo b => VCon "..b" [VInt U64 b]
  | RToInclusive b => VCon "..=b" [VInt U64 b]
  | RFull => VCon ".." []
  end.

(** Its bounds. *)
Definition bounds_of (r : range_value) : range :=
  match r with
  | RTuple a b => (a, b)
  | RRange a b => (Included a, Excluded b)
  | RInclusive a b => (Included a, Included b)
  | RFrom a => (Included a, Unbounded)
  | RTo b => (Unbounded, Excluded b)
  | RToInclusive b => (Unbounded, Included b)
  | RFull => (Unbounded, Unbounded)
  end.

Section Crate.
Variable u : program.

Ltac each r := destruct r as [[?|?|] [?|?|]|? ?|? ?|?|?|?|]; cbn [enc_range_value enc_bound bounds_of].

Lemma src_exceeds_max n r item : (60 <= n)%nat ->
  call (crate u) n "R::exceeds_max" [enc_range_value r; VInt U64 item] =
  Done ([enc_range_value r; VInt U64 item], VBool (exceeds_max (bounds_of r) item)).
Proof. start. each r; enter; unfold exceeds_max, end_bound; cbn [snd]; cases; reflexivity. Qed.

Lemma src_under_min n r item : (60 <= n)%nat ->
  call (crate u) n "R::under_min" [enc_range_value r; VInt U64 item] =
  Done ([enc_range_value r; VInt U64 item], VBool (under_min (bounds_of r) item)).
Proof. start. each r; enter; unfold under_min, start_bound; cbn [fst]; cases; reflexivity. Qed.

Lemma type_of_range r : type_of (enc_range_value r) = "R"%string.
Proof. destruct r; reflexivity. Qed.

Lemma src_contains n r item : (80 <= n)%nat ->
  call (crate u) n "R::contains" [enc_range_value r; VInt U64 item] =
  Done ([enc_range_value r; VInt U64 item], VBool (range_contains (bounds_of r) item)).
Proof.
  start. enter. rewrite type_of_range. reduce. rewrite src_under_min by lia. unfold range_contains. reduce.
  destruct (under_min (bounds_of r) item); reduce; [reflexivity|].
  rewrite type_of_range. reduce. rewrite src_exceeds_max by lia. reduce.
  destruct (exceeds_max (bounds_of r) item); reduce; reflexivity.
Qed.

Lemma src_bound_cloned n b : (40 <= n)%nat ->
  call (crate u) n "bound_cloned" [enc_bound b] = Done ([enc_bound b], enc_bound (bound_cloned b)).
Proof. start. destruct b; enter; reflexivity. Qed.

Lemma src_into_tuple n r : (60 <= n)%nat ->
  call (crate u) n "R::into_tuple" [enc_range_value r] =
  Done ([enc_range_value r], enc_range (into_tuple (bounds_of r))).
Proof. start. each r; run; reflexivity. Qed.

End Crate.
