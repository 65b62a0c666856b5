(** * Gzip: model of src/gzip.rs. *)

From Verif Require Import Base Api.

(** src/gzip.rs:55-61 [struct GzipRsyncable]. *)
Record GzipRsyncable : Type := {
  gzip_window_len : nat;
  gzip_modulus : Z;
}.

(** src/gzip.rs:64-69 [GzipRsyncable::with_window_and_modulus]. *)
Definition gzip_with_window_and_modulus (window : nat) (modulus : Z) : GzipRsyncable :=
  {| gzip_window_len := window; gzip_modulus := modulus |}.

(** src/gzip.rs:73-75 [Default for GzipRsyncable]. *)
Definition gzip_default : GzipRsyncable := gzip_with_window_and_modulus (Z.to_nat 8192) 4096.

(** [accum % Wrapping(modulus)]: a zero divisor panics. *)
Definition rem_u64 (a m : Z) : res Z := if m =? 0 then Panic else Ok (a mod m).

(** src/gzip.rs:134-137 [struct GzipRsyncableSearchState] (with the [accum] of src/gzip.rs:120-122). *)
Record GzipSearchState : Type := {
  gzip_offset : nat;
  gzip_accum : Z;
}.

(** src/gzip.rs:133 [#[derive(Default)]]. *)
Definition gzip_search_default : GzipSearchState := {| gzip_offset := 0; gzip_accum := 0 |}.

(** src/gzip.rs:139-144 and 124-128 [reset]. *)
Definition gzip_search_reset (s : GzipSearchState) : GzipSearchState := {| gzip_offset := 0; gzip_accum := 0 |}.

(** src/gzip.rs:181-187 [GzipRsyncableState::add]. *)
Definition gzip_add (p : GzipRsyncable) (accum : Z) (data : list byte) (i : nat) (v : byte) : res (Z * bool) :=
  accum1 <- (if Nat.leb (gzip_window_len p) i then
               drop <- index data (i - gzip_window_len p) ;;
               Ok (wrap64 (accum - b2z drop))
             else Ok accum) ;;
  let accum2 := wrap64 (accum1 + b2z v) in
  r <- rem_u64 accum2 (gzip_modulus p) ;;
  Ok (accum2, r =? 0).

(** src/gzip.rs:90-97, the loop body of [find_chunk_edge]. *)
Definition gzip_fce_body (p : GzipRsyncable) (data : list byte) (s : GzipSearchState) (i : nat)
  : res (ctl GzipSearchState nat) :=
  v <- index data i ;;
  '(accum, hit) <- gzip_add p (gzip_accum s) data i v ;;
  let s' := {| gzip_offset := gzip_offset s; gzip_accum := accum |} in
  if (hit : bool) then Ok (Return (gzip_search_reset s') (i + 1)%nat) else Ok (Next s').

(** src/gzip.rs:85-103 [GzipRsyncable::find_chunk_edge]. *)
Definition gzip_find_chunk_edge (p : GzipRsyncable) (s : GzipSearchState) (data : list byte)
  : res (GzipSearchState * (option nat * nat)) :=
  r <- for_range (gzip_fce_body p data) (gzip_offset s) (length data - gzip_offset s) s ;;
  match r with
  | Return s' k => Ok (s', (Some k, k))
  | Next s' | Break s' =>
      let discard_ct := (length data - gzip_window_len p)%nat in   (* saturating_sub *)
      Ok ({| gzip_offset := length data - discard_ct; gzip_accum := gzip_accum s' |}, (None, discard_ct))
  end.

(** src/gzip.rs:78-104 [Chunk for GzipRsyncable]. *)
Definition gzip_chunk (p : GzipRsyncable) : Chunk :=
  {| search_state := GzipSearchState; to_search_state := gzip_search_default;
     find_chunk_edge := gzip_find_chunk_edge p |}.

(** src/gzip.rs:154-160 [struct GzipRsyncableIncr]; the [VecDeque] is a list, front first. *)
Record GzipIncr : Type := {
  gzi_accum : Z;
  gzi_window : list byte;
}.

(** src/gzip.rs:169-178 [From<GzipRsyncable> for GzipRsyncableIncr] (the capacity hint is not modelled). *)
Definition gzip_incr_new : GzipIncr := {| gzi_accum := 0; gzi_window := [] |}.

(** src/gzip.rs:163-166 [GzipRsyncableIncr::reset]. *)
Definition gzip_incr_reset (s : GzipIncr) : GzipIncr := {| gzi_accum := 0; gzi_window := [] |}.

(** src/gzip.rs:193-203, the loop body of [push]; [pop_front().unwrap()] panics on an empty window. *)
Definition gzip_push_body (p : GzipRsyncable) (s : GzipIncr) (i : nat) (v : byte) : res (ctl GzipIncr nat) :=
  s1 <- (if Nat.leb (gzip_window_len p) (length (gzi_window s)) then
           match gzi_window s with
           | [] => Panic
           | o :: w => Ok {| gzi_accum := wrap64 (gzi_accum s - b2z o); gzi_window := w |}
           end
         else Ok s) ;;
  let s2 := {| gzi_accum := wrap64 (gzi_accum s1 + b2z v); gzi_window := gzi_window s1 ++ [v] |} in
  r <- rem_u64 (gzi_accum s2) (gzip_modulus p) ;;
  if r =? 0 then Ok (Return (gzip_incr_reset s2) (i + 1)%nat) else Ok (Next s2).

(** src/gzip.rs:191-207 [<GzipRsyncableIncr as ChunkIncr>::push]. *)
Definition gzip_push (p : GzipRsyncable) (s : GzipIncr) (data : list byte) : res (GzipIncr * option nat) :=
  r <- for_enum (gzip_push_body p) 0 data s ;;
  match r with
  | Return s' k => Ok (s', Some k)
  | Next s' | Break s' => Ok (s', None)
  end.

(** src/gzip.rs:112-117 [ToChunkIncr for GzipRsyncable]. *)
Definition gzip_incr (p : GzipRsyncable) : Incr :=
  {| incr_state := GzipIncr; incr_new := gzip_incr_new; incr_push := gzip_push p |}.
