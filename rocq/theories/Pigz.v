(** * Pigz: model of src/pigz.rs. *)

From Verif Require Import Base Api.

(** src/pigz.rs:5-12 [struct PigzRsyncable]. *)
Record PigzRsyncable : Type := {
  pigz_bits : Z;
  pigz_mask : Z;
  pigz_hit : Z;
}.

(** src/pigz.rs:15-19 [PigzRsyncable::with_bits] ([1 << bits] is on [u32]). *)
Definition pigz_with_bits (bits : Z) : res PigzRsyncable :=
  a <- shl_u32 1 bits ;;
  mask <- sub_u32 a 1 ;;
  let hit := Z.shiftr mask 1 in
  Ok {| pigz_bits := bits; pigz_mask := mask; pigz_hit := hit |}.

(** src/pigz.rs:23-25 [Default for PigzRsyncable]. *)
Definition pigz_default : res PigzRsyncable := pigz_with_bits 12.

(** src/pigz.rs:65-67 [struct PigzRsyncableState]: the hash ([PigzRsyncableSearchState], src/pigz.rs:79-81, wraps it). *)
Definition PigzState : Type := Z.

(** src/pigz.rs:69-73 [From<&PigzRsyncable> for PigzRsyncableState]. *)
Definition pigz_state_new (p : PigzRsyncable) : PigzState := pigz_hit p.

(** src/pigz.rs:114-117 [PigzRsyncableState::add]. *)
Definition pigz_add (p : PigzRsyncable) (hash : PigzState) (v : byte) : PigzState * bool :=
  let hash' := Z.land (Z.lxor (wrap32 (Z.shiftl hash 1)) (b2z v)) (pigz_mask p) in
  (hash', hash' =? pigz_hit p).

(** src/pigz.rs:40-45, the loop body of [find_chunk_edge], and src/pigz.rs:122-127, that of [push]: the two are the same. *)
Definition pigz_body (p : PigzRsyncable) (s : PigzState) (i : nat) (v : byte) : res (ctl PigzState nat) :=
  let '(s', hit) := pigz_add p s v in
  if (hit : bool) then Ok (Return (pigz_state_new p) (i + 1)%nat) else Ok (Next s').

(** src/pigz.rs:35-48 [PigzRsyncable::find_chunk_edge]. *)
Definition pigz_find_chunk_edge (p : PigzRsyncable) (s : PigzState) (data : list byte)
  : res (PigzState * (option nat * nat)) :=
  r <- for_enum (pigz_body p) 0 data s ;;
  match r with
  | Return s' k => Ok (s', (Some k, k))
  | Next s' | Break s' => Ok (s', (None, length data))
  end.

(** src/pigz.rs:121-130 [<PigzRsyncableIncr as ChunkIncr>::push]. *)
Definition pigz_push (p : PigzRsyncable) (s : PigzState) (data : list byte) : res (PigzState * option nat) :=
  r <- for_enum (pigz_body p) 0 data s ;;
  match r with
  | Return s' k => Ok (s', Some k)
  | Next s' | Break s' => Ok (s', None)
  end.

(** src/pigz.rs:28-49 [Chunk for PigzRsyncable]. *)
Definition pigz_chunk (p : PigzRsyncable) : Chunk :=
  {| search_state := PigzState; to_search_state := pigz_state_new p; find_chunk_edge := pigz_find_chunk_edge p |}.

(** src/pigz.rs:57-62 [ToChunkIncr for PigzRsyncable], src/pigz.rs:106-111 [From<PigzRsyncable> for PigzRsyncableIncr]. *)
Definition pigz_incr (p : PigzRsyncable) : Incr :=
  {| incr_state := PigzState; incr_new := pigz_state_new p; incr_push := pigz_push p |}.
