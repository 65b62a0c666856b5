(** * Mii: model of src/mii.rs. *)

From Verif Require Import Base Api.

(** src/mii.rs:100-109 [struct MiiIncr]. *)
Record MiiIncr : Type := {
  mii_w : Z;
  mii_prev : byte;
  mii_increment : Z;
}.

(** src/mii.rs:26-28 [Mii::with_w] (the configuration is just [w]). *)
Definition mii_with_w (w : Z) : Z := w.

(** src/mii.rs:35-37 [Default for Mii]. *)
Definition mii_default : Z := mii_with_w 5.

(** src/mii.rs:112-119 [From<Mii> for MiiIncr]. *)
Definition mii_incr_new (w : Z) : MiiIncr :=
  {| mii_w := w; mii_prev := xff; mii_increment := 0 |}.

(** src/mii.rs:144-147 [MiiIncr::reset]. *)
Definition mii_reset (s : MiiIncr) : MiiIncr :=
  {| mii_w := mii_w s; mii_prev := xff; mii_increment := 0 |}.

(** src/mii.rs:125-136, the loop body of [MiiIncr::push]. *)
Definition mii_push_body (s : MiiIncr) (i : nat) (b : byte) : res (ctl MiiIncr nat) :=
  if byte_gtb b (mii_prev s) then
    inc <- add_u64 (mii_increment s) 1 ;;
    if inc =? mii_w s then
      Ok (Return {| mii_w := mii_w s; mii_prev := x00; mii_increment := 0 |} (i + 1)%nat)
    else
      Ok (Next {| mii_w := mii_w s; mii_prev := b; mii_increment := inc |})
  else
    Ok (Next {| mii_w := mii_w s; mii_prev := b; mii_increment := 0 |}).

(** src/mii.rs:123-140 [<MiiIncr as ChunkIncr>::push]. *)
Definition mii_push (s : MiiIncr) (input : list byte) : res (MiiIncr * option nat) :=
  r <- for_enum mii_push_body 0 input s ;;
  match r with
  | Return s' k => Ok (s', Some k)
  | Next s' | Break s' => Ok (s', None)
  end.

(** src/mii.rs:68-74 [ToChunkIncr for Mii]. *)
Definition mii_incr (w : Z) : Incr :=
  {| incr_state := MiiIncr; incr_new := mii_incr_new w; incr_push := mii_push |}.

(** src/mii.rs:47-59 [Mii::find_chunk_edge]; [MiiSearchState] (src/mii.rs:76-97) only wraps a [MiiIncr]. *)
Definition mii_find_chunk_edge (s : MiiIncr) (data : list byte) : res (MiiIncr * (option nat * nat)) :=
  '(s', r) <- mii_push s data ;;
  match r with
  | Some v => Ok (mii_reset s', (Some v, v))
  | None => Ok (s', (None, length data))
  end.

(** src/mii.rs:40-60 [Chunk for Mii]; [to_search_state] is src/mii.rs:43-45. *)
Definition mii_chunk (w : Z) : Chunk :=
  {| search_state := MiiIncr; to_search_state := mii_incr_new w; find_chunk_edge := mii_find_chunk_edge |}.
