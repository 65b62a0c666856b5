(** * BuzHash: model of src/buzhash.rs and of [borg_buzhash_table] in src/buzhash_table.rs. *)

From Verif Require Import Base Api Tables.

(** [u32::rotate_left(n)]. *)
Definition rotate_left (x n : Z) : Z :=
  let n := n mod 32 in
  wrap32 (Z.lor (Z.shiftl x n) (Z.shiftr x (32 - n))).

(** src/buzhash.rs:295-297 [trait BuzHashHash]: a pure function from bytes to [u32]. *)
Definition BuzHashHash : Type := byte -> res Z.

(** src/buzhash.rs:317-321 [BuzHashTableHash::hash] and src/buzhash.rs:341-345 [BuzHashTableBufHash::hash]. *)
Definition table_hash (table : list Z) : BuzHashHash := fun data => index table (Z.to_nat (b2z data)).

(** src/buzhash.rs:368-372 [BuzHashTableByteSaltHash::hash]: index [data ^ salt]. *)
Definition table_byte_salt_hash (salt : byte) (table : list Z) : BuzHashHash :=
  fun data => index table (Z.to_nat (Z.lxor (b2z data) (b2z salt))).

(** src/buzhash_table.rs:77-84 [borg_buzhash_table]. *)
Definition borg_buzhash_table (seed : Z) : list Z := map (fun x => Z.lxor x seed) BORG_BUZHASH_BASE.

(** src/buzhash.rs:68-81 [struct BuzHash]. *)
Record BuzHash : Type := {
  bz_k : nat;
  bz_h : BuzHashHash;
  bz_mask : Z;
  bz_max_chunk_size : Z;
}.

(** src/buzhash.rs:90-98 [BuzHash::new]. *)
Definition buzhash_new (capacity : nat) (mask : Z) (hash : BuzHashHash) (max_chunk_size : Z) : res BuzHash :=
  _ <- rust_assert (Nat.ltb 0 capacity) ;;
  Ok {| bz_k := capacity; bz_h := hash; bz_mask := mask; bz_max_chunk_size := max_chunk_size |}.

(** src/buzhash.rs:111-118 [BuzHash::new_nom]. *)
Definition buzhash_new_nom (salt : byte) : res BuzHash :=
  buzhash_new 67 (Z.shiftl 1 12 - 1) (table_byte_salt_hash salt GO_BUZHASH) (Z.shiftl 1 24).

(** src/buzhash.rs:186-189 [struct BuzHashState]: the hash; [reset] (src/buzhash.rs:192-194) makes it 0. *)
Definition BuzHashState : Type := Z.

(** src/buzhash.rs:209-211 [BuzHashState::add]. *)
Definition buz_add (p : BuzHash) (h : BuzHashState) (v : byte) : res BuzHashState :=
  hv <- bz_h p v ;;
  Ok (Z.lxor (rotate_left h 1) hv).

(** src/buzhash.rs:214-219 [BuzHashState::add_overflow]. *)
Definition buz_add_overflow (p : BuzHash) (h : BuzHashState) (add_v remove_v : byte) : res BuzHashState :=
  let h1 := rotate_left h 1 in
  hr <- bz_h p remove_v ;;
  let drop := rotate_left hr (Z.of_nat (bz_k p mod 8)%nat) in
  ha <- bz_h p add_v ;;
  Ok (Z.lxor (Z.lxor h1 drop) ha).

(** src/buzhash.rs:196-206 [BuzHashState::add_buf]. *)
Definition buz_add_buf (p : BuzHash) (h : BuzHashState) (data : list byte) (i : nat) : res BuzHashState :=
  if Nat.leb (bz_k p) i then
    let drop_i := (i - bz_k p)%nat in
    drop <- index data drop_i ;;
    v <- index data i ;;
    buz_add_overflow p h v drop
  else
    v <- index data i ;;
    buz_add p h v.

(** src/buzhash.rs:173-176 [struct BuzHashSearchState], [Default] (src/buzhash.rs:172) and [reset] (179-182). *)
Record BuzHashSearchState : Type := { bzs_offset : nat; bzs_state : BuzHashState }.
Definition buz_search_default : BuzHashSearchState := {| bzs_offset := 0; bzs_state := 0 |}.
Definition buz_search_reset (s : BuzHashSearchState) : BuzHashSearchState := {| bzs_offset := 0; bzs_state := 0 |}.

(** src/buzhash.rs:133-150, the loop body of [find_chunk_edge]. *)
Definition buz_fce_body (p : BuzHash) (data : list byte) (s : BuzHashSearchState) (i : nat)
  : res (ctl BuzHashSearchState nat) :=
  h <- buz_add_buf p (bzs_state s) data i ;;
  let s' := {| bzs_offset := bzs_offset s; bzs_state := h |} in
  if Z.land h (bz_mask p) =? bz_mask p then Ok (Return (buz_search_reset s') (i + 1)%nat) else Ok (Next s').

(** src/buzhash.rs:128-156 [BuzHash::find_chunk_edge]. *)
Definition buz_find_chunk_edge (p : BuzHash) (s : BuzHashSearchState) (data : list byte)
  : res (BuzHashSearchState * (option nat * nat)) :=
  r <- for_range (buz_fce_body p data) (bzs_offset s) (length data - bzs_offset s) s ;;
  match r with
  | Return s' k => Ok (s', (Some k, k))
  | Next s' | Break s' =>
      let discard_ct := (length data - bz_k p)%nat in   (* saturating_sub *)
      Ok ({| bzs_offset := length data - discard_ct; bzs_state := bzs_state s' |}, (None, discard_ct))
  end.

(** src/buzhash.rs:121-157 [Chunk for BuzHash]. *)
Definition buz_chunk (p : BuzHash) : Chunk :=
  {| search_state := BuzHashSearchState; to_search_state := buz_search_default;
     find_chunk_edge := buz_find_chunk_edge p |}.

(** src/buzhash.rs:227-233 [struct BuzHashIncr]. *)
Record BuzHashIncr : Type := {
  bzi_state : BuzHashState;
  bzi_buf : list byte;
  bzi_buf_idx : nat;
  bzi_input_idx : Z;
}.

(** src/buzhash.rs:281-292 [From<BuzHash> for BuzHashIncr]. *)
Definition buz_incr_new (p : BuzHash) : BuzHashIncr :=
  {| bzi_state := 0; bzi_buf := repeat x00 (bz_k p); bzi_buf_idx := 0; bzi_input_idx := 0 |}.

(** src/buzhash.rs:259-263 [BuzHashIncr::reset] ([buf] keeps its contents). *)
Definition buz_incr_reset (s : BuzHashIncr) : BuzHashIncr :=
  {| bzi_state := 0; bzi_buf := bzi_buf s; bzi_buf_idx := 0; bzi_input_idx := 0 |}.

(** [a %= b] on [usize]. *)
Definition rem_usize (a b : nat) : res nat := match b with O => Panic | _ => Ok (a mod b)%nat end.

(** src/buzhash.rs:265-278 [BuzHashIncr::push_byte].  [buf_idx] is a [Wrapping<usize>] below [k] before the increment
    ([buf] has [k] entries and was indexed by it), so the increment is written without the modulo [2^64]. *)
Definition buz_push_byte (p : BuzHash) (s : BuzHashIncr) (val : byte) : res BuzHashIncr :=
  st <- (if Z.of_nat (bz_k p) <=? bzi_input_idx s then
           o <- index (bzi_buf s) (bzi_buf_idx s) ;;
           buz_add_overflow p (bzi_state s) val o
         else buz_add p (bzi_state s) val) ;;
  buf <- store (bzi_buf s) (bzi_buf_idx s) val ;;
  idx <- rem_usize (bzi_buf_idx s + 1) (bz_k p) ;;
  n <- add_u64 (bzi_input_idx s) 1 ;;
  Ok {| bzi_state := st; bzi_buf := buf; bzi_buf_idx := idx; bzi_input_idx := n |}.

(** src/buzhash.rs:241-252, the loop body of [push]. *)
Definition buz_push_body (p : BuzHash) (s : BuzHashIncr) (i : nat) (v : byte) : res (ctl BuzHashIncr nat) :=
  s' <- buz_push_byte p s v ;;
  if Z.land (bzi_state s') (bz_mask p) =? bz_mask p then Ok (Return (buz_incr_reset s') (i + 1)%nat)
  else if bz_max_chunk_size p <? bzi_input_idx s' then Ok (Return (buz_incr_reset s') (i + 1)%nat)
  else Ok (Next s').

(** src/buzhash.rs:240-255 [<BuzHashIncr as ChunkIncr>::push]. *)
Definition buz_push (p : BuzHash) (s : BuzHashIncr) (data : list byte) : res (BuzHashIncr * option nat) :=
  r <- for_enum (buz_push_body p) 0 data s ;;
  match r with
  | Return s' k => Ok (s', Some k)
  | Next s' | Break s' => Ok (s', None)
  end.

(** src/buzhash.rs:165-170 [ToChunkIncr for BuzHash]. *)
Definition buz_incr (p : BuzHash) : Incr :=
  {| incr_state := BuzHashIncr; incr_new := buz_incr_new p; incr_push := buz_push p |}.
