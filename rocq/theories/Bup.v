(** * Bup: model of src/bup.rs. *)

From Verif Require Import Base Api.

(** src/bup.rs:5-11 constants. *)
Definition BLOBBITS : Z := 13.
Definition BLOBSIZE : Z := Z.shiftl 1 BLOBBITS.
Definition WINDOW_BITS : nat := 6.
Definition WINDOW_SIZE : nat := Nat.pow 2 WINDOW_BITS.
Definition ROLLSUM_CHAR_OFFSET : Z := 31.

(** src/bup.rs:32-34 [RollSum::with_window] (the configuration is just [window_len]). *)
Definition rollsum_with_window (window_len : nat) : nat := window_len.

(** src/bup.rs:124-128 [Default for RollSum]. *)
Definition rollsum_default : nat := rollsum_with_window WINDOW_SIZE.

(** src/bup.rs:73-80 [struct RollSumState]. *)
Record RollSumState : Type := { rs_s1 : Z; rs_s2 : Z }.

(** src/bup.rs:82-94 [From<&RollSum> for RollSumState]. *)
Definition rollsum_state_new (window_len : nat) : RollSumState :=
  let ws := wrap32 (Z.of_nat window_len) in
  {| rs_s1 := wrap32 (ws * ROLLSUM_CHAR_OFFSET);
     rs_s2 := wrap32 (wrap32 (ws * wrap32 (ws - 1)) * ROLLSUM_CHAR_OFFSET) |}.

(** src/bup.rs:171-177 [RollSumState::add]. *)
Definition rollsum_add (window_len : nat) (drop add : byte) (s : RollSumState) : RollSumState :=
  let d := b2z drop in
  let s1 := wrap32 (rs_s1 s + b2z add) in
  let s1 := wrap32 (s1 - d) in
  let s2 := wrap32 (rs_s2 s + s1) in
  let s2 := wrap32 (s2 - wrap32 (wrap32 (Z.of_nat window_len) * wrap32 (d + ROLLSUM_CHAR_OFFSET))) in
  {| rs_s1 := s1; rs_s2 := s2 |}.

(** src/bup.rs:179-181 [RollSumState::digest]. *)
Definition rollsum_digest (s : RollSumState) : Z :=
  Z.lor (wrap32 (Z.shiftl (rs_s1 s) 16)) (Z.land (rs_s2 s) 0xffff).

(** src/bup.rs:183-185 [RollSumState::at_split]. *)
Definition rollsum_at_split (s : RollSumState) : bool :=
  Z.land (rollsum_digest s) (BLOBSIZE - 1) =? BLOBSIZE - 1.

(** src/bup.rs:103-106 [struct RollSumSearchState]. *)
Record RollSumSearchState : Type := { rss_state : RollSumState; rss_offset : nat }.

(** src/bup.rs:108-115 [From<&RollSum> for RollSumSearchState]; [reset] (src/bup.rs:117-122) gives the same value. *)
Definition rollsum_search_new (window_len : nat) : RollSumSearchState :=
  {| rss_state := rollsum_state_new window_len; rss_offset := 0 |}.
Definition rollsum_search_reset (window_len : nat) (s : RollSumSearchState) : RollSumSearchState :=
  {| rss_state := rollsum_state_new window_len; rss_offset := 0 |}.

(** src/bup.rs:49-63, the loop body of [RollSum::find_chunk_edge]. *)
Definition rollsum_fce_body (window_len : nat) (data : list byte) (s : RollSumSearchState) (i : nat)
  : res (ctl RollSumSearchState nat) :=
  a <- index data i ;;
  d <- (if Nat.leb window_len i then index data (i - window_len) else Ok x00) ;;
  let s' := {| rss_state := rollsum_add window_len d a (rss_state s); rss_offset := rss_offset s |} in
  if rollsum_at_split (rss_state s') then Ok (Return (rollsum_search_reset window_len s') (i + 1)%nat)
  else Ok (Next s').

(** src/bup.rs:44-69 [RollSum::find_chunk_edge]. *)
Definition rollsum_find_chunk_edge (window_len : nat) (s : RollSumSearchState) (data : list byte)
  : res (RollSumSearchState * (option nat * nat)) :=
  r <- for_range (rollsum_fce_body window_len data) (rss_offset s) (length data - rss_offset s) s ;;
  match r with
  | Return s' k => Ok (s', (Some k, k))
  | Next s' | Break s' =>
      let discard_ct := (length data - window_len)%nat in   (* saturating_sub *)
      Ok ({| rss_state := rss_state s'; rss_offset := length data - discard_ct |}, (None, discard_ct))
  end.

(** src/bup.rs:37-70 [Chunk for RollSum]. *)
Definition rollsum_chunk (window_len : nat) : Chunk :=
  {| search_state := RollSumSearchState; to_search_state := rollsum_search_new window_len;
     find_chunk_edge := rollsum_find_chunk_edge window_len |}.

(** src/bup.rs:136-142 [struct RollSumIncr]. *)
Record RollSumIncr : Type := {
  rsi_state : RollSumState;
  rsi_wofs : nat;
  rsi_window : list byte;
}.

(** src/bup.rs:154-162 [From<&RollSum> for RollSumIncr]. *)
Definition rollsum_incr_new (window_len : nat) : RollSumIncr :=
  {| rsi_state := rollsum_state_new window_len; rsi_wofs := 0; rsi_window := repeat x00 window_len |}.

(** src/bup.rs:197-202 [RollSumIncr::roll_byte] (with [RollSumIncr::add], src/bup.rs:193-195).
    [wofs] is a [Wrapping<usize>]; it is below [window.len() <= isize::MAX] whenever it is used as an index, so
    [wofs + 1] is written without the modulo [2^64]. *)
Definition roll_byte (s : RollSumIncr) (ch : byte) : res RollSumIncr :=
  w <- index (rsi_window s) (rsi_wofs s) ;;
  let st := rollsum_add (length (rsi_window s)) w ch (rsi_state s) in
  win <- store (rsi_window s) (rsi_wofs s) ch ;;
  m <- sub_usize (length win) 1 ;;
  Ok {| rsi_state := st; rsi_wofs := Nat.land (rsi_wofs s + 1) m; rsi_window := win |}.

(** src/bup.rs:189-191 and 219-221 [RollSumIncr::digest], [RollSumIncr::at_split]. *)
Definition rollsum_incr_digest (s : RollSumIncr) : Z := rollsum_digest (rsi_state s).
Definition rollsum_incr_at_split (s : RollSumIncr) : bool := rollsum_at_split (rsi_state s).

(** src/bup.rs:205-209 [RollSumIncr::roll]: a sequence of [roll_byte]. *)
Fixpoint roll_bytes (s : RollSumIncr) (data : list byte) : res RollSumIncr :=
  match data with
  | [] => Ok s
  | b :: rest => s' <- roll_byte s b ;; roll_bytes s' rest
  end.

(** src/bup.rs:226-231, the loop body of [RollSumIncr::push]. *)
Definition rollsum_push_body (s : RollSumIncr) (i : nat) (v : byte) : res (ctl RollSumIncr nat) :=
  s' <- roll_byte s v ;;
  if rollsum_incr_at_split s' then Ok (Return s' (i + 1)%nat) else Ok (Next s').

(** src/bup.rs:225-234 [<RollSumIncr as ChunkIncr>::push]. *)
Definition rollsum_push (s : RollSumIncr) (data : list byte) : res (RollSumIncr * option nat) :=
  r <- for_enum rollsum_push_body 0 data s ;;
  match r with
  | Return s' k => Ok (s', Some k)
  | Next s' | Break s' => Ok (s', None)
  end.

(** src/bup.rs:23-29 [ToChunkIncr for RollSum]. *)
Definition rollsum_incr (window_len : nat) : Incr :=
  {| incr_state := RollSumIncr; incr_new := rollsum_incr_new window_len; incr_push := rollsum_push |}.
