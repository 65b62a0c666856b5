(** * Zstd: model of src/zstd.rs. *)

From Verif Require Import Base Api.

(** src/zstd.rs:29-31 constants. *)
Definition RSYNC_LENGTH : nat := 32.
Definition PRIME_8_BYTES : Z := 0xCF1BBCDCB7A56463.
Definition ROLL_HASH_CHAR_OFFSET : Z := 10.

(** src/zstd.rs:34-37 [struct Zstd]. *)
Record Zstd : Type := {
  zd_hit_mask : Z;
  zd_prime_power : Z;
}.

(** [u32::leading_zeros]. *)
Definition leading_zeros_u32 (x : Z) : Z := if x =? 0 then 32 else 31 - Z.log2 x.

(** [u64::wrapping_pow]; Rust squares and multiplies, which gives the power modulo [2^64]. *)
Fixpoint wrapping_pow_u64 (b : Z) (e : nat) : Z :=
  match e with
  | O => 1
  | S e' => wrap64 (b * wrapping_pow_u64 b e')
  end.

(** [u64 -> u32] by [try_into().unwrap()]. *)
Definition try_into_u32 (x : Z) : res Z := if x <? two32 then Ok x else Panic.

(** src/zstd.rs:59-71 [Zstd::with_target_section_size]. *)
Definition zstd_with_target_section_size (target_section_size : Z) : res Zstd :=
  job_size_mb <- try_into_u32 (Z.shiftr target_section_size 20) ;;
  _ <- rust_assert (negb (job_size_mb =? 0)) ;;
  let rsync_bits := Z.lxor (leading_zeros_u32 job_size_mb) 31 + 20 in
  one_shl <- shl_u64 1 rsync_bits ;;
  hit_mask <- sub_u64 one_shl 1 ;;
  let prime_power := wrapping_pow_u64 PRIME_8_BYTES (RSYNC_LENGTH - 1) in
  Ok {| zd_hit_mask := hit_mask; zd_prime_power := prime_power |}.

(** src/zstd.rs:39-44 [Default for Zstd]: [8 << 20]. *)
Definition zstd_default : res Zstd := zstd_with_target_section_size (Z.shiftl 8 20).

(** src/zstd.rs:85-87 [struct ZstdState]: the hash. *)
Definition ZstdState : Type := Z.

(** src/zstd.rs:91-96 [ZstdState::append]. *)
Definition zstd_append_byte (hash : ZstdState) (i : byte) : ZstdState :=
  let hash := wrap64 (hash * PRIME_8_BYTES) in
  wrap64 (hash + wrap64 (b2z i + ROLL_HASH_CHAR_OFFSET)).
Definition zstd_append (hash : ZstdState) (data : list byte) : ZstdState := fold_left zstd_append_byte data hash.

(** src/zstd.rs:99-103 [ZstdState::rotate]. *)
Definition zstd_rotate (hash : ZstdState) (to_remove to_add : byte) (prime_power : Z) : ZstdState :=
  let hash := wrap64 (hash - wrap64 (wrap64 (b2z to_remove + ROLL_HASH_CHAR_OFFSET) * prime_power)) in
  let hash := wrap64 (hash * PRIME_8_BYTES) in
  wrap64 (hash + wrap64 (b2z to_add + ROLL_HASH_CHAR_OFFSET)).

(** src/zstd.rs:105-107 [ZstdState::at_split]. *)
Definition zstd_at_split (p : Zstd) (hash : ZstdState) : bool :=
  Z.land hash (zd_hit_mask p) =? zd_hit_mask p.

(** src/zstd.rs:111-114 [struct ZstdSearchState] and [Default]. *)
Record ZstdSearchState : Type := { zss_state : ZstdState; zss_offset : nat }.
Definition zstd_search_default : ZstdSearchState := {| zss_state := 0; zss_offset := 0 |}.

(** src/zstd.rs:209-217, the loop body of [Zstd::find_chunk_edge]. *)
Definition zstd_fce_body (p : Zstd) (data : list byte) (h : ZstdState) (i : nat) : res (ctl ZstdState nat) :=
  j <- sub_usize i RSYNC_LENGTH ;;
  to_remove <- index data j ;;
  to_add <- index data i ;;
  let h' := zstd_rotate h to_remove to_add (zd_prime_power p) in
  if zstd_at_split p h' then Ok (Return h' (i + 1)%nat) else Ok (Next h').

(** src/zstd.rs:189-223 [Zstd::find_chunk_edge]. *)
Definition zstd_find_chunk_edge (p : Zstd) (s : ZstdSearchState) (data : list byte)
  : res (ZstdSearchState * (option nat * nat)) :=
  s1 <- (if Nat.ltb (zss_offset s) RSYNC_LENGTH then
           seed_b <- sub_slice data (zss_offset s) (Nat.min RSYNC_LENGTH (length data)) ;;
           Ok {| zss_state := zstd_append (zss_state s) seed_b; zss_offset := zss_offset s + length seed_b |}
         else Ok s) ;;
  if Nat.ltb (zss_offset s1) RSYNC_LENGTH then Ok (s1, (None, O))
  else
    r <- for_range (zstd_fce_body p data) (zss_offset s1) (length data - zss_offset s1) (zss_state s1) ;;
    let discard_ct := (length data - RSYNC_LENGTH)%nat in   (* saturating_sub *)
    match r with
    | Return h k => Ok ({| zss_state := h; zss_offset := zss_offset s1 |}, (Some k, discard_ct))
    | Next h | Break h =>
        let keep_ct := (length data - discard_ct)%nat in
        Ok ({| zss_state := h; zss_offset := keep_ct |}, (None, discard_ct))
    end.

(** src/zstd.rs:182-224 [Chunk for Zstd]. *)
Definition zstd_chunk (p : Zstd) : Chunk :=
  {| search_state := ZstdSearchState; to_search_state := zstd_search_default;
     find_chunk_edge := zstd_find_chunk_edge p |}.

(** src/zstd.rs:136-153 [struct ZstdIncr]; [input_offs] is never read or written after construction and is left out. *)
Record ZstdIncr : Type := {
  zi_state : ZstdState;
  zi_window : list byte;
  zi_window_offs : nat;
  zi_window_full : bool;
}.

(** src/zstd.rs:163-174 [From<Zstd> for ZstdIncr]. *)
Definition zstd_incr_new : ZstdIncr :=
  {| zi_state := 0; zi_window := repeat x00 RSYNC_LENGTH; zi_window_offs := 0; zi_window_full := false |}.

(** [dst[lo..hi].copy_from_slice(src)]. *)
Definition copy_from_slice {A} (dst : list A) (lo hi : nat) (src : list A) : res (list A) :=
  _ <- sub_slice dst lo hi ;;
  if Nat.eqb (length src) (hi - lo) then Ok (firstn lo dst ++ src ++ skipn hi dst) else Panic.

(** src/zstd.rs:249-261, the loop body of [ZstdIncr::push]. *)
Definition zstd_push_body (p : Zstd) (use_len : nat) (s : ZstdIncr) (i : nat) (v : byte) : res (ctl ZstdIncr nat) :=
  to_remove <- index (zi_window s) (zi_window_offs s) ;;
  let h := zstd_rotate (zi_state s) to_remove v (zd_prime_power p) in
  win <- store (zi_window s) (zi_window_offs s) v ;;
  offs <- (match length win with O => Panic | n => Ok ((zi_window_offs s + 1) mod n)%nat end) ;;
  let s' := {| zi_state := h; zi_window := win; zi_window_offs := offs; zi_window_full := zi_window_full s |} in
  if zstd_at_split p h then Ok (Return s' (i + use_len)%nat) else Ok (Next s').

(** src/zstd.rs:248-264, the second half of [push]. *)
Definition zstd_push_rotate (p : Zstd) (use_len : nat) (s : ZstdIncr) (data : list byte)
  : res (ZstdIncr * option nat) :=
  tail <- sub_slice data use_len (length data) ;;
  r <- for_enum (zstd_push_body p use_len) 0 tail s ;;
  match r with
  | Return s' k => Ok (s', Some k)
  | Next s' | Break s' => Ok (s', None)
  end.

(** src/zstd.rs:227-264 [<ZstdIncr as ChunkIncr>::push]. *)
Definition zstd_push (p : Zstd) (s : ZstdIncr) (data : list byte) : res (ZstdIncr * option nat) :=
  if negb (zi_window_full s) then
    room <- sub_usize (length (zi_window s)) (zi_window_offs s) ;;
    let use_len := Nat.min room (length data) in
    src <- sub_slice data 0 use_len ;;
    win <- copy_from_slice (zi_window s) (zi_window_offs s) (zi_window_offs s + use_len) src ;;
    let offs := (zi_window_offs s + use_len)%nat in
    if negb (Nat.eqb offs (length win)) then
      Ok ({| zi_state := zi_state s; zi_window := win; zi_window_offs := offs; zi_window_full := false |}, None)
    else
      zstd_push_rotate p use_len
        {| zi_state := zstd_append (zi_state s) win; zi_window := win; zi_window_offs := 0; zi_window_full := true |} data
  else zstd_push_rotate p 0 s data.

(** src/zstd.rs:155-161 [ToChunkIncr for Zstd]. *)
Definition zstd_incr (p : Zstd) : Incr :=
  {| incr_state := ZstdIncr; incr_new := zstd_incr_new; incr_push := zstd_push p |}.
