(** * Zpaq: model of src/zpaq.rs. *)

From Verif Require Import Base Api Range.

(** src/zpaq.rs:49-52 [struct Zpaq]. *)
Record Zpaq : Type := {
  zq_range : range;
  zq_max_hash : Z;
}.

(** src/zpaq.rs:56-59 [fragment_ave_from_max]: [(max as f64 / 4096.0).log2() as u8].
    Simplification: the floating-point expression is modelled by the exact integer [floor(log2(max)) - 12], at least 0
    (the cast saturates, [log2(0)] is minus infinity).  For [max >= 2^45] both exceed 32, where the callers assert: C74. *)
Definition fragment_ave_from_max (max : Z) : Z := Z.max 0 (Z.log2 max - 12).

(** src/zpaq.rs:62-80 [fragment_ave_from_range]. *)
Definition fragment_ave_from_range (r : range) : res Z :=
  match end_bound r with
  | Included i => Ok (fragment_ave_from_max i)
  | Excluded i => v <- sub_u64 i 1 ;; Ok (fragment_ave_from_max v)
  | Unbounded =>
      match start_bound r with
      | Included i => v <- mul_u64 64 i ;; Ok (fragment_ave_from_max v)
      | Excluded i => j <- add_u64 i 1 ;; v <- mul_u64 64 j ;; Ok (fragment_ave_from_max v)
      | Unbounded => Ok 16
      end
  end.

(** src/zpaq.rs:83-87 [range_from_fragment_ave]. *)
Definition range_from_fragment_ave (fragment_ave : Z) : res range :=
  _ <- rust_assert (fragment_ave <=? 32) ;;
  _ <- rust_assert (10 <=? fragment_ave) ;;
  lo <- shl_u64 64 (fragment_ave - 10) ;;
  hi <- shl_u64 8128 fragment_ave ;;
  Ok (Included lo, Excluded hi).

(** src/zpaq.rs:89-91 [range_from_max]. *)
Definition range_from_max (max : Z) : range := (Included (max / 64), Excluded max).

(** src/zpaq.rs:93-102 [max_hash_from_fragment_ave]. *)
Definition max_hash_from_fragment_ave (fragment_ave : Z) : res Z :=
  _ <- rust_assert (fragment_ave <=? 32) ;;
  shl_u32 1 (32 - fragment_ave).

(** src/zpaq.rs:141-146 [Zpaq::with_average_and_range]. *)
Definition zpaq_with_average_and_range (average_size_pow_2 : Z) (r : range) : res Zpaq :=
  let t := into_tuple r in
  mh <- max_hash_from_fragment_ave average_size_pow_2 ;;
  Ok {| zq_range := t; zq_max_hash := mh |}.

(** src/zpaq.rs:110-113 [Zpaq::with_range]. *)
Definition zpaq_with_range (r : range) : res Zpaq :=
  f <- fragment_ave_from_range r ;;
  zpaq_with_average_and_range f r.

(** src/zpaq.rs:121-124 [Zpaq::with_average_size_pow_2]. *)
Definition zpaq_with_average_size_pow_2 (average_size_pow_2 : Z) : res Zpaq :=
  r <- range_from_fragment_ave average_size_pow_2 ;;
  zpaq_with_average_and_range average_size_pow_2 r.

(** src/zpaq.rs:132-134 [Zpaq::with_max_size]. *)
Definition zpaq_with_max_size (max : Z) : res Zpaq :=
  zpaq_with_average_and_range (fragment_ave_from_max max) (range_from_max max).

(** src/zpaq.rs:166-168 [Default for Zpaq]. *)
Definition zpaq_default : res Zpaq := zpaq_with_average_size_pow_2 16.

(** src/zpaq.rs:155-157 [Zpaq::split_here]. *)
Definition zpaq_split_here (p : Zpaq) (hash idx : Z) : bool :=
  ((hash <? zq_max_hash p) && negb (under_min (zq_range p) idx)) || exceeds_max (zq_range p) idx.

(** src/zpaq.rs:279-283 [struct ZpaqHash]. *)
Record ZpaqHash : Type := {
  zh_hash : Z;
  zh_last_byte : byte;
  zh_predicted_byte : list byte;
}.

(** src/zpaq.rs:305-313 [Default for ZpaqHash]. *)
Definition zpaq_hash_default : ZpaqHash :=
  {| zh_hash := 0; zh_last_byte := x00; zh_predicted_byte := repeat x00 256 |}.

(** src/zpaq.rs:321-331 [ZpaqHash::feed] (returns the new [self.hash] as part of the state). *)
Definition zpaq_hash_feed (s : ZpaqHash) (c : byte) : res ZpaqHash :=
  pb <- index (zh_predicted_byte s) (Z.to_nat (b2z (zh_last_byte s))) ;;
  let sum := wrap32 (wrap32 (zh_hash s + b2z c) + 1) in
  let h := if byte_eqb c pb then wrap32 (sum * 314159265) else wrap32 (sum * 271828182) in
  pred <- store (zh_predicted_byte s) (Z.to_nat (b2z (zh_last_byte s))) c ;;
  Ok {| zh_hash := h; zh_last_byte := c; zh_predicted_byte := pred |}.

(** src/zpaq.rs:184-187 [struct ZpaqSearchState] and src/zpaq.rs:176-180 [struct ZpaqIncr] (its [params] apart). *)
Record ZpaqState : Type := {
  zs_state : ZpaqHash;
  zs_idx : Z;
}.

(** src/zpaq.rs:183 [#[derive(Default)]], src/zpaq.rs:245-248 [ZpaqIncr::reset], src/zpaq.rs:265-273. *)
Definition zpaq_state_default : ZpaqState := {| zs_state := zpaq_hash_default; zs_idx := 0 |}.
Definition zpaq_state_reset (s : ZpaqState) : ZpaqState := {| zs_state := zpaq_hash_default; zs_idx := 0 |}.

(** src/zpaq.rs:190-193 [ZpaqSearchState::feed] and src/zpaq.rs:240-243 [ZpaqIncr::feed]. *)
Definition zpaq_feed (s : ZpaqState) (v : byte) : res ZpaqState :=
  idx <- add_u64 (zs_idx s) 1 ;;
  st <- zpaq_hash_feed (zs_state s) v ;;
  Ok {| zs_state := st; zs_idx := idx |}.

(** src/zpaq.rs:208-214, the loop body of [Zpaq::find_chunk_edge]. *)
Definition zpaq_fce_body (p : Zpaq) (s : ZpaqState) (i : nat) (v : byte) : res (ctl ZpaqState nat) :=
  s' <- zpaq_feed s v ;;
  idx1 <- add_u64 (zs_idx s') 1 ;;
  if zpaq_split_here p (zh_hash (zs_state s')) idx1 then Ok (Return zpaq_state_default (i + 1)%nat)
  else Ok (Next s').

(** src/zpaq.rs:203-217 [Zpaq::find_chunk_edge]. *)
Definition zpaq_find_chunk_edge (p : Zpaq) (s : ZpaqState) (data : list byte)
  : res (ZpaqState * (option nat * nat)) :=
  r <- for_enum (zpaq_fce_body p) 0 data s ;;
  match r with
  | Return s' k => Ok (s', (Some k, k))
  | Next s' | Break s' => Ok (s', (None, length data))
  end.

(** src/zpaq.rs:253-259, the loop body of [ZpaqIncr::push]. *)
Definition zpaq_push_body (p : Zpaq) (s : ZpaqState) (i : nat) (v : byte) : res (ctl ZpaqState nat) :=
  s' <- zpaq_feed s v ;;
  if zpaq_split_here p (zh_hash (zs_state s')) (zs_idx s') then Ok (Return (zpaq_state_reset s') (i + 1)%nat)
  else Ok (Next s').

(** src/zpaq.rs:252-262 [<ZpaqIncr as ChunkIncr>::push]. *)
Definition zpaq_push (p : Zpaq) (s : ZpaqState) (data : list byte) : res (ZpaqState * option nat) :=
  r <- for_enum (zpaq_push_body p) 0 data s ;;
  match r with
  | Return s' k => Ok (s', Some k)
  | Next s' | Break s' => Ok (s', None)
  end.

(** src/zpaq.rs:196-218 [Chunk for Zpaq]. *)
Definition zpaq_chunk (p : Zpaq) : Chunk :=
  {| search_state := ZpaqState; to_search_state := zpaq_state_default; find_chunk_edge := zpaq_find_chunk_edge p |}.

(** src/zpaq.rs:232-237 [ToChunkIncr for Zpaq]. *)
Definition zpaq_incr (p : Zpaq) : Incr :=
  {| incr_state := ZpaqState; incr_new := zpaq_state_default; incr_push := zpaq_push p |}.

(** src/zpaq.rs:285-291 [PartialEq for ZpaqHash]. *)
Fixpoint list_byte_eqb (a b : list byte) : bool :=
  match a, b with
  | [], [] => true
  | x :: a', y :: b' => byte_eqb x y && list_byte_eqb a' b'
  | _, _ => false
  end.
Definition zpaq_hash_eqb (a b : ZpaqHash) : bool :=
  (zh_hash a =? zh_hash b) && byte_eqb (zh_last_byte a) (zh_last_byte b)
  && list_byte_eqb (zh_predicted_byte a) (zh_predicted_byte b).
