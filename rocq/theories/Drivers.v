(** * Drivers: programs of the repository that use the traits, as models. *)

From Verif Require Import Base Api.

(** tests/cuts.rs:19-33 and 75-86: [push] one byte at a time; whatever index [push] answers, the split is taken to be just
    after that byte.  The result is the list of split lengths; [i] is the index of the next byte. *)
Fixpoint byte_splits_from (C : Incr) (s : incr_state C) (last_split i : nat) (data : list byte) : res (list nat) :=
  match data with
  | [] => Ok []
  | v :: rest =>
      '(s', r) <- incr_push C s [v] ;;
      match r with
      | Some _ =>
          n <- sub_usize (i + 1) last_split ;;
          ns <- byte_splits_from C s' (i + 1) (i + 1) rest ;;
          Ok (n :: ns)
      | None => byte_splits_from C s' last_split (i + 1) rest
      end
  end.
Definition byte_splits (C : Incr) (buf : list byte) : res (list nat) := byte_splits_from C (incr_new C) 0 0 buf.

(** tests/cuts.rs:47-69: [find_chunk_edge] on everything not discarded yet, until it answers [None].  [&buf[discard_idx..]]
    panics past the end, and so does the explicit check of the order of splits.  Fuel bounds the rounds of the [loop]. *)
Fixpoint whole_splits_from (C : Chunk) (fuel : nat) (buf : list byte) (s : search_state C)
  (discard_idx last_chunk_idx : nat) : res (list nat) :=
  match fuel with
  | O => Diverge
  | S fuel' =>
      b <- sub_slice buf discard_idx (length buf) ;;
      '(s', (split_point, discard_ct)) <- find_chunk_edge C s b ;;
      match split_point with
      | Some split_point =>
          let split_point_global := (discard_idx + split_point)%nat in
          if Nat.ltb split_point_global last_chunk_idx then Panic
          else
            ns <- whole_splits_from C fuel' buf s' (discard_idx + discard_ct) split_point_global ;;
            Ok ((split_point_global - last_chunk_idx)%nat :: ns)
      | None => Ok []
      end
  end.
Definition whole_splits (C : Chunk) (fuel : nat) (buf : list byte) : res (list nat) :=
  whole_splits_from C fuel buf (to_search_state C) 0 0.

(** src/lib.rs:303-332, the loop in the documentation of [Chunk::find_chunk_edge].  The result is what it prints: the
    chunks, then the "remain" slice.  Fuel bounds the rounds of the [loop]. *)
Fixpoint doc_loop_from (C : Chunk) (fuel : nat) (orig_data : list byte) (ss : search_state C) (data : list byte)
  (prev_cut : nat) : res (list (list byte) * list byte) :=
  match fuel with
  | O => Diverge
  | S fuel' =>
      '(ss', (chunk, discard_ct)) <- find_chunk_edge C ss data ;;
      match chunk with
      | Some cut_point =>
          g_cut <- sub_usize (cut_point + length orig_data) (length data) ;;
          printed <- sub_slice orig_data prev_cut g_cut ;;
          data' <- sub_slice data discard_ct (length data) ;;
          '(chunks, remain) <- doc_loop_from C fuel' orig_data ss' data' g_cut ;;
          Ok (printed :: chunks, remain)
      | None =>
          remain <- sub_slice data discard_ct (length data) ;;
          Ok ([], remain)
      end
  end.
Definition doc_loop (C : Chunk) (fuel : nat) (orig_data : list byte) : res (list (list byte) * list byte) :=
  doc_loop_from C fuel orig_data (to_search_state C) orig_data 0.

(** tests/cuts_qc.rs:11-65 [splits_fce]: [find_chunk_edge] on buffers whose sizes come from the list [buf_sizes], used over
    and over; after an answer without a split the next buffer is longer by the next size, after a split it starts anew.
    [i] counts the rounds.  Simplification: [buf_sizes[..] + prev_buf_size] and [i += 1] are not checked for overflow. *)
Fixpoint splits_fce_from (C : Chunk) (fuel : nat) (buf : list byte) (buf_sizes : list nat) (i : nat) (ss : search_state C)
  (last_split_point curr_discard prev_buf_size : nat) : res (list nat) :=
  match fuel with
  | O => Diverge
  | S fuel' =>
      if Nat.eqb (length buf) curr_discard then Ok []
      else
        buf_size <- (match length buf_sizes with O => Panic | n => index buf_sizes (i mod n) end) ;;
        room <- sub_usize (length buf) curr_discard ;;
        let buf_size := Nat.min (buf_size + prev_buf_size) room in
        b <- sub_slice buf curr_discard (buf_size + curr_discard) ;;
        '(ss', (split, discard_ct)) <- find_chunk_edge C ss b ;;
        match split with
        | Some split_point =>
            let split_point_global := (curr_discard + split_point)%nat in
            split_len <- sub_usize split_point_global last_split_point ;;
            splits <- splits_fce_from C fuel' buf buf_sizes (i + 1) ss' split_point_global (curr_discard + discard_ct) 0 ;;
            Ok (split_len :: splits)
        | None =>
            if Nat.eqb buf_size room then Ok []
            else splits_fce_from C fuel' buf buf_sizes (i + 1) ss' last_split_point (curr_discard + discard_ct) buf_size
        end
  end.
Definition splits_fce (C : Chunk) (fuel : nat) (buf : list byte) (buf_sizes : list nat) : res (list nat) :=
  splits_fce_from C fuel buf buf_sizes 0 (to_search_state C) 0 0 0.

(** tests/fastcdc.rs:117-165 [fast_cdc_8kb], the one-buffer FastCDC that the tests use as an oracle. *)
Definition fast_cdc_8kb_body (gear : list Z) (mask : Z) (src : list byte) (fp : Z) (i : nat) : res (ctl Z nat) :=
  v <- index src i ;;
  g <- index gear (Z.to_nat (b2z v)) ;;
  let fp := wrap64 (wrap64 (Z.shiftl fp 1) + g) in
  if Z.land fp mask =? 0 then Ok (Return fp i) else Ok (Next fp).
Definition fast_cdc_8kb (gear : list Z) (src : list byte) : res nat :=
  let MASK_S := 0x0003590703530000 in
  let MASK_L := 0x0000d90003530000 in
  let MIN_SIZE := Z.to_nat 2048 in
  let MAX_SIZE := Z.to_nat 65536 in
  let NORMAL_SIZE := Z.to_nat 8192 in
  let n := length src in
  if Nat.leb n MIN_SIZE then Ok O
  else
    let '(n, normal_size) :=
      if Nat.leb MAX_SIZE n then (MAX_SIZE, NORMAL_SIZE)
      else if Nat.leb n NORMAL_SIZE then (n, n) else (n, NORMAL_SIZE) in
    r1 <- for_range (fast_cdc_8kb_body gear MASK_S src) MIN_SIZE (normal_size - MIN_SIZE) 0 ;;
    match r1 with
    | Return _ i => Ok i
    | Next fp | Break fp =>
        r2 <- for_range (fast_cdc_8kb_body gear MASK_L src) normal_size (n - normal_size) fp ;;
        match r2 with
        | Return _ i => Ok i
        | Next _ | Break _ => if Nat.eqb n MAX_SIZE then Ok n else Ok O
        end
    end.

(** tests/fastcdc.rs:89-115 [feed_until_5_chunks]: blocks of random bytes are pushed, each until [None] or until the cut is
    its end, while the other cuts are counted; it returns after the sixth.  Here the blocks are an argument and the chunker
    is arbitrary; [Hungry]: all blocks are used up and the test still runs.  Fuel bounds the inner [loop] for one block. *)
Inductive fed (St : Type) : Type :=
| Enough
| Hungry (s : St) (ct : nat).
Arguments Enough {St}.
Arguments Hungry {St} s ct.

Fixpoint feed_block (C : Incr) (fuel : nat) (s : incr_state C) (ct : nat) (data : list byte) : res (fed (incr_state C)) :=
  match fuel with
  | O => Diverge
  | S fuel' =>
      '(s', p) <- incr_push C s data ;;
      match p with
      | None => Ok (Hungry s' ct)
      | Some k =>
          if Nat.eqb k (length data) then Ok (Hungry s' ct)
          else if Nat.ltb 5 (ct + 1) then Ok Enough
          else rest <- sub_slice data k (length data) ;; feed_block C fuel' s' (ct + 1) rest
      end
  end.
Fixpoint feed_from (C : Incr) (fuel : nat) (s : incr_state C) (ct : nat) (blocks : list (list byte)) : res (fed (incr_state C)) :=
  match blocks with
  | [] => Ok (Hungry s ct)
  | d :: more =>
      r <- feed_block C fuel s ct d ;;
      match r with
      | Enough => Ok Enough
      | Hungry s' ct' => feed_from C fuel s' ct' more
      end
  end.
Definition feed_until_5_chunks (C : Incr) (fuel : nat) (blocks : list (list byte)) : res (fed (incr_state C)) :=
  feed_from C fuel (incr_new C) 0 blocks.

(** benches/compare.rs:173-187 [bench_bup] with the loop of [split_histogram] (benches/compare.rs:64-108): the lengths that
    go into the histogram.  [push] gets everything from [pos] on; the loop ends with the first [None]. *)
Fixpoint bench_from (C : Incr) (fuel : nat) (s : incr_state C) (data : list byte) (pos : nat) : res (list nat) :=
  match fuel with
  | O => Diverge
  | S fuel' =>
      rest <- sub_slice data pos (length data) ;;
      '(s', l) <- incr_push C s rest ;;
      match l with
      | Some x => ls <- bench_from C fuel' s' data (pos + x) ;; Ok (x :: ls)
      | None => Ok []
      end
  end.
Definition bench_lengths (C : Incr) (fuel : nat) (data : list byte) : res (list nat) := bench_from C fuel (incr_new C) data 0.
