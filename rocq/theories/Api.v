(** * Api: the traits of src/lib.rs, its slice iterators, and the callers' protocols.

    The traits become records of functions; a [&mut self] method returns the new state. *)

From Verif Require Import Base.

(** src/lib.rs:135-147 [trait ChunkIncr] (method [push]) together with the fresh value that
    src/lib.rs:376-387 [ToChunkIncr::to_chunk_incr] returns. *)
Record Incr : Type := {
  incr_state : Type;
  incr_new : incr_state;
  incr_push : incr_state -> list byte -> res (incr_state * option nat);
}.

(** src/lib.rs:267-366 [trait Chunk]: [to_search_state] and [find_chunk_edge]. *)
Record Chunk : Type := {
  search_state : Type;
  to_search_state : search_state;
  find_chunk_edge : search_state -> list byte -> res (search_state * (option nat * nat));
}.

(** [slice::split_at(l)]: panics when [l] is past the end. *)
Definition split_at {A} (l : list A) (n : nat) : res (list A * list A) :=
  if Nat.leb n (length l) then Ok (firstn n l, skipn n l) else Panic.

(** src/lib.rs:223-227 [struct IterSlices] and src/lib.rs:183-187 [struct IterSlicesStrict]: same fields. *)
Record SliceIter (C : Incr) : Type := {
  it_rem : list byte;
  it_chunker : incr_state C;
}.
Arguments it_rem {C} _.
Arguments it_chunker {C} _.
Arguments Build_SliceIter {C} _ _.

(** src/lib.rs:153-161 [ChunkIncr::iter_slices] and src/lib.rs:169-177 [iter_slices_strict]. *)
Definition iter_slices (C : Incr) (chunker : incr_state C) (data : list byte) : SliceIter C :=
  {| it_rem := data; it_chunker := chunker |}.
Definition iter_slices_strict (C : Incr) (chunker : incr_state C) (data : list byte) : SliceIter C :=
  {| it_rem := data; it_chunker := chunker |}.

(** src/lib.rs:241-258 [<IterSlices as Iterator>::next]. *)
Definition iter_slices_next {C : Incr} (it : SliceIter C) : res (SliceIter C * option (list byte)) :=
  match it_rem it with
  | [] => Ok (it, None)
  | _ :: _ =>
      '(st, r) <- incr_push C (it_chunker it) (it_rem it) ;;
      match r with
      | None => Ok ({| it_rem := []; it_chunker := st |}, Some (it_rem it))
      | Some l =>
          '(v, rn) <- split_at (it_rem it) l ;;
          Ok ({| it_rem := rn; it_chunker := st |}, Some v)
      end
  end.

(** src/lib.rs:208-217 [<IterSlicesStrict as Iterator>::next]. *)
Definition iter_slices_strict_next {C : Incr} (it : SliceIter C) : res (SliceIter C * option (list byte)) :=
  '(st, r) <- incr_push C (it_chunker it) (it_rem it) ;;
  match r with
  | None => Ok ({| it_rem := it_rem it; it_chunker := st |}, None)
  | Some l =>
      '(v, rn) <- split_at (it_rem it) l ;;
      Ok ({| it_rem := rn; it_chunker := st |}, Some v)
  end.

(** src/lib.rs:191-195 [IterSlicesStrict::take_rem]. *)
Definition take_rem {C : Incr} (it : SliceIter C) : SliceIter C * list byte :=
  ({| it_rem := []; it_chunker := it_chunker it |}, it_rem it).

(** src/lib.rs:200-202 and 233-235 [into_parts]. *)
Definition into_parts {C : Incr} (it : SliceIter C) : incr_state C * list byte :=
  (it_chunker it, it_rem it).

(** [n] successive calls of [next] (whatever they return), collecting the items: an arbitrary caller who has
    called [next] [n] times so far. *)
Fixpoint take_next {I T} (next : I -> res (I * option T)) (n : nat) (it : I) : res (list T * I) :=
  match n with
  | O => Ok ([], it)
  | S n' =>
      '(it', o) <- next it ;;
      '(rest, it'') <- take_next next n' it' ;;
      Ok (match o with Some v => v :: rest | None => rest end, it'')
  end.

(** [for v in it { .. }] / [it.collect()]: call [next] until it answers [None].  Fuel bounds the number of calls;
    [Diverge] means the loop did not end within it. *)
Fixpoint collect {I T} (next : I -> res (I * option T)) (fuel : nat) (it : I) : res (list T * I) :=
  match fuel with
  | O => Diverge
  | S fuel' =>
      '(it', o) <- next it ;;
      match o with
      | None => Ok ([], it')
      | Some v =>
          '(rest, it'') <- collect next fuel' it' ;;
          Ok (v :: rest, it'')
      end
  end.

(** ** Callers' protocols

    A run of a caller over one input [data].  Every element of the schedule is one call. *)

Record run (St : Type) : Type := {
  r_cuts : list nat;   (** cut positions reported, as offsets into [data], in order of report *)
  r_state : St;        (** the chunker's state after the last call *)
  r_base : nat;        (** offset in [data] of the first byte the next call would be shown *)
  r_seen : nat;        (** offset in [data] just past the last byte the last call was shown *)
  r_none : bool;       (** the last call answered [None] *)
}.
Arguments r_cuts {St} _.
Arguments r_state {St} _.
Arguments r_base {St} _.
Arguments r_seen {St} _.
Arguments r_none {St} _.

Definition add_cut {St} (p : nat) (r : run St) : run St :=
  {| r_cuts := p :: r_cuts r; r_state := r_state r; r_base := r_base r; r_seen := r_seen r; r_none := r_none r |}.

(** The incremental protocol of src/lib.rs:135-147: each call pushes the next [g] bytes of [data] (fewer at the end);
    on [Some k] the chunk ends at [base + k + adj] and the following call starts there; on [None] all pushed bytes are
    consumed.  [adj = 0] reads [k] as an index to split at, as [IterSlices] does (src/lib.rs:253);
    [adj = 1] reads [k] as the index of the chunk's last byte.
    A split position past the end of the pushed slice is a panic of the caller. *)
Fixpoint drive_push {St} (adj : nat) (push : St -> list byte -> res (St * option nat)) (data : list byte)
  (sched : list nat) (s : St) (base seen : nat) (none : bool) : res (run St) :=
  match sched with
  | [] => Ok {| r_cuts := []; r_state := s; r_base := base; r_seen := seen; r_none := none |}
  | g :: sched' =>
      let d := firstn g (skipn base data) in
      '(s', o) <- push s d ;;
      match o with
      | Some k =>
          if Nat.ltb (length d) (k + adj) then Panic
          else
            r <- drive_push adj push data sched' s' (base + k + adj)%nat (base + length d)%nat false ;;
            Ok (add_cut (base + k + adj) r)
      | None => drive_push adj push data sched' s' (base + length d)%nat (base + length d)%nat true
      end
  end.

Definition run_incr (adj : nat) (C : Incr) (data : list byte) (sched : list nat) : res (run (incr_state C)) :=
  drive_push adj (incr_push C) data sched (incr_new C) 0 0 false.

(** The protocol of src/lib.rs:288-335 for [find_chunk_edge]: the caller shows a window [data[base..hi]] of the input;
    the answer [(Some c, d)] reports a cut at [base + c], [(None, d)] reports none, and in both cases the next window
    starts at [base + d].  The window's end [hi] may grow by any amount between calls ([g] asks for a window of [g]
    bytes, cut at the end of [data]) but bytes already shown and not discarded stay visible.  With [shrink = true] the
    caller may instead, right after a cut, start over with a window as short as it likes (tests/cuts_qc.rs:11-65 does
    so).  Discarding or cutting past the end of the window is a panic of the caller's slicing. *)
Fixpoint drive_chunk {St} (shrink : bool) (find : St -> list byte -> res (St * (option nat * nat))) (data : list byte)
  (sched : list nat) (s : St) (base lo seen : nat) (none : bool) : res (run St) :=
  match sched with
  | [] => Ok {| r_cuts := []; r_state := s; r_base := base; r_seen := seen; r_none := none |}
  | g :: sched' =>
      let hi := Nat.min (length data) (Nat.max lo (base + g)) in
      let buf := firstn (hi - base) (skipn base data) in
      '(s', (edge, d)) <- find s buf ;;
      if Nat.ltb (length buf) d then Panic
      else
        match edge with
        | Some c =>
            if Nat.ltb (length buf) c then Panic
            else
              r <- drive_chunk shrink find data sched' s' (base + d)%nat (if shrink then (base + d)%nat else hi) hi false ;;
              Ok (add_cut (base + c) r)
        | None => drive_chunk shrink find data sched' s' (base + d)%nat hi hi true
        end
  end.

Definition run_chunk (shrink : bool) (C : Chunk) (data : list byte) (sched : list nat)
  : res (run (search_state C)) :=
  drive_chunk shrink (find_chunk_edge C) data sched (to_search_state C) 0 0 0 false.
