(** * Spec: what the cuts of an input are.

    Nothing here refers to the state of any chunker.  The only things taken from the model files are the protocol
    drivers [run_incr] / [run_chunk] (Api.v), the byte tables and the configuration records. *)

From Verif Require Import Base Api Tables Range.

(** ** Generic notions *)

(** The [k] last bytes of [l] (all of them if there are fewer). *)
Definition lastn {A} (k : nat) (l : list A) : list A := skipn (length l - k) l.

Definition is_prefix {A} (a b : list A) : Prop := exists t, b = a ++ t.

(** [first h d n]: with the bytes [h] already cut off and the bytes [d] following, the next chunk is [firstn n d].
    [cuts_of first h d cs]: [cs] is the complete list of cut positions in [d], counted from the start of [h]. *)
Inductive cuts_of (first : list byte -> list byte -> nat -> Prop) : list byte -> list byte -> list nat -> Prop :=
| cuts_none : forall h d, (forall n, ~ first h d n) -> cuts_of first h d []
| cuts_some : forall h d n cs, first h d n -> cuts_of first (h ++ firstn n d) (skipn n d) cs ->
    cuts_of first h d ((length h + n)%nat :: cs).

(** [cut_path first h d cs h' d']: cutting [d] (which follows [h]) at the positions [cs], one after the other, is right and
    leads to the point where [h'] has been cut off and [d'] follows.  Unlike [cuts_of] it says nothing about later cuts. *)
Inductive cut_path (first : list byte -> list byte -> nat -> Prop) : list byte -> list byte -> list nat -> list byte -> list byte -> Prop :=
| path_nil : forall h d, cut_path first h d [] h d
| path_cons : forall h d n cs h' d', first h d n -> cut_path first (h ++ firstn n d) (skipn n d) cs h' d' ->
    cut_path first h d ((length h + n)%nat :: cs) h' d'.

(** The pieces of [data] (which starts at position [base]) cut at the positions [cs]; what is left at the end is a
    piece too unless it is empty. *)
Fixpoint pieces (base : nat) (cs : list nat) (data : list byte) : list (list byte) :=
  match cs with
  | [] => match data with [] => [] | _ => [data] end
  | p :: cs' => firstn (p - base) data :: pieces p cs' (skipn (p - base) data)
  end.

(** A *rule* [r h c] says whether a chunk that started after [h] ends once it consists of the bytes [c].
    [ends_at r]: the chunk ends just after the first byte that makes the rule true.
    [ends_before r]: the chunk ends just before that byte, which starts the next chunk. *)
Definition ends_at (r : list byte -> list byte -> Prop) (h d : list byte) (n : nat) : Prop :=
  (1 <= n <= length d)%nat /\ r h (firstn n d) /\ forall m, (1 <= m < n)%nat -> ~ r h (firstn m d).
Definition ends_before (r : list byte -> list byte -> Prop) (h d : list byte) (n : nat) : Prop :=
  (S n <= length d)%nat /\ r h (firstn (S n) d) /\ forall m, (1 <= m < S n)%nat -> ~ r h (firstn m d).

(** A rule looking only at the chunk (the algorithm forgets everything at a cut), and a rule looking at the whole
    stream (it does not notice its own cuts). *)
Definition per_chunk (r : list byte -> Prop) : list byte -> list byte -> Prop := fun _ c => r c.
Definition per_stream (r : list byte -> Prop) : list byte -> list byte -> Prop := fun h c => r (h ++ c).

(** ** Conformance of the two APIs to a cut relation

    [sched] ranges over all callers (see Api.v); [lim] bounds the stream length.  For [push]:
    - no call panics, and the cuts reported so far are always an initial part of the cuts of the whole input;
    - no cut inside the bytes consumed so far is still unreported;
    - a caller who goes on until there is nothing left gets exactly the cuts of the input. *)
Definition drain (data : list byte) : list nat := repeat (length data) (S (length data)).

Definition incr_conforms (adj : nat) (C : Incr) (first : list byte -> list byte -> nat -> Prop) (lim : nat -> Prop) : Prop :=
  forall data, lim (length data) ->
  exists cs, cuts_of first [] data cs /\
    forall sched,
      (exists r later, run_incr adj C data sched = Ok r /\ (r_base r <= length data)%nat /\ cs = r_cuts r ++ later /\
         (forall p, In p later -> (r_base r <= p)%nat)) /\
      (exists r, run_incr adj C data (sched ++ drain data) = Ok r /\ r_cuts r = cs /\ r_base r = length data).

(** For algorithms that cut just after the deciding byte more is true: the reported cuts are exactly the cuts of the
    bytes consumed so far, seen as an input of their own. *)
Definition incr_prompt (adj : nat) (C : Incr) (first : list byte -> list byte -> nat -> Prop) (lim : nat -> Prop) : Prop :=
  forall data sched r, lim (length data) -> run_incr adj C data sched = Ok r ->
  cuts_of first [] (firstn (r_base r) data) (r_cuts r).

(** For [find_chunk_edge] moreover at most [keep] bytes are kept back after an answer "no cut". *)
Definition chunk_conforms (shrink : bool) (C : Chunk) (first : list byte -> list byte -> nat -> Prop) (lim : nat -> Prop)
  (keep : nat) : Prop :=
  forall data, lim (length data) ->
  exists cs, cuts_of first [] data cs /\
    forall sched,
      (exists r, run_chunk shrink C data sched = Ok r /\ (r_base r <= r_seen r <= length data)%nat /\
         is_prefix (r_cuts r) cs /\
         (r_none r = true -> cuts_of first [] (firstn (r_seen r) data) (r_cuts r) /\
                             (r_seen r - r_base r <= keep)%nat)) /\
      (exists r, run_chunk shrink C data (sched ++ drain data) = Ok r /\ r_cuts r = cs /\ r_seen r = length data).

(** Stream lengths that fit the [u64] counters, and no restriction. *)
Definition below_2_64 (n : nat) : Prop := Z.of_nat n < 2 ^ 64.
Definition any_length (n : nat) : Prop := True.

(** ** Sums over bytes, newest first.  [age] counts from the newest byte. *)

(** sum of [x^age * f b]. *)
Fixpoint power_sum (x : Z) (f : byte -> Z) (age : nat) (newest_first : list byte) : Z :=
  match newest_first with
  | [] => 0
  | b :: older => x ^ Z.of_nat age * f b + power_sum x f (S age) older
  end.

(** sum of the bytes, and sum of the bytes weighted by [age + 1]. *)
Fixpoint byte_sum (l : list byte) : Z :=
  match l with
  | [] => 0
  | b :: t => b2z b + byte_sum t
  end.
Fixpoint aged_sum (age : nat) (newest_first : list byte) : Z :=
  match newest_first with
  | [] => 0
  | b :: older => (Z.of_nat age + 1) * b2z b + aged_sum (S age) older
  end.

(** ** Mii *)

Definition increasing (l : list byte) : Prop :=
  forall i a b, nth_error l i = Some a -> nth_error l (S i) = Some b -> b2z a < b2z b.

(** The last [w + 1] bytes of the chunk are strictly increasing. *)
Definition mii_rule (w : Z) (c : list byte) : Prop :=
  1 <= w /\ exists pre tail, c = pre ++ tail /\ Z.of_nat (length tail) = w + 1 /\ increasing tail.

(** What the incremental chunker does: chunks after the first behave as if a 0 byte came before them. *)
Definition mii_incr_rule (w : Z) (h c : list byte) : Prop :=
  match h with
  | [] => mii_rule w c
  | _ => mii_rule w (x00 :: c)
  end.

(** ** Ram: more than [w] bytes, then a byte at least as large as all of them. *)
Definition ram_rule (w : Z) (c : list byte) : Prop :=
  exists pre b, c = pre ++ [b] /\ w < Z.of_nat (length pre) /\ forall x, In x pre -> b2z x <= b2z b.

(** ** Gear32 *)
Definition table_at (t : list Z) (b : byte) : Z := nth (Z.to_nat (b2z b)) t 0.

Definition gear_fingerprint (c : list byte) : Z :=
  power_sum 2 (table_at GEAR_32) 0 (firstn 32 (rev c)) mod 2 ^ 32.

(** The [n] top bits of the fingerprint are zero. *)
Definition gear_rule (n : Z) (c : list byte) : Prop := gear_fingerprint c < 2 ^ (32 - n).

(** ** PigzRsyncable *)

(** xor of [b * 2^age]. *)
Fixpoint xor_sum (age : nat) (newest_first : list byte) : Z :=
  match newest_first with
  | [] => 0
  | b :: older => Z.lxor (b2z b * 2 ^ Z.of_nat age) (xor_sum (S age) older)
  end.

Definition pigz_rule (bits : Z) (c : list byte) : Prop :=
  let hit := (2 ^ bits - 1) / 2 in
  Z.lxor (hit * 2 ^ Z.of_nat (length c)) (xor_sum 0 (rev c)) mod 2 ^ bits = hit.

(** ** GzipRsyncable *)
Definition gzip_rule (window : nat) (modulus : Z) (c : list byte) : Prop :=
  (byte_sum (lastn window c) mod 2 ^ 64) mod modulus = 0.

(** ** FastCdc *)

(** All bits of [mask] are zero in [fp]. *)
Definition bits_clear (fp mask : Z) : Prop := forall i, 0 <= i -> Z.testbit mask i = true -> Z.testbit fp i = false.

(** The gear fingerprint of bytes [min ..= i] of the chunk. *)
Definition fastcdc_fingerprint (gear : list Z) (min i : nat) (d : list byte) : Z :=
  power_sum 2 (table_at gear) 0 (rev (skipn min (firstn (S i) d))) mod 2 ^ 64.

(** Masks of the paper (src/fastcdc.rs:13-15). *)
Definition fastcdc_mask (normal : Z) (i : nat) : Z :=
  if Z.of_nat i <? normal then 0x0003590703530000 else 0x0000d90003530000.

Definition fastcdc_stop (gear : list Z) (min normal max : Z) (d : list byte) (i : nat) : Prop :=
  max <= Z.of_nat i \/
  ((i < length d)%nat /\ bits_clear (fastcdc_fingerprint gear (Z.to_nat min) i d) (fastcdc_mask normal i)).

(** The chunk ends before the first offset [i >= min] at which to stop. *)
Definition fastcdc_first (gear : list Z) (min normal max : Z) (_ d : list byte) (n : nat) : Prop :=
  min < Z.of_nat (length d) /\ min <= Z.of_nat n <= Z.of_nat (length d) /\
  fastcdc_stop gear min normal max d n /\
  forall m, min <= Z.of_nat m < Z.of_nat n -> ~ fastcdc_stop gear min normal max d m.

(** ** RollSum (bup) *)
Definition bup_s1 (window : nat) (c : list byte) : Z :=
  31 * Z.of_nat window + byte_sum (firstn window (rev c)).
Definition bup_s2 (window : nat) (c : list byte) : Z :=
  31 * Z.of_nat window * (Z.of_nat window - 1) + aged_sum 0 (firstn window (rev c)).
Definition bup_digest (window : nat) (c : list byte) : Z :=
  (bup_s1 window c mod 2 ^ 16) * 2 ^ 16 + bup_s2 window c mod 2 ^ 16.
Definition bup_rule (window : nat) (c : list byte) : Prop := bup_s2 window c mod 8192 = 8191.

(** The incremental chunker steps through its window with [(wofs + 1) & (len - 1)], which visits only as many entries as
    the largest power of two dividing the length (the whole window when the length is a power of two).  So it removes a
    byte when it is that old, but with the weight of the whole window. *)
Fixpoint low_bit_pos (p : positive) : positive := match p with xO q => xO (low_bit_pos q) | _ => xH end.
Definition low_bit (w : nat) : nat := match N.of_nat w with N0 => 0 | Npos p => Pos.to_nat (low_bit_pos p) end.

Definition bup_incr_s1 (window : nat) (c : list byte) : Z :=
  31 * Z.of_nat window + byte_sum (firstn (low_bit window) (rev c)).
Definition bup_incr_s2 (window : nat) (c : list byte) : Z :=
  31 * Z.of_nat window * (Z.of_nat window - 1) + aged_sum 0 (firstn (low_bit window) (rev c))
  - (Z.of_nat window - Z.of_nat (low_bit window)) * byte_sum (skipn (low_bit window) (rev c)).
Definition bup_incr_digest (window : nat) (c : list byte) : Z :=
  (bup_incr_s1 window c mod 2 ^ 16) * 2 ^ 16 + bup_incr_s2 window c mod 2 ^ 16.
Definition bup_incr_rule (window : nat) (c : list byte) : Prop := bup_incr_s2 window c mod 8192 = 8191.

(** ** BuzHash *)

(** Rotation of a 32 bit word to the left by [n]: bit [i] of the result is bit [(i - n) mod 32] of [x]. *)
Definition rot32 (n : Z) (x : Z) : Z :=
  let k := n mod 32 in (x * 2 ^ k) mod 2 ^ 32 + x / 2 ^ (32 - k).

(** The cyclic polynomial over all of [l]: xor of [rot32 age (h b)]. *)
Fixpoint cyclic (h : byte -> Z) (age : nat) (newest_first : list byte) : Z :=
  match newest_first with
  | [] => 0
  | b :: older => Z.lxor (rot32 (Z.of_nat age) (h b)) (cyclic h (S age) older)
  end.

(** What the code computes for a chunk: a byte is removed when it is [k] bytes old, with the rotation [k mod 8]. *)
Definition buz_hash (h : byte -> Z) (k : nat) (c : list byte) : Z :=
  Z.lxor (cyclic h 0 (rev c)) (cyclic h (k mod 8) (skipn k (rev c))).

(** All bits of [mask] are set in [x]. *)
Definition bits_set (x mask : Z) : Prop := forall i, 0 <= i -> Z.testbit mask i = true -> Z.testbit x i = true.

Definition buz_rule (h : byte -> Z) (k : nat) (mask : Z) (c : list byte) : Prop := bits_set (buz_hash h k c) mask.
Definition buz_incr_rule (h : byte -> Z) (k : nat) (mask max : Z) (c : list byte) : Prop :=
  buz_rule h k mask c \/ max < Z.of_nat (length c).

(** ** Zpaq *)

(** The byte that followed the most recent earlier occurrence of [p], 0 if there is none.
    [next] is the byte that follows the head of [older]. *)
Fixpoint follower (p next : byte) (older : list byte) : byte :=
  match older with
  | [] => x00
  | q :: older' => if Byte.eqb q p then next else follower p q older'
  end.
(** The order-1 prediction after the bytes [c] of a chunk, with a virtual 0 byte before the chunk. *)
Definition prediction (newest_first : list byte) : byte :=
  match newest_first ++ [x00] with
  | [] => x00
  | p :: older => follower p p older
  end.
Fixpoint zpaq_hash_rev (newest_first : list byte) : Z :=
  match newest_first with
  | [] => 0
  | b :: older =>
      ((zpaq_hash_rev older + b2z b + 1) * (if Byte.eqb b (prediction older) then 314159265 else 271828182)) mod 2 ^ 32
  end.
Definition zpaq_hash (c : list byte) : Z := zpaq_hash_rev (rev c).

(** Order on the bounds of a range. *)
Definition below_range (r : range) (n : Z) : Prop :=
  match start_bound r with
  | Included i => n < i
  | Excluded i => n <= i
  | Unbounded => False
  end.
Definition above_range (r : range) (n : Z) : Prop :=
  match end_bound r with
  | Included i => i < n
  | Excluded i => i <= n
  | Unbounded => False
  end.
Definition in_range (r : range) (n : Z) : Prop :=
  match start_bound r with Included i => i <= n | Excluded i => i < n | Unbounded => True end /\
  match end_bound r with Included i => n <= i | Excluded i => n < i | Unbounded => True end.

(** [extra = 0] for [push], [extra = 1] for [find_chunk_edge]. *)
Definition zpaq_rule (r : range) (max_hash : Z) (extra : Z) (c : list byte) : Prop :=
  let n := Z.of_nat (length c) + extra in
  (zpaq_hash c < max_hash /\ ~ below_range r n) \/ above_range r n.

(** ** Zstd *)
Definition zstd_prime : Z := 0xCF1BBCDCB7A56463.
Definition zstd_hash (c : list byte) : Z :=
  power_sum zstd_prime (fun b => b2z b + 10) 0 (firstn 32 (rev c)) mod 2 ^ 64.
(** From the 33rd byte on, all [bits] low bits of the hash are one. *)
Definition zstd_rule (bits : Z) (c : list byte) : Prop :=
  (33 <= length c)%nat /\ zstd_hash c mod 2 ^ bits = 2 ^ bits - 1.

(** ** Statements about lists of cuts *)

(** Strictly increasing, all above [lo]. *)
Fixpoint strictly_above (lo : nat) (cs : list nat) : Prop :=
  match cs with
  | [] => True
  | p :: cs' => (lo < p)%nat /\ strictly_above p cs'
  end.

(** The sizes of the chunks that end at the cuts [cs], the first starting at [base]. *)
Fixpoint sizes (base : nat) (cs : list nat) : list nat :=
  match cs with
  | [] => []
  | p :: cs' => (p - base)%nat :: sizes p cs'
  end.

(** The cuts after position [p], counted from [p]. *)
Definition cuts_after (p : nat) (cs : list nat) : list nat :=
  map (fun q => (q - p)%nat) (filter (fun q => Nat.ltb p q) cs).

(** No cut of [cs] lies strictly between [p] and [q]. *)
Definition no_cut_between (p q : nat) (cs : list nat) : Prop := forall x, In x cs -> ~ (p < x < q)%nat.

(** [k] is a chunk of a stream with the cuts [cs]: it starts after [x], at the start of the stream or at a cut, and ends at the next. *)
Definition is_chunk (x k : list byte) (cs : list nat) : Prop :=
  (x = [] \/ In (length x) cs) /\ In (length x + length k)%nat cs /\ no_cut_between (length x) (length x + length k) cs.

(** The rule looks at the last [w] bytes only, once there are that many. *)
Definition window_rule (w : nat) (r : list byte -> Prop) : Prop :=
  forall a c, (w <= length c)%nat -> (r (a ++ c) <-> r c).

(** ** Zpaq's predictor as a table: mispredicted bytes of a run, starting from the table [tab] and the byte [last] *)
Fixpoint mispredicted (tab : byte -> byte) (last : byte) (run : list byte) : nat :=
  match run with
  | [] => 0
  | b :: run' => ((if Byte.eqb b (tab last) then 0 else 1) + mispredicted (fun q => if Byte.eqb q last then b else tab q) b run')%nat
  end.

(** ** Situations a caller of [find_chunk_edge] can get into

    [reaches shrink C data s base lo]: some caller following the protocol (see [drive_chunk] in Api.v) holds the state [s],
    its buffer starts at [base] and must extend at least to [lo]. *)
Definition view (data : list byte) (base hi : nat) : list byte := firstn (hi - base) (skipn base data).

Inductive reaches (shrink : bool) (C : Chunk) (data : list byte) : search_state C -> nat -> nat -> Prop :=
| reach_start : reaches shrink C data (to_search_state C) 0 0
| reach_more : forall s base lo hi s' d, reaches shrink C data s base lo -> (lo <= hi <= length data)%nat -> (base <= hi)%nat ->
    find_chunk_edge C s (view data base hi) = Ok (s', (None, d)) -> reaches shrink C data s' (base + d) hi
| reach_cut : forall s base lo hi s' c d, reaches shrink C data s base lo -> (lo <= hi <= length data)%nat -> (base <= hi)%nat ->
    find_chunk_edge C s (view data base hi) = Ok (s', (Some c, d)) ->
    reaches shrink C data s' (base + d) (if shrink then (base + d)%nat else hi).

(** Every answer is inside the buffer, and an answer without a cut keeps back at most [keep] bytes. *)
Definition edges_in_bounds (shrink : bool) (C : Chunk) (keep : nat) (lim : nat -> Prop) : Prop :=
  forall data s base lo hi, lim (length data) -> reaches shrink C data s base lo -> (lo <= hi <= length data)%nat -> (base <= hi)%nat ->
  exists s' edge d, find_chunk_edge C s (view data base hi) = Ok (s', (edge, d)) /\ (d <= hi - base)%nat /\
    match edge with
    | Some c => (1 <= c <= hi - base)%nat
    | None => (hi - base - d <= keep)%nat
    end.
