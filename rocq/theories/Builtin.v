(** * Builtin: every built-in chunker as one enumeration, for statements about all of them. *)

From Verif Require Import Base Api Tables Range Spec Mii Ram Gear Pigz Gzip FastCdc Bup BuzHash Zpaq Zstd.

(** A constructor call: the algorithm and the arguments of its (most general) public constructor.  The other
    constructors and the defaults are shown to be instances of these (C43 for Zpaq). *)
Inductive config : Type :=
| CfgMii (w : Z)                                                          (** src/mii.rs:26 *)
| CfgRam (w : Z)                                                          (** src/ram.rs:28 *)
| CfgGear (average_size_log2 : Z)                                         (** src/gear.rs:134 *)
| CfgPigz (bits : Z)                                                      (** src/pigz.rs:15 *)
| CfgGzip (window : nat) (modulus : Z)                                    (** src/gzip.rs:64 *)
| CfgFastCdc (gear : list Z) (min normal max : Z)                         (** src/fastcdc.rs:87 *)
| CfgRollSum (window : nat)                                               (** src/bup.rs:32 *)
| CfgBuzHash (capacity : nat) (mask : Z) (hash : BuzHashHash) (max : Z)   (** src/buzhash.rs:90 *)
| CfgZpaq (average_size_pow_2 : Z) (r : range)                            (** src/zpaq.rs:141 *)
| CfgZstd (target_section_size : Z).                                      (** src/zstd.rs:59 *)

Definition is_u64 (x : Z) : Prop := 0 <= x < 2 ^ 64.
Definition is_u32 (x : Z) : Prop := 0 <= x < 2 ^ 32.
Definition bound_u64 (b : bound) : Prop := match b with Included x | Excluded x => is_u64 x | Unbounded => True end.

(** The arguments are values of their Rust types; a user's [BuzHashHash] is a pure function into [u32]. *)
Definition typed (c : config) : Prop :=
  match c with
  | CfgMii w | CfgRam w => is_u64 w
  | CfgGear n => is_u64 n
  | CfgPigz b => 0 <= b < 256
  | CfgGzip _ m => is_u64 m
  | CfgFastCdc g min normal max => length g = 256%nat /\ (forall x, In x g -> is_u64 x) /\ is_u64 min /\ is_u64 normal /\ is_u64 max
  | CfgRollSum _ => True
  | CfgBuzHash _ mask h max => is_u32 mask /\ is_u64 max /\ forall b, exists v, h b = Ok v /\ is_u32 v
  | CfgZpaq f r => 0 <= f < 256 /\ bound_u64 (start_bound r) /\ bound_u64 (end_bound r)
  | CfgZstd t => is_u64 t
  end.

(** The chunkers a constructor call gives; [Panic] when the constructor panics. *)
Definition incr_of (c : config) : res Incr :=
  match c with
  | CfgMii w => Ok (mii_incr (mii_with_w w))
  | CfgRam w => Ok (ram_incr (ram_with_w w))
  | CfgGear n => p <- gear_with_average_size_log2 n ;; Ok (gear_incr p)
  | CfgPigz b => p <- pigz_with_bits b ;; Ok (pigz_incr p)
  | CfgGzip w m => Ok (gzip_incr (gzip_with_window_and_modulus w m))
  | CfgFastCdc g min normal max => Ok (fastcdc_incr (fastcdc_new g min normal max))
  | CfgRollSum w => Ok (rollsum_incr (rollsum_with_window w))
  | CfgBuzHash k mask h max => p <- buzhash_new k mask h max ;; Ok (buz_incr p)
  | CfgZpaq f r => p <- zpaq_with_average_and_range f r ;; Ok (zpaq_incr p)
  | CfgZstd t => p <- zstd_with_target_section_size t ;; Ok (zstd_incr p)
  end.

Definition chunk_of (c : config) : res Chunk :=
  match c with
  | CfgMii w => Ok (mii_chunk (mii_with_w w))
  | CfgRam w => Ok (ram_chunk (ram_with_w w))
  | CfgGear n => p <- gear_with_average_size_log2 n ;; Ok (gear_chunk p)
  | CfgPigz b => p <- pigz_with_bits b ;; Ok (pigz_chunk p)
  | CfgGzip w m => Ok (gzip_chunk (gzip_with_window_and_modulus w m))
  | CfgFastCdc g min normal max => Ok (fastcdc_chunk (fastcdc_new g min normal max))
  | CfgRollSum w => Ok (rollsum_chunk (rollsum_with_window w))
  | CfgBuzHash k mask h max => p <- buzhash_new k mask h max ;; Ok (buz_chunk p)
  | CfgZpaq f r => p <- zpaq_with_average_and_range f r ;; Ok (zpaq_chunk p)
  | CfgZstd t => p <- zstd_with_target_section_size t ;; Ok (zstd_chunk p)
  end.

(** The function computed by a [BuzHashHash] that does not panic. *)
Definition value_of (h : BuzHashHash) (b : byte) : Z := match h b with Ok v => v | _ => 0 end.

Definition bits_of (t : Z) : Z := 20 + Z.log2 (t / 2 ^ 20).

(** ** The rules *)

(** What [push] does, where the returned index is read as the API of each chunker means it: [incr_adj c = 1] when it is
    the index of the chunk's last byte. *)
Definition incr_adj (c : config) : nat :=
  match c with CfgRam _ | CfgGear _ | CfgZstd _ => 1%nat | _ => 0%nat end.

Definition incr_first (c : config) : list byte -> list byte -> nat -> Prop :=
  match c with
  | CfgMii w => ends_at (mii_incr_rule w)
  | CfgRam w => ends_at (per_chunk (ram_rule w))
  | CfgGear n => ends_at (per_chunk (gear_rule n))
  | CfgPigz b => ends_at (per_chunk (pigz_rule b))
  | CfgGzip w m => ends_at (per_chunk (gzip_rule w m))
  | CfgFastCdc g min normal max => fastcdc_first g min normal max
  | CfgRollSum w => ends_at (per_stream (bup_incr_rule w))
  | CfgBuzHash k mask h max => ends_at (per_chunk (buz_incr_rule (value_of h) k mask max))
  | CfgZpaq f r => ends_at (per_chunk (zpaq_rule r (2 ^ (32 - f)) 0))
  | CfgZstd t => ends_at (per_stream (zstd_rule (bits_of t)))
  end.

(** What [find_chunk_edge] does; there is no rule for FastCdc and Zstd that every caller sees. *)
Definition chunk_rule (c : config) : option (list byte -> Prop) :=
  match c with
  | CfgMii w => Some (mii_rule w)
  | CfgRam w => Some (ram_rule w)
  | CfgGear n => Some (gear_rule n)
  | CfgPigz b => Some (pigz_rule b)
  | CfgGzip w m => Some (gzip_rule w m)
  | CfgFastCdc _ _ _ _ => None
  | CfgRollSum w => Some (bup_rule w)
  | CfgBuzHash k mask h _ => Some (buz_rule (value_of h) k mask)
  | CfgZpaq f r => Some (zpaq_rule r (2 ^ (32 - f)) 1)
  | CfgZstd _ => None
  end.

(** Bytes a caller of [find_chunk_edge] has to keep after an answer without a cut. *)
Definition look_back (c : config) : nat :=
  match c with
  | CfgGzip w _ => w
  | CfgRollSum w => w
  | CfgBuzHash k _ _ _ => k
  | CfgZstd _ => 32%nat
  | _ => 0%nat
  end.

(** Streams shorter than [2^64 - 1] bytes. *)
Definition stream_len (n : nat) : Prop := Z.of_nat n + 1 < 2 ^ 64.

(** ** Configurations that the constructors accept although the chunker cannot work with them

    Each exclusion is shown to be necessary by a refutation theorem. *)
Definition incr_sound (c : config) : Prop :=
  match c with
  | CfgGzip w m => (1 <= w)%nat /\ 0 < m
  | CfgFastCdc _ min normal max => 1 <= min /\ normal <= max
  | CfgRollSum w => (1 <= w)%nat
  | _ => True
  end.
Definition chunk_sound (c : config) : Prop :=
  match c with
  | CfgGzip _ m => 0 < m
  | CfgFastCdc _ _ normal max => normal <= max
  | _ => True
  end.

(** ** When the two APIs agree

    [cs1]: the cuts reported by [push], [cs2]: those of [find_chunk_edge] (complete runs).  Ram, Gear32, PigzRsyncable and
    GzipRsyncable always agree; the others agree when no chunk shows one of the differences between their two rules. *)
Definition agree_when (c : config) (cs1 cs2 : list nat) : Prop :=
  match c with
  | CfgMii w => Forall (fun n => w + 1 <= Z.of_nat n) (sizes 0 cs1)
  | CfgRollSum w => (exists k, w = (2 ^ k)%nat) /\
      Forall (fun n => w <= n)%nat (sizes 0 cs1) /\ Forall (fun n => w <= n)%nat (sizes 0 cs2)
  | CfgBuzHash _ _ _ max => Forall (fun n => Z.of_nat n <= max) (sizes 0 cs1)
  | CfgZpaq _ r => Forall (fun n => (below_range r (Z.of_nat n) <-> below_range r (Z.of_nat n + 1)) /\
                                    (above_range r (Z.of_nat n) <-> above_range r (Z.of_nat n + 1))) (sizes 0 cs2)
  | _ => True
  end.

(** ** The configurations for which iterating over slices always ends, and for which no slice makes [push] panic *)
Definition iter_good (c : config) : Prop :=
  match c with
  | CfgGear n => 25 <= n
  | CfgGzip w m => (1 <= w)%nat /\ 0 < m
  | CfgFastCdc g min normal max =>
      1 <= min \/ ((0 < normal \/ 0 < max) /\ forall b, ~ bits_clear (table_at g b) (fastcdc_mask normal 0))
  | CfgRollSum w => (1 <= w)%nat
  | _ => True
  end.

Definition push_good (c : config) : Prop :=
  match c with
  | CfgGzip w m => (1 <= w)%nat /\ 0 < m
  | CfgRollSum w => (1 <= w)%nat
  | _ => True
  end.
