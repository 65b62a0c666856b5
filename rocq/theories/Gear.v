(** * Gear: model of src/gear.rs. *)

From Verif Require Import Base Api Tables.

(** src/gear.rs:16-31 [struct Gear32]. *)
Record Gear32 : Type := {
  gear_mask : Z;
  gear_xxx : Z;
  gear_gear : list Z;
}.

(** src/gear.rs:122-129 [msb_mask]: [((1 << log2) - 1) << (32 - log2)] on [u32]. *)
Definition msb_mask (log2 : Z) : res Z :=
  a <- shl_u32 1 log2 ;;
  b <- sub_u32 a 1 ;;
  n <- (if log2 <=? 32 then Ok (32 - log2) else Panic) ;;
  shl_u32 b n.

(** src/gear.rs:134-140 [Gear32::with_average_size_log2]. *)
Definition gear_with_average_size_log2 (average_size_log2 : Z) : res Gear32 :=
  mask <- msb_mask average_size_log2 ;;
  Ok {| gear_mask := mask; gear_xxx := 0; gear_gear := GEAR_32 |}.

(** src/gear.rs:144-147 [Default for Gear32]. *)
Definition gear_default : res Gear32 := gear_with_average_size_log2 13.

(** src/gear.rs:33-39 [struct GearState32]: the fingerprint. *)
Definition GearState32 : Type := Z.

(** src/gear.rs:33 [#[derive(Default)]]. *)
Definition gear_state_default : GearState32 := 0.

(** src/gear.rs:99-102 [GearState32::push]. *)
Definition gear_state_push (p : Gear32) (fp : GearState32) (add : byte) : res (GearState32 * bool) :=
  g <- index (gear_gear p) (Z.to_nat (b2z add)) ;;
  let fp' := wrap32 (wrap32 (Z.shiftl fp 1) + g) in
  Ok (fp', Z.land fp' (gear_mask p) =? gear_xxx p).

(** src/gear.rs:104-106 [GearState32::reset]. *)
Definition gear_state_reset (fp : GearState32) : GearState32 := 0.

(** src/gear.rs:60-65, the loop body of [Gear32::find_chunk_edge]. *)
Definition gear_fce_body (p : Gear32) (s : GearState32) (i : nat) (v : byte) : res (ctl GearState32 nat) :=
  '(s', hit) <- gear_state_push p s v ;;
  if (hit : bool) then Ok (Return gear_state_default (i + 1)%nat) else Ok (Next s').

(** src/gear.rs:55-68 [Gear32::find_chunk_edge]. *)
Definition gear_find_chunk_edge (p : Gear32) (s : GearState32) (data : list byte)
  : res (GearState32 * (option nat * nat)) :=
  r <- for_enum (gear_fce_body p) 0 data s ;;
  match r with
  | Return s' k => Ok (s', (Some k, k))
  | Next s' | Break s' => Ok (s', (None, length data))
  end.

(** src/gear.rs:111-116, the loop body of [GearIncr32::push]. *)
Definition gear_push_body (p : Gear32) (s : GearState32) (i : nat) (v : byte) : res (ctl GearState32 nat) :=
  '(s', hit) <- gear_state_push p s v ;;
  if (hit : bool) then Ok (Return (gear_state_reset s') i) else Ok (Next s').

(** src/gear.rs:110-119 [<GearIncr32 as ChunkIncr>::push]. *)
Definition gear_push (p : Gear32) (s : GearState32) (data : list byte) : res (GearState32 * option nat) :=
  r <- for_enum (gear_push_body p) 0 data s ;;
  match r with
  | Return s' k => Ok (s', Some k)
  | Next s' | Break s' => Ok (s', None)
  end.

(** src/gear.rs:48-69 [Chunk for Gear32]. *)
Definition gear_chunk (p : Gear32) : Chunk :=
  {| search_state := GearState32; to_search_state := gear_state_default; find_chunk_edge := gear_find_chunk_edge p |}.

(** src/gear.rs:71-86 [ToChunkIncr for Gear32], [From<&Gear32> for GearIncr32]. *)
Definition gear_incr (p : Gear32) : Incr :=
  {| incr_state := GearState32; incr_new := gear_state_default; incr_push := gear_push p |}.
