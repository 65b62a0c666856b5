(** * FastCdc: model of src/fastcdc.rs. *)

From Verif Require Import Base Api Tables.

(** src/fastcdc.rs:13-15 [MASK_S], [MASK_L]. *)
Definition MASK_S : Z := 0x0003590703530000.
Definition MASK_L : Z := 0x0000d90003530000.

(** src/fastcdc.rs:26-31 [struct FastCdc]. *)
Record FastCdc : Type := {
  fc_gear : list Z;
  fc_min_size : Z;
  fc_max_size : Z;
  fc_normal_size : Z;
}.

(** src/fastcdc.rs:87-94 [FastCdc::new]. *)
Definition fastcdc_new (gear : list Z) (min_size normal_size max_size : Z) : FastCdc :=
  {| fc_gear := gear; fc_min_size := min_size; fc_max_size := max_size; fc_normal_size := normal_size |}.

(** src/fastcdc.rs:44-53 [Default for FastCdc]. *)
Definition fastcdc_default : FastCdc :=
  {| fc_min_size := 2 * 1024; fc_max_size := 64 * 1024; fc_normal_size := 8 * 1024; fc_gear := GEAR_64 |}.

(** src/fastcdc.rs:33-40 [PartialEq for FastCdc]. *)
Fixpoint list_Z_eqb (a b : list Z) : bool :=
  match a, b with
  | [], [] => true
  | x :: a', y :: b' => (x =? y) && list_Z_eqb a' b'
  | _, _ => false
  end.
Definition fastcdc_eqb (a b : FastCdc) : bool :=
  (fc_min_size a =? fc_min_size b) && (fc_max_size a =? fc_max_size b)
  && (fc_normal_size a =? fc_normal_size b) && list_Z_eqb (fc_gear a) (fc_gear b).

(** src/fastcdc.rs:125-135 [struct FastCdcState]. *)
Record FastCdcState : Type := {
  fc_l : Z;
  fc_fp : Z;
}.

(** src/fastcdc.rs:124 [#[derive(Default)]] and src/fastcdc.rs:138-141 [reset]. *)
Definition fastcdc_state_default : FastCdcState := {| fc_l := 0; fc_fp := 0 |}.
Definition fastcdc_state_reset (s : FastCdcState) : FastCdcState := {| fc_l := 0; fc_fp := 0 |}.

(** The mutable locals [gi], [i], [fp] of [FastCdcState::push]. *)
Record FcLocals : Type := { fl_gi : Z; fl_i : nat; fl_fp : Z }.

(** [fp = (fp << 1) + Wrapping(params.gear[v as usize])], src/fastcdc.rs:177 and 198. *)
Definition fastcdc_roll (p : FastCdc) (fp : Z) (v : byte) : res Z :=
  g <- index (fc_gear p) (Z.to_nat (b2z v)) ;;
  Ok (wrap64 (wrap64 (Z.shiftl fp 1) + g)).

(** src/fastcdc.rs:167-185, the body of the first loop. *)
Definition fastcdc_loop1 (p : FastCdc) (data : list byte) (x : FcLocals) : res (ctl FcLocals nat) :=
  if Nat.leb (length data) (fl_i x) then Ok (Break x)
  else if fc_normal_size p <=? fl_gi x then Ok (Break x)
  else
    v <- index data (fl_i x) ;;
    fp <- fastcdc_roll p (fl_fp x) v ;;
    if Z.land fp MASK_S =? 0 then Ok (Return x (fl_i x))
    else
      gi <- add_u64 (fl_gi x) 1 ;;
      Ok (Next {| fl_gi := gi; fl_i := (fl_i x + 1)%nat; fl_fp := fp |}).

(** src/fastcdc.rs:187-206, the body of the second loop. *)
Definition fastcdc_loop2 (p : FastCdc) (data : list byte) (x : FcLocals) : res (ctl FcLocals nat) :=
  if fc_max_size p <=? fl_gi x then Ok (Return x (fl_i x))
  else if Nat.leb (length data) (fl_i x) then Ok (Break x)
  else
    v <- index data (fl_i x) ;;
    fp <- fastcdc_roll p (fl_fp x) v ;;
    if Z.land fp MASK_L =? 0 then Ok (Return x (fl_i x))
    else
      gi <- add_u64 (fl_gi x) 1 ;;
      Ok (Next {| fl_gi := gi; fl_i := (fl_i x + 1)%nat; fl_fp := fp |}).

(** src/fastcdc.rs:143-213 [FastCdcState::push].  The two [loop]s advance [i] up to [data.len()], so
    [data.len() + 1] rounds of fuel are enough; the theorems show [Diverge] is never reached. *)
Definition fastcdc_state_push (p : FastCdc) (s : FastCdcState) (data : list byte)
  : res (FastCdcState * option nat) :=
  let gi := fc_l s in
  ge <- add_u64 (Z.of_nat (length data)) gi ;;
  if ge <=? fc_min_size p then
    Ok ({| fc_l := ge; fc_fp := fc_fp s |}, None)
  else
    '(gi, i) <- (if gi <=? fc_min_size p then
                   skip <- sub_u64 (fc_min_size p) gi ;;
                   gi' <- add_u64 gi skip ;;
                   Ok (gi', Z.to_nat skip)
                 else Ok (gi, O)) ;;
    let x := {| fl_gi := gi; fl_i := i; fl_fp := fc_fp s |} in
    r1 <- loop (S (length data)) (fastcdc_loop1 p data) x ;;
    match r1 with
    | Return _ k => Ok (fastcdc_state_reset s, Some k)
    | Next x | Break x =>
        r2 <- loop (S (length data)) (fastcdc_loop2 p data) x ;;
        match r2 with
        | Return _ k => Ok (fastcdc_state_reset s, Some k)
        | Next x | Break x => Ok ({| fc_l := ge; fc_fp := fl_fp x |}, None)
        end
    end.

(** src/fastcdc.rs:73-82 [FastCdc::find_chunk_edge]. *)
Definition fastcdc_find_chunk_edge (p : FastCdc) (s : FastCdcState) (data : list byte)
  : res (FastCdcState * (option nat * nat)) :=
  '(s', r) <- fastcdc_state_push p s data ;;
  match r with
  | Some i => Ok (s', (Some (i + 1)%nat, (i + 1)%nat))
  | None => Ok (s', (None, length data))
  end.

(** src/fastcdc.rs:66-83 [Chunk for FastCdc]. *)
Definition fastcdc_chunk (p : FastCdc) : Chunk :=
  {| search_state := FastCdcState; to_search_state := fastcdc_state_default;
     find_chunk_edge := fastcdc_find_chunk_edge p |}.

(** src/fastcdc.rs:97-122 and 216-220 [ToChunkIncr for FastCdc], [FastCdcIncr]. *)
Definition fastcdc_incr (p : FastCdc) : Incr :=
  {| incr_state := FastCdcState; incr_new := fastcdc_state_default; incr_push := fastcdc_state_push p |}.
