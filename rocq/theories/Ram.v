(** * Ram: model of src/ram.rs. *)

From Verif Require Import Base Api.

(** src/ram.rs:28-30 [Ram::with_w] (the configuration is just [w]). *)
Definition ram_with_w (w : Z) : Z := w.

(** src/ram.rs:52-59 [struct RamState]. *)
Record RamState : Type := {
  ram_i : Z;
  ram_max_val : byte;
}.

(** src/ram.rs:52 [#[derive(Default)]]. *)
Definition ram_state_default : RamState := {| ram_i := 0; ram_max_val := x00 |}.

(** src/ram.rs:66-76, the loop body of [RamState::push]; [i] is [self.i] at entry. *)
Definition ram_push_body (w i : Z) (s : RamState) (l_i : nat) (b : byte) : res (ctl RamState nat) :=
  if byte_geb b (ram_max_val s) then
    ri <- add_u64 (Z.of_nat l_i) i ;;
    if w <? ri then
      Ok (Return {| ram_i := 0; ram_max_val := x00 |} l_i)
    else
      Ok (Next {| ram_i := ram_i s; ram_max_val := b |})
  else
    Ok (Next s).

(** src/ram.rs:62-81 [RamState::push]. *)
Definition ram_state_push (w : Z) (s : RamState) (data : list byte) : res (RamState * option nat) :=
  r <- for_enum (ram_push_body w (ram_i s)) 0 data s ;;
  match r with
  | Return s' k => Ok (s', Some k)
  | Next s' | Break s' =>
      i' <- add_u64 (ram_i s') (Z.of_nat (length data)) ;;
      Ok ({| ram_i := i'; ram_max_val := ram_max_val s' |}, None)
  end.

(** src/ram.rs:84-111 [ToChunkIncr for Ram], [RamIncr] and its [push]. *)
Definition ram_incr (w : Z) : Incr :=
  {| incr_state := RamState; incr_new := ram_state_default; incr_push := ram_state_push w |}.

(** src/ram.rs:40-49 [Ram::find_chunk_edge]. *)
Definition ram_find_chunk_edge (w : Z) (s : RamState) (data : list byte) : res (RamState * (option nat * nat)) :=
  '(s', r) <- ram_state_push w s data ;;
  match r with
  | Some i => Ok (s', (Some (i + 1)%nat, (i + 1)%nat))
  | None => Ok (s', (None, length data))
  end.

(** src/ram.rs:33-50 [Chunk for Ram]. *)
Definition ram_chunk (w : Z) : Chunk :=
  {| search_state := RamState; to_search_state := ram_state_default; find_chunk_edge := ram_find_chunk_edge w |}.
