(** * GenData: examples/generate-test-data.rs, the program that prints the data of the tests. *)

From Verif Require Import Base Pcg.

(** How a run ends: with everything written to the standard output, by [std::process::exit], or by a panic. *)
Inductive ended : Type :=
| Prints (l : list byte)
| Exits (code : Z)
| Crashes.

(** [str::parse] for an unsigned type of values below [lim]. *)
Definition digit (c : byte) : option Z := let d := b2z c - 48 in if ((0 <=? d) && (d <=? 9))%bool then Some d else None.
Fixpoint digits (lim acc : Z) (s : list byte) : option Z :=
  match s with
  | [] => Some acc
  | c :: r => match digit c with Some d => let z := 10 * acc + d in if z <? lim then digits lim z r else None | None => None end
  end.
Definition parse_uint (lim : Z) (s : list byte) : option Z :=
  match s with
  | [] => None
  | c :: r => if Byte.eqb c x2b then match r with [] => None | _ => digits lim 0 r end else digits lim 0 s
  end.

(** [main] (examples/generate-test-data.rs:5-22) on the arguments of the process, the first of which is its name, all of them valid
    Unicode.  With [checked] the build has overflow checks.  [vec!] panics beyond [isize::MAX] bytes; below that memory does not run
    out, and the standard output takes everything. *)
Definition main (checked : bool) (args : list (list byte)) : ended :=
  match args with
  | [_; a; b] =>
      match parse_uint (2 ^ 128) a, parse_uint (2 ^ 64) b with
      | Some seed, Some len =>
          let size := 1024 * len in
          if (checked && (2 ^ 64 <=? size))%bool then Crashes
          else
            let size := size mod 2 ^ 64 in
            if 2 ^ 63 <=? size then Crashes else Prints (pcg_fill seed 0xa02bdbf7bb3c0a7ac28fa16a64abf96 (Z.to_nat size))
      | _, _ => Crashes
      end
  | _ => Exits 1
  end.
