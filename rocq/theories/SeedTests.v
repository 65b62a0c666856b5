(** * SeedTests: the other tests of tests/fastcdc.rs, from the bytes of the file. *)

From Coq Require Import String.
From Verif Require Import Base Rust RustLex RustParse RustElab RustSource RustFiles RustTests.
Open Scope list_scope.
Open Scope string_scope.

(** [Vec::capacity] and [Vec::set_len] of the standard library, [rand::random] at the type it is used at and [quickcheck::Gen]; the bodies are
    of no account here. *)
Definition raw_signatures : source := "pub trait RawVec { fn capacity(&self) -> usize { 0 } fn set_len(&mut self, n: usize) { } }
  fn random() -> u128 { 0 }
  pub trait Gen { fn size(&self) -> usize { 0 } fn fill_bytes(&mut self, dest: &mut [u8]) { } }"%source.
(** What the parser does not know, in other words: an [unsafe] block is a block, [vec![e]] is [vec![e; 1]], [::rand::f] is [f], the [Self] of
    this file is [Vec8K], and [&mut x[..]] lends what [&mut x] lends (the elaborator would lend a copy: C85_lent). *)
Fixpoint plain (ts : list tok) : list tok :=
  match ts with
  | [] => []
  | a :: r =>
      if is_tok "unsafe" a then plain r
      else if is_tok "Self" a then TId "Vec8K" :: plain r
      else match r with
           | b :: c :: d :: ((e :: s) as q) =>
               if (is_tok "vec" a && is_tok "!" b && is_tok "[" c && is_tok "]" e)%bool then a :: b :: c :: d :: TOp ";" :: TInt 1 None :: e :: plain s
               else if (is_tok "=" a && is_tok "::" b && is_tok "rand" c && is_tok "::" d)%bool then a :: plain q
               else if (is_tok "mut" a && is_tok "[" c && is_tok ".." d && is_tok "]" e)%bool then a :: b :: plain s
               else a :: plain r
           | _ => a :: plain r
           end
  end.
Definition seed_tests : list string := ["arbitrary"; "o1_empty"; "o1_8k_seed"; "o1_8k1"; "o1_8k_t1"; "o1_8k_t2"].
Definition seed_helpers : option (list (list item)) :=
  match tokens tests_fastcdc_rs with
  | Some ts => all_some [parse_all [raw_signatures]; picked (tests_fastcdc_rs, ["oracle_1_test"]);
                         option_map (List.map IFn) (all_some (List.map (fun x => pick_fn depth x (plain ts)) seed_tests))]
  | None => None
  end.
Definition seed_test_functions : option (list (string * inferred fn)) :=
  compile_cut_tests seed_tests (parse_all crate_files) seed_helpers (option_map plain (tokens tests_fastcdc_rs)).

(** What follows [&mut] and a path [x.y.z], wherever that is in a file. *)
Fixpoint after_path (ts : list tok) : option tok :=
  match ts with
  | TId _ :: r => after_path r
  | t :: r => if is_tok "." t then after_path r else Some t
  | [] => None
  end.
Fixpoint lent (ts : list tok) : list tok :=
  match ts with
  | [] => []
  | a :: r =>
      match r with
      | m :: ((TId _ :: _) as q) =>
          if (is_tok "&" a && is_tok "mut" m)%bool then match after_path q with Some t => t :: lent r | None => lent r end else lent r
      | _ => lent r
      end
  end.
