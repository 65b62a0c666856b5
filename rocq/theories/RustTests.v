(** * RustTests: the property tests of tests/cuts_qc.rs and the unit tests of src/, from the bytes of the files. *)

From Coq Require Import String.
From Verif Require Import Base Rust RustLex RustParse RustElab RustSource RustFiles.
Open Scope list_scope.
Open Scope string_scope.

(** ** Property tests: what the arguments are drawn from *)

(** [x: T], and [x in prop::collection::vec(lo..hi, shortest..longest)]; an inclusive range ends one earlier. *)
Inductive strategy : Type :=
| DrawInt (t : ity)
| DrawVec (t : ity) (lo hi shortest longest : Z).

Definition p_interval (ts : list tok) : parsed (Z * Z * option ity) :=
  match ts with
  | TInt a s :: t :: TInt b s' :: r =>
      let ty := match s with Some _ => s | None => s' end in
      if is_tok ".." t then Got (a, b, ty) r else if is_tok "..=" t then Got (a, b + 1, ty)%Z r else Fail "interval" ts
  | _ => Fail "interval" ts
  end.
Fixpoint expect_all (l : list string) (ts : list tok) : parsed unit :=
  match l with [] => Got tt ts | s :: l' => do _, ts <- expect s ts; expect_all l' ts end.

Definition p_strategy (n : nat) (ts : list tok) : parsed (ty * strategy) :=
  if at_ ":" ts then
    do t, ts' <- p_type n (opt ":" ts);
    match t with TyInt i => Got (t, DrawInt i) ts' | _ => Fail "strategy" ts end
  else
    do _, ts' <- expect_all ["in"; "prop"; "::"; "collection"; "::"; "vec"; "("] ts;
    do (lo, hi, t), ts' <- p_interval ts'; do _, ts' <- expect "," ts';
    do (shortest, longest, _), ts' <- p_interval ts'; do _, ts' <- expect ")" ts';
    match t with Some i => Got (TyList (TyInt i), DrawVec i lo hi shortest longest) ts' | None => Fail "strategy" ts end.

Fixpoint p_draws (n : nat) (ts : list tok) : parsed (list (string * ty * strategy)) :=
  match n with
  | O => Fail "fuel" ts
  | S n' =>
      if at_ ")" ts then Got [] (opt ")" ts)
      else do x, ts <- name ts; do (t, s), ts <- p_strategy n ts; do _, ts <- comma ")" ts; do l, ts <- p_draws n' ts; Got ((x, t, s) :: l) ts
  end.

(** The functions in [proptest! { .. }], with their arguments as parameters. *)
Fixpoint p_properties (n : nat) (ts : list tok) : parsed (list (sfn * list strategy)) :=
  match n with
  | O => Fail "fuel" ts
  | S n' =>
      if at_ "}" ts then Got [] (opt "}" ts)
      else if at_ "#" ts then do _, ts <- attributes n' ts; p_properties n' ts
      else
        do _, ts <- expect "fn" ts; do x, ts <- name ts; do _, ts <- expect "(" ts; do ps, ts <- p_draws n ts; do b, ts <- p_block n ts;
        do l, ts <- p_properties n' ts;
        Got (({| sfn_name := x; sfn_impl := None; sfn_assoc := []; sfn_gs := [];
                 sfn_params := List.map (fun p => (PVar (fst (fst p)), snd (fst p), false)) ps; sfn_ret := TyUnit; sfn_body := b |},
              List.map snd ps) :: l) ts
  end.

(** What follows [x! {] for the only macro of that name. *)
Fixpoint in_macro (x : string) (ts : list tok) : list tok :=
  match ts with
  | [] => []
  | t :: r => match r with m :: o :: r' => if (is_tok x t && is_tok "!" m && is_tok "{" o)%bool then r' else in_macro x r | _ => [] end
  end.

(** [hash_roll::m::X] is [X]: no two modules of the crate define the same name. *)
Fixpoint unqualified (ts : list tok) : list tok :=
  match ts with
  | [] => []
  | t :: r =>
      match r with
      | _ :: TId m :: _ :: r' => if is_tok "hash_roll" t then unqualified r' else t :: unqualified r
      | _ => t :: unqualified r
      end
  end.

Definition properties (s : source) : option (list (sfn * list strategy)) :=
  match tokens s with
  | Some ts => match p_properties depth (unqualified (in_macro "proptest" ts)) with Got l [] => Some l | _ => None end
  | None => None
  end.

(** ** Unit tests *)

Fixpoint pick_fn (n : nat) (x : string) (ts : list tok) : option sfn :=
  match ts with
  | [] => None
  | t :: r => if (is_tok "fn" t && at_ x r)%bool then match p_fn n None [] [] r with Got f _ => f | Fail _ _ => None end else pick_fn n x r
  end.
Definition unit_test (p : source * string) : option sfn :=
  match tokens (fst p) with Some ts => pick_fn depth (snd p) ts | None => None end.

(** Those that use nothing but the crate. *)
Definition unit_tests : list (source * string) :=
  [(src_gear_rs, "mm"); (src_zstd_rs, "test_zstd_init_matches_upstream"); (src_bup_rs, "rs")].

(** ** Their text *)

Definition compile_tests (l : option (list item)) (drivers : option (list (list item))) (ps : option (list (sfn * list strategy))) (us : option (list sfn)) :
  option (list (string * inferred fn * list strategy) * list (string * inferred fn)) :=
  match l, drivers, ps, us with
  | Some l, Some drivers, Some ps, Some us =>
      let ci := items_of (l ++ List.concat drivers)%list in
      Some (List.map (fun p => (elaborate_in ci true (fst p), snd p)) ps, List.map (elaborate_in ci true) us)
  | _, _, _, _ => None
  end.
Definition test_functions : option (list (string * inferred fn * list strategy) * list (string * inferred fn)) :=
  compile_tests (parse_all crate_files) (all_some (List.map picked callers)) (properties tests_cuts_qc_rs) (all_some (List.map unit_test unit_tests)).

(** ** tests/cuts.rs: the tests that list the cuts of pseudo-random data, and [test_data], which makes that data *)

Definition cut_tests : list string :=
  ["test_data"; "mii_cuts_1"; "bup_cuts_1"; "gzip_cuts_1"; "gzip_cuts_2"; "buzhash_cuts_1"; "zpaq_cuts_0"; "zpaq_cuts_3"; "pigz_cuts_0";
   "zstd_cuts_0_2mb"; "gear32_cuts_0"; "fastcdc_cuts_incr_0"; "fastcdc_cuts_0"; "ram_cuts_0"].
Definition compile_cut_tests (names : list string) (l : option (list item)) (drivers : option (list (list item))) (ts : option (list tok)) :
  option (list (string * inferred fn)) :=
  match l, drivers, ts with
  | Some l, Some drivers, Some ts =>
      let ci := items_of (l ++ List.concat drivers)%list in
      option_map (List.map (elaborate_in ci true)) (all_some (List.map (fun x => pick_fn depth x (unqualified ts)) names))
  | _, _, _ => None
  end.
Definition cut_test_functions : option (list (string * inferred fn)) :=
  compile_cut_tests cut_tests (parse_all crate_files) (all_some (List.map picked callers)) (tokens tests_cuts_rs).
(** Every function of the file is one of these or one of the [callers]. *)
Fixpoint fn_names (ts : list tok) : list string :=
  match ts with
  | TId x :: r => match r with TId y :: _ => if String.eqb x "fn" then y :: fn_names r else fn_names r | _ => fn_names r end
  | _ :: r => fn_names r
  | [] => []
  end.

(** ** tests/qc_bup.rs and the tests of src/bup.rs that compare with another crate *)

(** What they use of [rollsum]; the bodies are of no account here (Bupsplit.v). *)
Definition rollsum_signatures : source := "
pub const CHUNK_BITS: u32 = 13;
pub struct Bup { s1: usize, s2: usize, window: [u8; 64], wofs: usize }
impl Default for Bup { fn default() -> Self { Bup { } } }
impl Bup {
    pub fn roll_byte(&mut self, newch: u8) { }
    pub fn roll(&mut self, buf: &[u8]) { }
    pub fn digest(&self) -> u32 { 0 }
    pub fn find_chunk_edge(&mut self, buf: &[u8]) -> Option<(usize, u32)> { None }
}
"%source.
Definition qc_tests : list string := ["simple_eq"; "iter_eq"; "chk_a"; "chk_b"; "simple_eq_1"; "simple_eq_1b"; "simple_eq_2"; "simple_eq_3"].
Definition qc_helpers : option (list (list item)) := all_some [parse_all [rollsum_signatures]; picked (tests_qc_bup_rs, ["chk_a"; "chk_b"])].
Definition qc_test_functions : option (list (string * inferred fn)) :=
  compile_cut_tests qc_tests (parse_all crate_files) qc_helpers (tokens tests_qc_bup_rs).
Definition bup_tests : list string := ["compare_rollsum"; "compare_bup"].
Definition bup_helpers : option (list (list item)) := all_some [parse_all [rollsum_signatures]].
Definition bup_test_functions : option (list (string * inferred fn)) :=
  compile_cut_tests bup_tests (parse_all crate_files) bup_helpers (tokens src_bup_rs).
