(** * RustFiles: which files make up the crate, and the callers in its tests and its documentation. *)

From Coq Require Import String Strings.Byte.
From Verif Require Import Base Rust RustLex RustParse RustElab RustSource.
Open Scope list_scope.
Open Scope string_scope.

Definition crate_files : list source :=
  [src_range_rs; src_lib_rs; src_mii_rs; src_ram_rs; src_gear_rs; src_pigz_rs; src_gzip_rs; src_fastcdc_rs; src_bup_rs; src_buzhash_rs;
   src_buzhash_table_rs; src_gear_table_gear32_rs; src_gear_table_gear64_rs; src_zpaq_rs; src_zstd_rs].

(** ** Callers: some functions of the test files, and the structures declared there *)

Fixpoint pick (k n : nat) (names : list string) (ts : list tok) : option (list item) :=
  match k, ts with
  | _, [] => Some []
  | O, _ => None
  | S k', t :: r =>
      match r with
      | TId x :: r' =>
          if is_tok "struct" t then
            match (do _, ts <- expect "{" r'; p_struct_fields n ts) with
            | Got fs _ => option_map (cons (IStruct x [] fs false)) (pick k' n names r)
            | Fail _ _ => None
            end
          else if (is_tok "fn" t && mem names x)%bool then
            match p_fn n None [] [] r with
            | Got (Some f) _ => option_map (cons (IFn f)) (pick k' n names r)
            | _ => None
            end
          else pick k' n names r
      | _ => pick k' n names r
      end
  end.
Definition picked (p : source * list string) : option (list item) :=
  match tokens (fst p) with Some ts => pick (S (length ts)) depth (snd p) ts | None => None end.

Definition callers : list (source * list string) :=
  [(tests_cuts_rs, ["cut_test_incr"; "cut_test_sz"; "cut_test"]);
   (tests_cuts_qc_rs, ["splits_fce"]);
   (tests_fastcdc_rs, ["oracle_1"; "oracle_1_test"; "feed_until_5_chunks"; "fast_cdc_8kb"])].

(** ** The example in the documentation of [Chunk::find_chunk_edge] *)

Fixpoint lines (l : list byte) : list (list byte) :=
  match l with
  | [] => [[]]
  | c :: r =>
      match lines r with
      | h :: t => if Byte.eqb c x0a then [] :: h :: t else (c :: h) :: t
      | [] => []
      end
  end.
Definition trim (l : list byte) : list byte := snd (span is_space l).
Definition is_line (s : string) (l : list byte) : bool :=
  match strip_prefix s (trim l) with Some r => match trim r with [] => true | _ => false end | None => false end.
Fixpoint from_line (s : string) (ls : list (list byte)) : list (list byte) :=
  match ls with [] => [] | l :: r => if is_line s l then ls else from_line s r end.
Fixpoint until_line (s : string) (ls : list (list byte)) : list (list byte) :=
  match ls with [] => [] | l :: r => if is_line s l then [] else l :: until_line s r end.
(** The text of a [///] comment. *)
Definition doc_text (l : list byte) : list byte := skipn 3 (trim l).
Definition doc_lines (s : source) : list (list byte) := until_line "/// ```" (from_line "/// use hash_roll::Chunk;" (lines (bytes s))).
Definition doc_source (s : source) : source := Source (List.concat (List.map (fun l => doc_text l ++ [x0a])%list (doc_lines s))).

Fixpoint from_let (ts : list tok) : list tok :=
  match ts with [] => [] | t :: r => if is_tok "let" t then ts else from_let r end.

(** The example fixes a chunker and some data; here both are parameters, and what it prints is collected in [stdout]. *)
Definition doc_example (s : source) : option sfn :=
  match tokens (doc_source s) with
  | Some ts =>
      match p_block depth (TOp "{" :: from_let ts ++ [TOp "}"]) with
      | Got (SBlock es) [] => Some {|
          sfn_name := "doc_example"; sfn_impl := None; sfn_assoc := []; sfn_gs := ["C"];
          sfn_params := [(PVar "chunk", TyRef (TyStruct "C"), false); (PVar "orig_data", TyRef bytes_ty, false); (PVar "stdout", TyList (TyStruct "C"), true)];
          sfn_ret := TyUnit;
          sfn_body := SBlock (List.filter (fun e => match e with SLet (PVar x) _ _ => negb (mem ["chunk"; "orig_data"] x) | _ => true end) es) |}
      | _ => None
      end
  | None => None
  end.

(** ** All together *)

Definition crate_functions : option (list (string * inferred fn)) := option_map elaborate (parse_all crate_files).
Definition crate_tables : option (list (string * (ity * list Z))) := option_map tables_of (parse_all crate_files).

Fixpoint all_some {A} (l : list (option A)) : option (list A) :=
  match l with
  | [] => Some []
  | Some a :: r => option_map (cons a) (all_some r)
  | None :: _ => None
  end.

Definition elaborate_callers (l tests : list item) (d : sfn) : list (string * inferred fn) :=
  let ci := items_of (l ++ tests)%list in
  (List.map (elaborate_in ci true) (fns_of tests) ++ [elaborate_in ci false d])%list.
Definition compile_callers (l : option (list item)) (tests : option (list (list item))) (d : option sfn) : option (list (string * inferred fn)) :=
  match l, tests, d with
  | Some l, Some tests, Some d => Some (elaborate_callers l (List.concat tests) d)
  | _, _, _ => None
  end.
Definition caller_functions : option (list (string * inferred fn)) :=
  compile_callers (parse_all crate_files) (all_some (List.map picked callers)) (doc_example src_lib_rs).
