(** * PropsDefault: C82, where the tests rely on the default type of an integer. *)

From Coq Require Import String.
From Verif Require Import Base Rust RustLex RustParse RustElab RustSource RustFiles RustTests SeedTests.
Open Scope list_scope.
Open Scope string_scope.

(** In Rust an integer whose type nothing settles is an [i32]; in [Rust.v], which has no signed integers, it is a [U32], and only in the tests.
    Without that, the functions [fs] of the tests, among the items [items], are understood too, and as the same terms. *)
Definition understood (r : string * inferred fn) : bool := match snd r with Fine _ => true | Unknown _ => false end.
Definition default_unused (items : option (list item)) (fs : option (list sfn)) : Prop :=
  match items, fs with
  | Some l, Some fs => fs <> [] /\ forallb understood (map (elaborate_in (items_of l) false) fs) = true /\
      map (elaborate_in (items_of l) false) fs = map (elaborate_in (items_of l) true) fs
  | _, _ => False
  end.
Definition joined (l : option (list item)) (ds : option (list (list item))) : option (list item) :=
  match l, ds with Some l, Some ds => Some (l ++ concat ds)%list | _, _ => None end.
Definition functions_of (names : list string) (ts : option (list tok)) : option (list sfn) :=
  match ts with Some ts => all_some (map (fun x => pick_fn depth x (unqualified ts)) names) | None => None end.
Definition is_feed (f : sfn) : bool := String.eqb (sfn_name f) "feed_until_5_chunks".
Definition caller_fns (ds : option (list (list item))) : option (list sfn) := option_map (fun ds => fns_of (concat ds)) ds.

(** The callers of C73, the tests of C77, C79, C83 and C85; [l] is what the crate consists of and [ds] what the callers do. *)
Definition defaults_unused (l : option (list item)) (ds : option (list (list item))) : Prop :=
  default_unused (joined l ds) (option_map (filter (fun f => negb (is_feed f))) (caller_fns ds)) /\
  default_unused (joined l ds) (option_map (map fst) (properties tests_cuts_qc_rs)) /\
  default_unused (joined l ds) (all_some (map unit_test unit_tests)) /\
  default_unused (joined l ds) (functions_of cut_tests (tokens tests_cuts_rs)) /\
  default_unused (joined l qc_helpers) (functions_of qc_tests (tokens tests_qc_bup_rs)) /\
  default_unused (joined l bup_helpers) (functions_of bup_tests (tokens src_bup_rs)) /\
  default_unused (joined l seed_helpers) (functions_of seed_tests (option_map plain (tokens tests_fastcdc_rs))).
(** One function uses it, [feed_until_5_chunks], for the variable that counts to six (C62). *)
Definition default_used (items : option (list item)) (fs : option (list sfn)) : Prop :=
  match items, fs with
  | Some l, Some [f] => elaborate_in (items_of l) false f = ("feed_until_5_chunks", Unknown "integer type") /\ exists g, elaborate_in (items_of l) true f = ("feed_until_5_chunks", Fine g)
  | _, _ => False
  end.
Definition defaults (l : option (list item)) (ds : option (list (list item))) : Prop :=
  defaults_unused l ds /\ default_used (joined l ds) (option_map (filter is_feed) (caller_fns ds)).
Theorem C82_default : defaults (parse_all crate_files) (all_some (map picked callers)).
Proof.
  vm_compute. refine (conj (conj _ (conj _ (conj _ (conj _ (conj _ (conj _ _)))))) (conj _ _)); try (refine (conj _ (conj _ _)); [discriminate|reflexivity|reflexivity]).
  - reflexivity.
  - eexists. reflexivity.
Qed.
Print Assumptions C82_default.

(** [1 < 2] uses it. *)
Example C82_case_default : ~ default_unused (Some []) (functions_of ["f"] (tokens "fn f() -> bool { 1 < 2 }"%source)) /\
  default_unused (Some []) (functions_of ["f"] (tokens "fn f(x: u64) -> bool { 1 < x }"%source)).
Proof.
  vm_compute. refine (conj _ (conj _ (conj _ _))); [intros [_ [H _]]; discriminate H|discriminate|reflexivity|reflexivity].
Qed.
Example C82_case_default_terms : match functions_of ["f"] (tokens "fn f() -> bool { 1 < 2 }"%source) with
  | Some [f] => map (fun b => elaborate_in (items_of []) b f) [false; true] =
      [("f", Unknown "integer type"); ("f", Fine {| fn_params := []; fn_body := Block [Bin Lt (Lit U32 1) (Lit U32 2)] |})]
  | _ => False
  end.
Proof. vm_compute. reflexivity. Qed.
