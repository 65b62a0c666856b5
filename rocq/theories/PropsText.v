(** * PropsText: C76, from the bytes of the source files to the text that is evaluated. *)

From Coq Require Import String QArith Qabs.
From Verif Require Import Base Api Spec Tables Float Builtin.
From Verif Require Import Rust RustLex RustParse RustElab RustSource RustFiles RustText DriverText RustSim RustConfig RustZpaq DriverSim PropsSource.
Open Scope list_scope.
Open Scope Z_scope.

(** ** The text is that of the files *)

(** All functions of the crate but one; that one computes with [f64]. *)
Theorem C76_functions :
  option_map (fun l => (accepted l, rejected l)) crate_functions = Some (text, [("Zpaq::fragment_ave_from_max", "f64")])%string.
Proof. vm_compute. reflexivity. Qed.
Print Assumptions C76_functions.

Theorem C76_tables : crate_tables = Some tables.
Proof. vm_compute. reflexivity. Qed.
Print Assumptions C76_tables.

(** The callers of C73. *)
Theorem C76_callers : option_map (fun l => (accepted l, rejected l)) caller_functions = Some (driver_text, []).
Proof. vm_compute. reflexivity. Qed.
Print Assumptions C76_callers.

(** ** So the theorems about the text are about the files *)

(** Read, parse, infer types: the program in the files; [user] adds what is called from outside. *)
Definition program_in (fns : option (list (string * inferred fn))) (tabs : option (list (string * (ity * list Z)))) (user : program) : program :=
  match fns, tabs with
  | Some l, Some t => program_of (accepted l) t user
  | _, _ => fun _ => None
  end.
Definition files_crate (user : program) : program := program_in crate_functions crate_tables user.

Lemma program_in_eq : forall A fns tabs l (r : A) rej t u, option_map (fun l => (accepted l, rej l)) fns = Some (l, r) -> tabs = Some t ->
  program_in fns tabs u = program_of l t u.
Proof. intros A fns tabs l r rej t u E ->. destruct fns as [k|]; [|discriminate]. cbn in *. congruence. Qed.

Theorem C76_crate : forall u, files_crate u = crate u.
Proof. intros u. exact (program_in_eq _ _ _ _ _ _ _ u C76_functions C76_tables). Qed.
Print Assumptions C76_crate.

(** [push] and [find_chunk_edge], as written in the files, cut by the rules of [Spec.v]. *)
Theorem C76_push_rule : forall u hv c n L CT, typed c -> fits (files_crate u) hv c -> incr_sound c ->
  (120 + L <= n)%nat -> Z.of_nat L < 2 ^ 63 -> text_incr (files_crate u) n hv c = Ok CT ->
  incr_conforms (incr_adj c) CT (incr_first c) (fun k => (k <= L)%nat).
Proof. intros u. rewrite C76_crate. apply C71_text_push_rule. Qed.
Print Assumptions C76_push_rule.

Theorem C76_find_rule : forall u hv c n L CT rule sh, typed c -> fits (files_crate u) hv c -> chunk_sound c -> chunk_rule c = Some rule ->
  (120 + L <= n)%nat -> Z.of_nat L < 2 ^ 63 -> text_chunk (files_crate u) n hv c = Ok CT ->
  chunk_conforms sh CT (ends_at (per_chunk rule)) (fun k => (k <= L)%nat) (look_back c).
Proof. intros u. rewrite C76_crate. apply C71_text_find_rule. Qed.
Print Assumptions C76_find_rule.

(** The slices of [iter_slices], as written in the files, are the data. *)
Theorem C76_lossless : forall u hv c n data fuel it l it', typed c -> fits (files_crate u) hv c ->
  (140 + length data <= n)%nat -> Z.of_nat (length data) < 2 ^ 63 ->
  text_iter (files_crate u) n hv c "ChunkIncr::iter_slices" data = Ok it ->
  collect (text_next (files_crate u) n) fuel it = Ok (l, it') ->
  exists out, l = map vbytes out /\ concat out = data.
Proof. intros u. rewrite C76_crate. apply C71_text_lossless. Qed.
Print Assumptions C76_lossless.

(** ** The function that is left out

    What an [f64] expression may evaluate to, in terms of Float.v; [x] is the name of a [u64] parameter with the value [m]. *)
Inductive float_value (x : string) (m : Z) : sx -> f64 -> Prop :=
| float_literal : forall z v, nearest (inject_Z z) v -> float_value x m (SFloat z) (Finite v)
| float_param : forall v, nearest (inject_Z m) v -> float_value x m (SCast (SPath [x]) TyF64) (Finite v)
| float_mul : forall a b v w p, float_value x m a (Finite v) -> float_value x m b (Finite w) -> nearest (v * w) p -> float_value x m (SBin "*" a b) (Finite p)
| float_div : forall a b v w q, float_value x m a (Finite v) -> float_value x m b (Finite w) -> ~ (w == 0)%Q -> nearest (v / w) q ->
    float_value x m (SBin "/" a b) (Finite q)
| float_log2 : forall a v y, float_value x m a (Finite v) -> log2_gives v y -> float_value x m (SMethod a "log2" []) y.

(** A function [fn f(x: u64) -> u8 { e as u8 }]. *)
Inductive float_function (m r : Z) : sfn -> Prop :=
| float_function_intro : forall f x e y, sfn_params f = [(PVar x, TyInt U64, false)] -> sfn_ret f = TyInt U8 ->
    sfn_body f = SBlock [SCast e (TyInt U8)] -> float_value x m e y -> r = f64_as_u8 y -> float_function m r f.

Definition left_out (l : option (list item)) : option sfn :=
  match l with
  | Some l => List.find (fun f => String.eqb (sfn_name f) "fragment_ave_from_max") (fns_of l)
  | None => None
  end.

Lemma nearest_compat e e' v v' : (e == e')%Q -> (v == v')%Q -> nearest e v -> nearest e' v'.
Proof.
  intros E F [H1 H2]. split; [exact (is_f64_compat _ _ F H1)|]. intros d Hd. rewrite <- E, <- F. exact (H2 d Hd).
Qed.

Lemma ave_float_value m r :
  (exists y, float_value "max" m (SMethod (SBin "/" (SCast (SPath ["max"%string]) TyF64) (SBin "*" (SFloat 64) (SFloat 64))) "log2" []) y /\ r = f64_as_u8 y) <->
  ave_computed m r.
Proof.
  split.
  - intros (y & H & ->). inversion_clear H as [| | | |a v y' H1 H2]. inversion_clear H1 as [| | |a b v1 w q Ha Hb Hw Hq|].
    inversion_clear Ha as [|v' Hv| | |]. inversion_clear Hb as [| |a b w1 w2 p H1 H3 Hp| |].
    inversion_clear H1 as [z v' Hz| | | |]. inversion_clear H3 as [z v' Hz'| | | |].
    apply nearest_exact in Hz; [|now apply is_f64_int]. apply nearest_exact in Hz'; [|now apply is_f64_int].
    assert (E : (w == 64 * 64)%Q).
    { transitivity (w1 * w2)%Q; [|rewrite Hz, Hz'; reflexivity]. apply nearest_exact; [|exact Hp].
      apply is_f64_compat with (x := inject_Z 4096); [rewrite Hz, Hz'; reflexivity|now apply is_f64_int]. }
    exists v1, v, y. split; [exact Hv|]. split; [|now split]. revert Hq. apply nearest_compat; [now rewrite E|reflexivity].
  - intros (x & v & y & Hx & Hv & Hy & ->). exists y. split; [|reflexivity].
    assert (L : nearest (inject_Z 64) (inject_Z 64)).
    { split; [now apply is_f64_int|]. intros d _. setoid_replace (inject_Z 64 - inject_Z 64)%Q with 0%Q by ring. apply Qabs_nonneg. }
    eapply float_log2; [|exact Hy]. eapply float_div with (w := inject_Z 4096).
    + apply float_param. exact Hx.
    + eapply float_mul; [apply float_literal; exact L|apply float_literal; exact L|].
      split; [now apply is_f64_int|]. intros d _. setoid_replace (inject_Z 64 * inject_Z 64 - inject_Z 4096)%Q with 0%Q by reflexivity. apply Qabs_nonneg.
    + intros E. discriminate E.
    + exact Hv.
Qed.

(** Its text computes what C74 assumes of it, and nothing else. *)
Theorem C76_float : exists f, left_out (parse_all crate_files) = Some f /\ forall m r, float_function m r f <-> ave_computed m r.
Proof.
  eexists. split; [vm_compute; reflexivity|]. intros m r. rewrite <- ave_float_value. split.
  - intros H. inversion_clear H as [f x e y H1 H2 H3 H4 H5]. cbn in H1, H3. injection H1 as <-. injection H3 as <-. now exists y.
  - intros (y & H & E). eapply float_function_intro; try reflexivity; [exact H|exact E].
Qed.
Print Assumptions C76_float.

(** ** Cases *)

(** A file with a comment, a macro and two literals whose type follows from their use. *)
Definition small : source :=
"/* f /* nested */ */
pub fn f(x: u64) -> Option<u8> { // none for small ones
    if x >> 3 == 0 { return None; }
    Some((x & 0xf_f) as u8)
}
"%source.
Example C76_case : option_map elaborate (parse_all [small]) = Some [("f"%string, Fine {|
  fn_params := [("x"%string, false)];
  fn_body := Block [If (Bin Eq (Bin Shr (Var "x") (Lit U32 3)) (Lit U64 0)) (Block [Return (Con "None" [])]) (Con "()" []);
                    Con "Some" [Cast U8 (Bin BitAnd (Var "x") (Lit U64 255))]] |})].
Proof. vm_compute. reflexivity. Qed.

(** One byte of src/ram.rs changed ([>=] for [>]) gives another text. *)
Fixpoint replace (old new l : list byte) : list byte :=
  match l with
  | [] => []
  | c :: r => if (length old <=? length l)%nat && forallb (fun p => Byte.eqb (fst p) (snd p)) (combine old l) then new ++ skipn (length old) l else c :: replace old new r
  end.
Definition changed_ram : source := RustLex.Source (replace (list_byte_of_string ">=") (list_byte_of_string "> ") (bytes src_ram_rs)).
Definition ram_push (s : source) : out value :=
  match parse_all [s] with
  | Some l =>
      obind (call (program_of (accepted (elaborate l)) [] (fun _ => None)) 60 "RamState::push"
             [VStruct "RamState" [("i", VInt U64 10); ("max_val", VInt U8 5)]; VStruct "Ram" [("w", VInt U64 4)]; VList [VInt U8 5]]%string)
        (fun r => Done (snd r))
  | None => Stuck
  end.
Example C76_case_changed : ram_push src_ram_rs = Done (vopt (Some 0%nat)) /\ ram_push changed_ram = Done (vopt None).
Proof. split; vm_compute; reflexivity. Qed.

(** A line that begins like the one looked for is not that line; spaces around it do not matter. *)
Example C76_case_line : map (fun l => is_line "/// ```" (list_byte_of_string l)) ["/// ```"; "  /// ``` "; "/// ```rust"; "/// ``"; "x /// ```"]%string =
  [true; true; false; false; false].
Proof. reflexivity. Qed.
