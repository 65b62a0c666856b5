(** * PropsGrammar: C80, the lexer and the parser follow a grammar. *)

From Coq Require Import String Strings.Byte.
From Verif Require Import Base Rust RustLex RustParse RustElab RustSource RustFiles RustText RustTests Grammar GrammarSound Lexical LexSound PropsText.
Open Scope string_scope.
Open Scope list_scope.
Open Scope Z_scope.

(** ** Tokens *)

(** The lexer finds a sequence of tokens if and only if the lexical grammar reads the file as that sequence; there is at most one. *)
Theorem C80_tokens : forall s ts, tokens s = Some ts <-> lexes (bytes s) ts.
Proof. exact tokens_iff. Qed.
Print Assumptions C80_tokens.

Theorem C80_tokens_unique : forall l ts ts', lexes l ts -> lexes l ts' -> ts = ts'.
Proof. exact lexes_unique. Qed.
Print Assumptions C80_tokens_unique.

(** ** Files *)

(** What the parser returns for a file is derived from the tokens of the file. *)
Theorem C80_file : forall s l, parse s = Got l [] -> exists ts, lexes (bytes s) ts /\ is_file ts l.
Proof.
  intros s l H. destruct (tokens s) as [ts|] eqn:E.
  - exists ts. split; [now apply tokens_iff|now apply parse_file_sound with s].
  - unfold parse in H. rewrite E in H. discriminate.
Qed.
Print Assumptions C80_file.

Lemma files_sound : forall fs l, parse_all fs = Some l -> exists ls, l = concat ls /\ Forall2 (fun s l => exists ts, lexes (bytes s) ts /\ is_file ts l) fs ls.
Proof.
  induction fs as [|s fs IH]; intros l; [intros [= <-]; exists []; split; constructor|]. cbn [parse_all].
  destruct (parse s) as [a [|t r]|w r] eqn:E; try discriminate. destruct (parse_all fs) as [l'|]; [|discriminate]. intros [= <-].
  destruct (IH l' eq_refl) as (ls & -> & F). exists (a :: ls). split; [reflexivity|]. constructor; [now apply C80_file|exact F].
Qed.
Definition functions_def : crate_functions = option_map elaborate (parse_all crate_files) := eq_refl (option_map elaborate (parse_all crate_files)).
Definition tables_def : crate_tables = option_map tables_of (parse_all crate_files) := eq_refl (option_map tables_of (parse_all crate_files)).
Lemma from_files : forall fs f t txt rej tabs, option_map (fun l => (accepted l, rejected l)) f = Some (txt, rej) -> t = Some tabs ->
  f = option_map elaborate (parse_all fs) -> t = option_map tables_of (parse_all fs) ->
  exists ls, Forall2 (fun s l => exists ts, lexes (bytes s) ts /\ is_file ts l) fs ls /\ accepted (elaborate (concat ls)) = txt /\ tables_of (concat ls) = tabs.
Proof.
  intros fs f t txt rej tabs A B -> ->. destruct (parse_all fs) as [l|] eqn:E; [|discriminate]. destruct (files_sound fs l E) as (ls & -> & F). exists ls. split; [exact F|].
  cbn [option_map] in A, B. injection A as A _. injection B as B. now split.
Qed.

(** The text that C71 to C76 are about is elaborated from syntax that the grammar derives from the files of the crate. *)
Theorem C80_crate : exists ls, Forall2 (fun s l => exists ts, lexes (bytes s) ts /\ is_file ts l) crate_files ls /\
  accepted (elaborate (concat ls)) = text /\ tables_of (concat ls) = tables.
Proof. exact (from_files crate_files crate_functions crate_tables _ _ _ C76_functions C76_tables functions_def tables_def). Qed.
Print Assumptions C80_crate.

(** ** Functions taken from the test files *)

(** Somewhere in the tokens the grammar derives this function. *)
Definition function_in (ts : list tok) (f : sfn) : Prop :=
  exists pre tail a rest, ts = pre ++ tail /\ unglued tail (a ++ rest) /\ g_fn None [] [] a (Some f).
Definition struct_in (ts : list tok) (x : string) (fs : list (string * ty)) : Prop :=
  exists pre tail a rest, ts = pre ++ tail /\ unglued tail (T "struct" :: TId x :: T "{" :: a ++ T "}" :: rest) /\ listed g_struct_field a fs.
Definition item_in (ts : list tok) (i : item) : Prop :=
  (exists f, i = IFn f /\ function_in ts f) \/ (exists x fs, i = IStruct x [] fs false /\ struct_in ts x fs).

Lemma function_here n t r f rest : is_tok "fn" t = true -> p_fn n None [] [] r = Got (Some f) rest -> function_in (t :: r) f.
Proof.
  intros E H. apply is_tok_T in E as ->. destruct (fn_sound n None [] [] r (Some f) rest H) as (a & U & G).
  exists [], (T "fn" :: r), (T "fn" :: a), rest. split; [reflexivity|]. split; [cbn; now constructor|exact G].
Qed.
Lemma function_later t ts f : function_in ts f -> function_in (t :: ts) f.
Proof. intros (pre & tail & a & rest & -> & U & G). now exists (t :: pre), tail, a, rest. Qed.
Lemma item_later t ts i : item_in ts i -> item_in (t :: ts) i.
Proof.
  intros [(f & -> & H)|(x & fs & -> & pre & tail & a & rest & -> & U & G)]; [left; exists f; split; [reflexivity|now apply function_later]|].
  right. exists x, fs. split; [reflexivity|]. now exists (t :: pre), tail, a, rest.
Qed.

Lemma pick_sound n names : forall k ts l, pick k n names ts = Some l -> Forall (item_in ts) l.
Proof.
  induction k as [|k IH]; intros ts l; (destruct ts as [|t r]; [intros [= <-]; constructor|]); [discriminate|]. cbn [pick].
  assert (L : forall l', pick k n names r = Some l' -> Forall (item_in (t :: r)) l').
  { intros l' H. apply IH in H. revert H. apply Forall_impl. intros i. apply item_later. }
  destruct r as [|[z s|z| |s|x|o] r']; try exact (L l). destruct (is_tok "struct" t) eqn:E.
  - destruct (expect "{" r') as [u ts|w w'] eqn:X; [|discriminate]. destruct (p_struct_fields n ts) as [fs rest|] eqn:F; [|discriminate].
    destruct (pick k n names (TId x :: r')) as [l'|] eqn:P; [|discriminate]. intros [= <-]. constructor; [|now apply L].
    right. exists x, fs. split; [reflexivity|]. apply is_tok_T in E as ->. destruct (reads_expect "{" r' u ts X) as (a & U & ->).
    destruct (struct_fields_sound n ts fs rest F) as (b & V & G). apply up_to_listed in G as (c & -> & G).
    exists [], (T "struct" :: TId x :: r'), c, rest. split; [reflexivity|]. split; [|exact G]. constructor. constructor.
    eapply unglued_trans; [exact U|]. cbn [app]. constructor. rewrite <- app_assoc in V. exact V.
  - destruct (is_tok "fn" t && mem names x)%bool eqn:E'; [|exact (L l)]. apply andb_prop in E' as [E' _].
    destruct (p_fn n None [] [] (TId x :: r')) as [[f|] rest|] eqn:F; try discriminate. destruct (pick k n names (TId x :: r')) as [l'|] eqn:P; [|discriminate].
    intros [= <-]. constructor; [|now apply L]. left. exists f. split; [reflexivity|]. now apply function_here with n rest.
Qed.
Lemma pick_fn_sound n x : forall ts f, pick_fn n x ts = Some f -> function_in ts f.
Proof.
  induction ts as [|t r IH]; intros f; [discriminate|]. cbn [pick_fn]. destruct (is_tok "fn" t && at_ x r)%bool eqn:E.
  - apply andb_prop in E as [E _]. destruct (p_fn n None [] [] r) as [o rest|] eqn:F; [|discriminate]. intros ->. now apply function_here with n rest.
  - intros H. now apply function_later, IH.
Qed.

(** The callers of C73, *)
Theorem C80_callers : forall p l, picked p = Some l -> exists ts, lexes (bytes (fst p)) ts /\ Forall (item_in ts) l.
Proof.
  intros [s names] l. unfold picked. cbn [fst snd]. destruct (tokens s) as [ts|] eqn:E; [|discriminate]. generalize depth. intros d H.
  exists ts. split; [now apply tokens_iff|]. now apply pick_sound in H.
Qed.
Print Assumptions C80_callers.

(** the unit tests of C77, *)
Theorem C80_unit_tests : forall p f, unit_test p = Some f -> exists ts, lexes (bytes (fst p)) ts /\ function_in ts f.
Proof.
  intros [s x] f. unfold unit_test. cbn [fst snd]. destruct (tokens s) as [ts|] eqn:E; [|discriminate]. generalize depth. intros d H.
  exists ts. split; [now apply tokens_iff|]. now apply pick_fn_sound in H.
Qed.
Print Assumptions C80_unit_tests.

(** and the tests of C79, up to paths that start at the crate. *)
Theorem C80_cut_tests : forall s ts n x f, tokens s = Some ts -> pick_fn n x (unqualified ts) = Some f -> lexes (bytes s) ts /\ function_in (unqualified ts) f.
Proof. intros s ts n x f E H. split; [now apply tokens_iff|]. now apply pick_fn_sound in H. Qed.
Print Assumptions C80_cut_tests.

(** The example in the documentation: statements between braces; C73 makes parameters of two of the variables. *)
Theorem C80_doc : forall s f, doc_example s = Some f -> exists ts a es, lexes (bytes (doc_source s)) ts /\
  unglued (T "{" :: from_let ts ++ [T "}"]) a /\ g_block a (SBlock es) /\
  sfn_body f = SBlock (List.filter (fun e => match e with SLet (PVar x) _ _ => negb (mem ["chunk"; "orig_data"] x) | _ => true end) es).
Proof.
  intros s f. unfold doc_example. destruct (tokens (doc_source s)) as [ts|] eqn:E; [|discriminate]. generalize depth. intros d.
  destruct (p_block d (TOp "{" :: from_let ts ++ [TOp "}"])) as [e [|t r]|] eqn:B; [|destruct e; discriminate|discriminate].
  destruct e; try discriminate. intros [= <-].
  destruct (s_block d (parser_sound d) _ _ _ B) as (a & U & G). rewrite app_nil_r in U. eexists ts, a, _. split; [now apply tokens_iff|]. split; [exact U|]. split; [exact G|reflexivity].
Qed.
Print Assumptions C80_doc.

(** ** Property tests *)

Inductive g_interval : list tok -> Z * Z * option ity -> Prop :=
| interval_half : forall a s b s', g_interval [TInt a s; T ".."; TInt b s'] (a, b, match s with Some _ => s | None => s' end)
| interval_closed : forall a s b s', g_interval [TInt a s; T "..="; TInt b s'] (a, b + 1, match s with Some _ => s | None => s' end).
(** A parameter of a property test and what it is drawn from. *)
Inductive g_draw : list tok -> string * ty * strategy -> Prop :=
| draw_any : forall x a i, is_name x -> g_type a (TyInt i) -> g_draw (TId x :: T ":" :: a) (x, TyInt i, DrawInt i)
| draw_vec : forall x a lo hi i b shortest longest t, is_name x -> g_interval a (lo, hi, Some i) -> g_interval b (shortest, longest, t) ->
    g_draw (TId x :: map T ["in"; "prop"; "::"; "collection"; "::"; "vec"; "("] ++ a ++ T "," :: b ++ [T ")"]) (x, TyList (TyInt i), DrawVec i lo hi shortest longest).
Definition property_fn (x : string) (ps : list (string * ty * strategy)) (body : sx) : sfn :=
  {| sfn_name := x; sfn_impl := None; sfn_assoc := []; sfn_gs := [];
     sfn_params := List.map (fun p => (PVar (fst (fst p)), snd (fst p), false)) ps; sfn_ret := TyUnit; sfn_body := body |}.
(** What stands in [proptest! { .. }], with the brace that ends it. *)
Inductive g_properties : list tok -> list (sfn * list strategy) -> Prop :=
| properties_end : g_properties [T "}"] []
| properties_attributes : forall a la b l, g_attributes a la -> g_properties b l -> g_properties (a ++ b) l
| properties_fn : forall x a ps b body c l, is_name x -> listed g_draw a ps -> g_block b body -> g_properties c l ->
    g_properties (T "fn" :: TId x :: T "(" :: a ++ T ")" :: b ++ c) ((property_fn x ps body, List.map snd ps) :: l).

Lemma interval_sound ts : reads g_interval ts (p_interval ts).
Proof.
  unfold p_interval. destruct ts as [|[a s|z| |s|x|o] [|t [|[b s'|z'| |s'|x'|o'] r]]]; try apply reads_fail.
  destruct (is_tok ".." t) eqn:E; [|destruct (is_tok "..=" t) eqn:E'; [|apply reads_fail]].
  - apply is_tok_T in E as ->. do 3 apply reads_cons. apply reads_got. constructor.
  - apply is_tok_T in E' as ->. do 3 apply reads_cons. apply reads_got. constructor.
Qed.
Lemma expect_all_sound l : forall ts, reads (fun a _ => a = map T l) ts (expect_all l ts).
Proof.
  induction l as [|s l IH]; intros ts; cbn [expect_all]; [now apply reads_got|]. bind reads_expect. subst a.
  eapply reads_more; [apply IH|]. now intros b _ ->.
Qed.
Lemma strategy_sound n x ts : is_name x -> reads (fun a p => g_draw (TId x :: a) (x, fst p, snd p)) ts (p_strategy n ts).
Proof.
  intros N. unfold p_strategy. at_cases.
  - bind (s_type n (parser_sound n)). destruct x0; try apply reads_fail. fin. now constructor.
  - bind expect_all_sound. subst a. bind interval_sound. destruct x1 as [[lo hi] t]. bind reads_expect. subst a0. bind interval_sound. destruct x2 as [[sh lg] t'].
    bind reads_expect. subst a1. destruct t as [i|]; [|apply reads_fail]. fin. rewrite ?app_nil_r, <- ?app_assoc. apply (draw_vec x a lo hi i a0 sh lg t'); assumption.
Qed.
Lemma draws_sound : forall n ts, reads (up_to g_draw ")" (at_ ")" ts)) ts (p_draws n ts).
Proof.
  induction n as [|n IH]; intros ts; [apply reads_fail|]. cbn [p_draws]. destruct (at_ ")" ts) eqn:E; [apply (reads_eat _ _ _ _ E); fin; apply up_to_nil|].
  bind reads_name. destruct H as [-> N]. bind (strategy_sound (S n) x ts' N). destruct x0 as [t s]. cbn [fst snd] in H.
  apply (reads_more (fun c l => up_to g_draw ")" false ((TId x :: a) ++ c) l)); [|now intros c l].
  now apply (up_to_more g_draw ")" (p_draws n)).
Qed.
Lemma properties_sound : forall n ts, reads g_properties ts (p_properties n ts).
Proof.
  induction n as [|n IH]; intros ts; [apply reads_fail|]. cbn [p_properties]. at_cases; [fin; constructor|].
  destruct (at_ "#" ts) eqn:E'.
  - bind attributes_sound. eapply reads_more; [apply IH|]. intros b l G. econstructor; eassumption.
  - bind reads_expect. subst a. bind reads_name. destruct H as [-> N]. bind reads_expect. subst a. bind draws_sound. apply up_to_listed in H as (b & -> & L).
    bind (s_block (S n) (parser_sound (S n))). bind IH. fin. norm. now apply (properties_fn x0 b x2 a x3 a0 x4).
Qed.

(** The property tests of C77, up to paths that start at the crate. *)
Theorem C80_properties : forall s l, properties s = Some l -> exists ts a, lexes (bytes s) ts /\ unglued (unqualified (in_macro "proptest" ts)) a /\ g_properties a l.
Proof.
  intros s l. unfold properties. destruct (tokens s) as [ts|] eqn:E; [|discriminate]. generalize depth. intros d.
  destruct (p_properties d (unqualified (in_macro "proptest" ts))) as [l' [|t r]|] eqn:P; try discriminate. intros [= <-].
  destruct (properties_sound d _ _ _ P) as (a & U & G). rewrite app_nil_r in U. exists ts, a. split; [now apply tokens_iff|now split].
Qed.
Print Assumptions C80_properties.

(** ** Cases *)

Definition expression (l : source) : option sx :=
  match tokens l with Some ts => match p_expr 60 false ts with Got e [] => Some e | _ => None end | None => None end.
Lemma expression_sound s e : expression s = Some e -> exists ts a, lexes (bytes s) ts /\ unglued ts a /\ g_expr false a e.
Proof.
  unfold expression. destruct (tokens s) as [ts|] eqn:E; [|discriminate]. destruct (p_expr 60 false ts) as [e' [|t r]|] eqn:P; try discriminate. intros [= <-].
  destruct (s_expr 60 (parser_sound 60) false ts e' [] P) as (a & U & G). rewrite app_nil_r in U. exists ts, a. split; [now apply tokens_iff|now split].
Qed.
Definition derived (s : source) (e : sx) : Prop := exists ts a, lexes (bytes s) ts /\ unglued ts a /\ g_expr false a e.
Definition var (x : string) : sx := SPath [x].

(** Operators group as in the reference: tighter ones first, those of a level to the left. *)
Example C80_case_grouping :
  derived "a + b * c - d"%source (SBin "-" (SBin "+" (var "a") (SBin "*" (var "b") (var "c"))) (var "d")) /\
  derived "a << 1 & !b | c ^ d"%source (SBin "|" (SBin "&" (SBin "<<" (var "a") (SLit 1 None)) (SNot (var "b"))) (SBin "^" (var "c") (var "d"))) /\
  derived "*a as u64 >= b && c || d"%source (SBin "||" (SBin "&&" (SBin ">=" (SCast (SDeref (var "a")) (TyInt U64)) (var "b")) (var "c")) (var "d")) /\
  derived "x.0[i] %= f(y)"%source (SOpAssign "%" (SIndex (SField (var "x") "0") (var "i")) (SCall ["f"] None [var "y"])).
Proof. repeat apply conj; (apply expression_sound; vm_compute; reflexivity). Qed.

(** Longest signs, nested comments, separators in numbers; a literal does not run into a fraction, and a comment must end. *)
Example C80_case_tokens :
  lexes (bytes "a>>=b..=0xF_Fu8 /* /* */ > */ 'a // >"%source) [TId "a"; TOp ">>="; TId "b"; TOp "..="; TInt 255 (Some U8); TLife] /\
  (forall ts, ~ lexes (bytes "1.5"%source) ts) /\ (forall ts, ~ lexes (bytes "/* /* */"%source) ts).
Proof.
  assert (N : forall s, tokens s = None -> forall ts, ~ lexes (bytes s) ts) by (intros s E ts H; apply tokens_iff in H; congruence).
  split; [apply tokens_iff; vm_compute; reflexivity|]. split; apply N; vm_compute; reflexivity.
Qed.

(** The function of C76_case. *)
Example C80_case : exists ts l, lexes (bytes small) ts /\ is_file ts l /\ length ts = 36%nat /\ length l = 1%nat.
Proof.
  destruct (C80_file small (match parse small with Got l [] => l | _ => [] end)) as (ts & L & F); [vm_compute; reflexivity|].
  exists ts, (match parse small with Got l [] => l | _ => [] end). split; [exact L|]. split; [exact F|]. split; [|vm_compute; reflexivity].
  apply tokens_iff in L. assert (E : option_map (@length tok) (tokens small) = Some 36%nat) by (vm_compute; reflexivity). rewrite L in E. now injection E.
Qed.
