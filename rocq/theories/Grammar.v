(** * Grammar: Rust's grammar, as far as the crate uses it, production by production.

    A production says which tokens, in which order, make up a construct, and which syntax tree stands for them.  It does not say how
    the tokens are found: there is no order of attempts, no looking ahead and no bound on depth. *)

From Coq Require Import String.
From Verif Require Import Base Rust RustLex RustParse.
Open Scope list_scope.
Open Scope string_scope.

(** A keyword or a sign. *)
Definition T (s : string) : tok := if is_word s then TId s else TOp s.

Inductive optional (t : tok) : list tok -> Prop :=
| left_away : optional t []
| given : optional t [t].

(** Elements with commas between them; there may be one at the end. *)
Inductive listed {A} (g : list tok -> A -> Prop) : list tok -> list A -> Prop :=
| listed_nil : listed g [] []
| listed_last : forall a x, g a x -> listed g a [x]
| listed_more : forall a x b l, g a x -> listed g b l -> listed g (a ++ T "," :: b) (x :: l).

Definition is_name (x : string) : Prop := ~ In x keywords.

(** ** Patterns *)

Inductive g_pat_path : list tok -> string -> Prop :=
| pat_name : forall x, is_name x -> g_pat_path [TId x] x
| pat_in : forall a y x, g_pat_path a y -> is_name x -> g_pat_path (a ++ [T "::"; TId x]) x.

Inductive g_pat : list tok -> spat -> Prop :=
| pat_ref : forall a p, g_pat a p -> g_pat (T "&" :: a) p
| pat_ref_ref : forall a p, g_pat (T "&" :: a) p -> g_pat (T "&&" :: a) p
| pat_by_ref : forall a p, g_pat a p -> g_pat (T "ref" :: a) p
| pat_mut : forall a p, g_pat a p -> g_pat (T "mut" :: a) p
| pat_tuple : forall a l, listed g_pat a l -> g_pat (T "(" :: a ++ [T ")"]) (PTuple l)
| pat_app : forall a x b l, g_pat_path a x -> listed g_pat b l -> g_pat (a ++ T "(" :: b ++ [T ")"]) (PApp x l)
| pat_con : forall a x, g_pat_path a x -> is_upper_name x = true -> g_pat a (PApp x [])
| pat_var : forall x, is_name x -> is_upper_name x = false -> g_pat [TId x] (PVar x).

(** ** Attributes, [use], and what is passed over *)

(** Brackets of any kind balance; [d] are open at the start. *)
Inductive balanced : nat -> list tok -> Prop :=
| balanced_nil : balanced 0 []
| balanced_open : forall d k a, In k ["("; "["; "{"] -> balanced (S d) a -> balanced d (T k :: a)
| balanced_close : forall d k a, In k [")"; "]"; "}"] -> balanced d a -> balanced (S d) (T k :: a)
| balanced_other : forall d t a, (forall k, In k ["("; "["; "{"; ")"; "]"; "}"] -> t <> T k) -> balanced d a -> balanced d (t :: a).

Inductive g_attributes : list tok -> list (list tok) -> Prop :=
| attributes_nil : g_attributes [] []
| attributes_more : forall b a k c l, optional (T "!") b -> balanced 0 a -> In k [")"; "]"; "}"] -> g_attributes c l ->
    g_attributes (T "#" :: b ++ T "[" :: a ++ T k :: c) (a :: l).

(** ** Binary operators, the tightest first *)

Definition precedence : list (list string) :=
  [["*"; "/"; "%"];
   ["+"; "-"];
   ["<<"; ">>"];
   ["&"];
   ["^"];
   ["|"];
   ["=="; "!="; "<"; ">"; "<="; ">="];
   ["&&"];
   ["||"]].
Definition at_level (k : nat) (o : string) : Prop := exists row, nth_error precedence k = Some row /\ In o row.

(** [a o= b] *)
Definition compound : list string := ["+"; "-"; "*"; "%"; "^"; "|"; "&"; "<<"; ">>"].

(** Statements that start like this end at their closing brace. *)
Definition starts_alone (a : list tok) : Prop := exists k r, In k ["if"; "match"; "for"; "loop"; "{"] /\ a = T k :: r.

Fixpoint somes {A} (l : list (option A)) : list A :=
  match l with [] => [] | Some x :: r => x :: somes r | None :: r => somes r end.

(** ** Types and expressions; [ns]: where a structure literal may not stand, as in the head of an [if] *)

Inductive g_type : list tok -> ty -> Prop :=
| type_ref : forall l m a t, optional TLife l -> optional (T "mut") m -> g_type a t -> g_type (T "&" :: l ++ m ++ a) (TyRef t)
| type_ref_ref : forall a t, g_type (T "&" :: a) t -> g_type (T "&&" :: a) (TyRef t)
| type_unit : g_type [T "("; T ")"] TyUnit
| type_tuple : forall a t u l, listed g_type a (t :: u :: l) -> g_type (T "(" :: a ++ [T ")"]) (TyCon "," (t :: u :: l))
| type_slice : forall a t, g_type a t -> g_type (T "[" :: a ++ [T "]"]) (TyList t)
| type_array : forall a t b n, g_type a t -> g_expr false b n -> g_type (T "[" :: a ++ T ";" :: b ++ [T "]"]) (TyList t)
| type_impl : forall a t b, g_type a t -> g_bounds b -> g_type (T "impl" :: a ++ b) t
| type_path : forall d c a p l, optional (T "dyn") d -> optional (T "::") c -> g_type_path a p l -> g_type (d ++ c ++ a) (path_type p l)
with g_bounds : list tok -> Prop :=
| bounds_nil : g_bounds []
| bounds_more : forall a t b, g_type a t -> g_bounds b -> g_bounds (T "+" :: a ++ b)
(** a path and the arguments of its last segment that has some *)
with g_type_path : list tok -> list string -> list ty -> Prop :=
| type_path_name : forall x, is_name x -> g_type_path [TId x] [x] []
| type_path_more : forall a p l x, g_type_path a p l -> is_name x -> g_type_path (a ++ [T "::"; TId x]) (p ++ [x]) l
| type_path_args : forall a p l b us, g_type_path a p l -> listed g_type_arg b us -> g_type_path (a ++ T "<" :: b ++ [T ">"]) p (somes us)
with g_type_arg : list tok -> option ty -> Prop :=
| type_arg_life : g_type_arg [TLife] None
| type_arg_binding : forall x a t, is_name x -> g_type a t -> g_type_arg (TId x :: T "=" :: a) None
| type_arg_type : forall a t, g_type a t -> g_type_arg a (Some t)

with g_expr : bool -> list tok -> sx -> Prop :=
| expr_return : forall ns a e, g_expr ns a e -> g_expr ns (T "return" :: a) (SReturn e)
| expr_return_unit : forall ns, g_expr ns [T "return"] (SReturn SUnit)
| expr_break : forall ns, g_expr ns [T "break"] SBreak
| expr_closure : forall ns a p b e, g_pat a p -> g_expr ns b e -> g_expr ns (T "|" :: a ++ T "|" :: b) (SClosure p e)
| expr_assign : forall ns a l b e, g_range ns a l -> g_expr ns b e -> g_expr ns (a ++ T "=" :: b) (SAssign l e)
| expr_op_assign : forall ns a l o b e, In o compound -> g_range ns a l -> g_expr ns b e -> g_expr ns (a ++ T (o ++ "=") :: b) (SOpAssign o l e)
| expr_range : forall ns a e, g_range ns a e -> g_expr ns a e
with g_range : bool -> list tok -> sx -> Prop :=
| range_full : forall ns, g_range ns [T ".."] (SRange None None)
| range_to : forall ns a e, g_binary ns (length precedence) a e -> g_range ns (T ".." :: a) (SRange None (Some e))
| range_from : forall ns a e, g_binary ns (length precedence) a e -> g_range ns (a ++ [T ".."]) (SRange (Some e) None)
| range_both : forall ns a e b f, g_binary ns (length precedence) a e -> g_binary ns (length precedence) b f ->
    g_range ns (a ++ T ".." :: b) (SRange (Some e) (Some f))
| range_none : forall ns a e, g_binary ns (length precedence) a e -> g_range ns a e
(** operators of the first [k] levels; those of a level group to the left, comparisons do not group *)
with g_binary : bool -> nat -> list tok -> sx -> Prop :=
| binary_none : forall ns k a e, g_binary ns k a e -> g_binary ns (S k) a e
| binary_left : forall ns k o a e b f, at_level k o -> k <> 6%nat -> g_binary ns (S k) a e -> g_binary ns k b f ->
    g_binary ns (S k) (a ++ T o :: b) (SBin o e f)
| binary_compare : forall ns o a e b f, at_level 6 o -> g_binary ns 6 a e -> g_binary ns 6 b f -> g_binary ns 7 (a ++ T o :: b) (SBin o e f)
| binary_cast : forall ns a e, g_cast ns a e -> g_binary ns 0 a e
with g_cast : bool -> list tok -> sx -> Prop :=
| cast_as : forall ns a e b t, g_cast ns a e -> g_type b t -> g_cast ns (a ++ T "as" :: b) (SCast e t)
| cast_none : forall ns a e, g_unary ns a e -> g_cast ns a e
with g_unary : bool -> list tok -> sx -> Prop :=
| unary_ref : forall ns m a e, optional (T "mut") m -> g_unary ns a e -> g_unary ns (T "&" :: m ++ a) (SRef e)
| unary_ref_ref : forall ns a e, g_unary ns (T "&" :: a) e -> g_unary ns (T "&&" :: a) (SRef e)
| unary_deref : forall ns a e, g_unary ns a e -> g_unary ns (T "*" :: a) (SDeref e)
| unary_not : forall ns a e, g_unary ns a e -> g_unary ns (T "!" :: a) (SNot e)
| unary_none : forall ns a e, g_postfix ns a e -> g_unary ns a e
with g_postfix : bool -> list tok -> sx -> Prop :=
| postfix_first : forall ns a e, g_postfix ns a e -> g_postfix ns (a ++ [T "."; TInt 0 None]) (SField e "0")
| postfix_field : forall ns a e x, g_postfix ns a e -> is_name x -> g_postfix ns (a ++ [T "."; TId x]) (SField e x)
| postfix_method : forall ns a e x b l, g_postfix ns a e -> is_name x -> listed (g_expr false) b l ->
    g_postfix ns (a ++ T "." :: TId x :: T "(" :: b ++ [T ")"]) (SMethod e x l)
| postfix_index : forall ns a e b i, g_postfix ns a e -> g_expr false b i -> g_postfix ns (a ++ T "[" :: b ++ [T "]"]) (SIndex e i)
| postfix_none : forall ns a e, g_primary ns a e -> g_postfix ns a e
with g_primary : bool -> list tok -> sx -> Prop :=
| primary_int : forall ns z s, g_primary ns [TInt z s] (SLit z s)
| primary_float : forall ns z, g_primary ns [TFloat z] (SFloat z)
| primary_string : forall ns s, g_primary ns [TStr s] (SStr s)
| primary_bytes : forall ns s, g_primary ns [T "b"; TStr s] (SStr s)
| primary_true : forall ns, g_primary ns [T "true"] (SBool true)
| primary_false : forall ns, g_primary ns [T "false"] (SBool false)
| primary_unit : forall ns, g_primary ns [T "("; T ")"] SUnit
| primary_paren : forall ns a e, g_expr false a e -> g_primary ns (T "(" :: a ++ [T ")"]) e
| primary_tuple : forall ns a e b l, g_expr false a e -> listed (g_expr false) b l -> g_primary ns (T "(" :: a ++ T "," :: b ++ [T ")"]) (STuple (e :: l))
| primary_array : forall ns a l, listed (g_expr false) a l -> g_primary ns (T "[" :: a ++ [T "]"]) (SArray l)
| primary_repeat : forall ns a e b c, g_expr false a e -> g_expr false b c -> g_primary ns (T "[" :: a ++ T ";" :: b ++ [T "]"]) (SRepeat e c)
| primary_block : forall ns a e, g_block a e -> g_primary ns a e
| primary_if : forall ns a e, g_if a e -> g_primary ns a e
| primary_match : forall ns a e b l, g_expr true a e -> g_arms b l -> g_primary ns (T "match" :: a ++ T "{" :: b ++ [T "}"]) (SMatch e l)
| primary_for : forall ns a p b e c d, g_pat a p -> g_expr true b e -> g_block c d -> g_primary ns (T "for" :: a ++ T "in" :: b ++ c) (SFor p e d)
| primary_loop : forall ns a e, g_block a e -> g_primary ns (T "loop" :: a) (SLoop e)
| primary_path : forall ns a p, g_path a p None -> g_primary ns a (SPath p)
| primary_call : forall ns a p us b l, g_path a p us -> listed (g_expr false) b l -> g_primary ns (a ++ T "(" :: b ++ [T ")"]) (SCall p us l)
| primary_struct : forall a p b l, g_path a p None -> is_upper_name (List.hd "" p) = true -> listed g_field b l ->
    g_primary false (a ++ T "{" :: b ++ [T "}"]) (SStruct p l)
| primary_macro : forall ns m c b l, is_name m -> optional (T "::") c -> listed (g_expr false) b l ->
    g_primary ns (c ++ TId m :: T "!" :: T "(" :: b ++ [T ")"]) (SMacro m l)
| primary_vec : forall ns a e b c d, g_expr false a e -> g_expr false b c -> optional (T "::") d ->
    g_primary ns (d ++ T "vec" :: T "!" :: T "[" :: a ++ T ";" :: b ++ [T "]"]) (SRepeat e c)
(** a path and the type arguments in it *)
with g_path : list tok -> list string -> option (list ty) -> Prop :=
| path_name : forall c x, optional (T "::") c -> is_name x -> g_path (c ++ [TId x]) [x] None
| path_more : forall a p us x, g_path a p us -> is_name x -> g_path (a ++ [T "::"; TId x]) (p ++ [x]) us
| path_args : forall a p us b vs, g_path a p us -> listed g_type_arg b vs -> g_path (a ++ T "::" :: T "<" :: b ++ [T ">"]) p (Some (somes vs))
with g_field : list tok -> string * sx -> Prop :=
| field_short : forall x, is_name x -> g_field [TId x] (x, SPath [x])
| field_full : forall x a e, is_name x -> g_expr false a e -> g_field (TId x :: T ":" :: a) (x, e)
with g_if : list tok -> sx -> Prop :=
| if_only : forall a c b t, g_expr true a c -> g_block b t -> g_if (T "if" :: a ++ b) (SIf c t None)
| if_else : forall a c b t d e, g_expr true a c -> g_block b t -> g_block d e -> g_if (T "if" :: a ++ b ++ T "else" :: d) (SIf c t (Some e))
| if_else_if : forall a c b t d e, g_expr true a c -> g_block b t -> g_if d e -> g_if (T "if" :: a ++ b ++ T "else" :: d) (SIf c t (Some e))
with g_arms : list tok -> list (spat * sx) -> Prop :=
| arms_nil : g_arms [] []
| arms_block : forall a p b e c d l, g_pat a p -> g_block b e -> optional (T ",") c -> g_arms d l -> g_arms (a ++ T "=>" :: b ++ c ++ d) ((p, e) :: l)
| arms_last : forall a p b e, g_pat a p -> g_expr false b e -> (forall r, b <> T "{" :: r) -> g_arms (a ++ T "=>" :: b) [(p, e)]
| arms_more : forall a p b e d l, g_pat a p -> g_expr false b e -> (forall r, b <> T "{" :: r) -> g_arms d l ->
    g_arms (a ++ T "=>" :: b ++ T "," :: d) ((p, e) :: l)
with g_block : list tok -> sx -> Prop :=
| block : forall a l, g_stmts false a l -> g_block (T "{" :: a ++ [T "}"]) (SBlock l)
(** statements; the first argument: whether a unit ends the list if nothing follows *)
with g_stmts : bool -> list tok -> list sx -> Prop :=
| stmts_end : g_stmts false [] []
| stmts_end_unit : g_stmts true [] [SUnit]
| stmts_empty : forall o a l, g_stmts o a l -> g_stmts o (T ";" :: a) l
| stmts_attributes : forall o a la b l, g_attributes a la -> g_stmts o b l -> g_stmts o (a ++ b) l
| stmts_use : forall o a b l, ~ In (T ";") a -> g_stmts o b l -> g_stmts o (T "use" :: a ++ T ";" :: b) l
| stmts_let : forall o a p c t b e d l, g_pat a p -> g_annotation c t -> g_expr false b e -> g_stmts true d l ->
    g_stmts o (T "let" :: a ++ c ++ T "=" :: b ++ T ";" :: d) (SLet p t e :: l)
| stmts_const : forall o x c t b e d l, is_name x -> g_type c t -> g_expr false b e -> g_stmts true d l ->
    g_stmts o (T "const" :: TId x :: T ":" :: c ++ T "=" :: b ++ T ";" :: d) (SLet (PVar x) (Some t) e :: l)
| stmts_value : forall o a e, g_statement a e -> g_stmts o a [e]
| stmts_semi : forall o a e b l, g_statement a e -> g_stmts (negb (leaves e)) b l -> g_stmts o (a ++ T ";" :: b) (e :: l)
| stmts_alone : forall o a e t b l, starts_alone a -> g_primary false a e -> t <> T ";" -> g_stmts true (t :: b) l -> g_stmts o (a ++ t :: b) (e :: l)
with g_statement : list tok -> sx -> Prop :=
| statement_alone : forall a e, starts_alone a -> g_primary false a e -> g_statement a e
| statement_expr : forall a e, ~ starts_alone a -> g_expr false a e -> g_statement a e
with g_annotation : list tok -> option ty -> Prop :=
| annotation_none : g_annotation [] None
| annotation_some : forall a t, g_type a t -> g_annotation (T ":" :: a) (Some t).

(** ** Items *)

(** Angle brackets balance and there is no comma outside them; [d] are open at the start. *)
Inductive angles : nat -> list tok -> Prop :=
| angles_nil : angles 0 []
| angles_open : forall d a, angles (S d) a -> angles d (T "<" :: a)
| angles_close : forall d a, angles d a -> angles (S d) (T ">" :: a)
| angles_other : forall d t a, t <> T "<" -> t <> T ">" -> (d = O -> t <> T ",") -> angles d a -> angles d (t :: a).

(** A parameter of a type or function with its bounds; a lifetime has no name. *)
Inductive g_generic : list tok -> list string -> Prop :=
| generic_life : g_generic [TLife] []
| generic_name : forall x, is_name x -> g_generic [TId x] [x]
| generic_life_bound : forall a, angles 0 a -> g_generic (TLife :: T ":" :: a) []
| generic_name_bound : forall x a, is_name x -> angles 0 a -> g_generic (TId x :: T ":" :: a) [x].
Inductive g_generics : list tok -> list string -> Prop :=
| generics_none : g_generics [] []
| generics_some : forall a l, listed g_generic a l -> g_generics (T "<" :: a ++ [T ">"]) (concat l).

Inductive g_pub : list tok -> Prop :=
| pub_not : g_pub []
| pub : g_pub [T "pub"]
| pub_in : forall a k, balanced 0 a -> In k [")"; "]"; "}"] -> g_pub (T "pub" :: T "(" :: a ++ [T k]).

Inductive g_where : list tok -> Prop :=
| where_not : g_where []
| where_ : forall a, ~ In (T "{") a -> ~ In (T ";") a -> g_where (T "where" :: a).

(** A parameter: pattern, type, "is a [&mut] reference". *)
Inductive g_param (self : ty) : list tok -> spat * ty * bool -> Prop :=
| param_self : g_param self [T "self"] (PVar "self", self, false)
| param_self_ref : g_param self [T "&"; T "self"] (PVar "self", TyRef self, false)
| param_self_mut : g_param self [T "&"; T "mut"; T "self"] (PVar "self", TyRef self, true)
| param_mut : forall a p l b t, g_pat a p -> optional TLife l -> g_type b t -> g_param self (a ++ T ":" :: T "&" :: l ++ T "mut" :: b) (p, TyRef t, true)
| param_ref : forall a p l b t, g_pat a p -> optional TLife l -> g_type b t -> g_param self (a ++ T ":" :: T "&" :: l ++ b) (p, TyRef t, false)
| param_value : forall a p b t, g_pat a p -> g_type b t -> (forall r, b <> T "&" :: r) -> g_param self (a ++ T ":" :: b) (p, t, false).

Inductive g_result : list tok -> ty -> Prop :=
| result_unit : g_result [] TyUnit
| result : forall a t, g_type a t -> g_result (T "->" :: a) t.

Definition self_type (impl : option (option ty * ty * bool)) : ty := match impl with Some (_, t, _) => t | None => TyUnit end.

(** A function in an [impl] (or none) with associated types and type parameters; a declaration without a body gives nothing. *)
Inductive g_fn (impl : option (option ty * ty * bool)) (assoc : list (string * ty)) (gs : list string) : list tok -> option sfn -> Prop :=
| fn_declared : forall x a l b ps c t d, is_name x -> g_generics a l -> listed (g_param (self_type impl)) b ps -> g_result c t -> g_where d ->
    g_fn impl assoc gs (T "fn" :: TId x :: a ++ T "(" :: b ++ T ")" :: c ++ d ++ [T ";"]) None
| fn_defined : forall x a l b ps c t d e body, is_name x -> g_generics a l -> listed (g_param (self_type impl)) b ps -> g_result c t -> g_where d ->
    g_block e body ->
    g_fn impl assoc gs (T "fn" :: TId x :: a ++ T "(" :: b ++ T ")" :: c ++ d ++ e) (Some
      {| sfn_name := x; sfn_impl := impl; sfn_assoc := assoc; sfn_gs := (gs ++ l)%list; sfn_params := ps; sfn_ret := t; sfn_body := body |}).

Inductive g_struct_field : list tok -> string * ty -> Prop :=
| struct_field : forall a la b x c t, g_attributes a la -> g_pub b -> is_name x -> g_type c t -> g_struct_field (a ++ b ++ TId x :: T ":" :: c) (x, t).

Definition fn_items (f : option sfn) : list item := match f with Some f => [IFn f] | None => [] end.
Definition is_debug (impl : option ty * ty * bool) : bool := match impl with (Some (TyStruct "Debug"), _, _) => true | _ => false end.

Inductive g_type_bound : list tok -> Prop :=
| type_bound_none : g_type_bound []
| type_bound : forall a t, g_type a t -> g_type_bound (T ":" :: a).

(** The members of an [impl] or [trait]; an associated type is in scope in those after it. *)
Inductive g_members (impl : option ty * ty * bool) (gs : list string) : list (string * ty) -> list tok -> list item -> Prop :=
| members_nil : forall assoc, g_members impl gs assoc [] []
| members_attributes : forall assoc a la b l, g_attributes a la -> g_members impl gs assoc b l -> g_members impl gs assoc (a ++ b) l
| members_type : forall assoc v x a b t c l, g_pub v -> is_name x -> g_type_bound a -> g_type b t -> g_members impl gs ((x, t) :: assoc) c l ->
    g_members impl gs assoc (v ++ T "type" :: TId x :: a ++ T "=" :: b ++ T ";" :: c) l
| members_type_declared : forall assoc v x a c l, g_pub v -> is_name x -> g_type_bound a -> g_members impl gs assoc c l ->
    g_members impl gs assoc (v ++ T "type" :: TId x :: a ++ T ";" :: c) l
| members_fn : forall assoc v a f b l, is_debug impl = false -> g_pub v -> g_fn (Some impl) assoc gs a f -> g_members impl gs assoc b l ->
    g_members impl gs assoc (v ++ a ++ b) (fn_items f ++ l)
| members_debug : forall assoc v a b k c l, is_debug impl = true -> g_pub v -> ~ In (T "{") a -> ~ In (T ";") a -> balanced 0 b -> In k [")"; "]"; "}"] ->
    g_members impl gs assoc c l -> g_members impl gs assoc (v ++ T "fn" :: a ++ T "{" :: b ++ T k :: c) l.

(** [impl<R> .. for R] *)
Definition parameters_in (gs : list string) (t : ty) : list item :=
  match t with TyStruct x => if existsb (String.eqb x) gs then [IParam x] else [] | _ => [] end.

Definition has_word (s : string) (a : list tok) : bool := existsb (fun t => match t with TId x => String.eqb x s | _ => false end) a.
Definition derives_default (attrs : list (list tok)) : bool := existsb (fun a => (has_word "derive" a && has_word "Default" a)%bool) attrs.

Inductive g_item (attrs : list (list tok)) : list tok -> list item -> Prop :=
| item_use : forall v a, g_pub v -> ~ In (T ";") a -> g_item attrs (v ++ T "use" :: a ++ [T ";"]) []
| item_const : forall v k x a t b e, g_pub v -> k = "const" \/ k = "static" -> is_name x -> g_type a t -> g_expr false b e ->
    g_item attrs (v ++ T k :: TId x :: T ":" :: a ++ T "=" :: b ++ [T ";"]) [IConst x t e]
| item_struct : forall v x a gs b fs, g_pub v -> is_name x -> g_generics a gs -> listed g_struct_field b fs ->
    g_item attrs (v ++ T "struct" :: TId x :: a ++ T "{" :: b ++ [T "}"]) [IStruct x gs fs (derives_default attrs)]
| item_mod : forall v x, g_pub v -> is_name x -> g_item attrs (v ++ [T "mod"; TId x; T ";"]) []
| item_mod_body : forall v x a k, g_pub v -> is_name x -> balanced 0 a -> In k [")"; "]"; "}"] ->
    g_item attrs (v ++ T "mod" :: TId x :: T "{" :: a ++ [T k]) []
| item_impl : forall v a gs b t w c l, g_pub v -> g_generics a gs -> g_type b t -> g_where w -> g_members (None, t, false) gs [] c l ->
    g_item attrs (v ++ T "impl" :: a ++ b ++ w ++ T "{" :: c ++ [T "}"]) (parameters_in gs t ++ l)
| item_impl_trait : forall v a gs b tr d t w c l, g_pub v -> g_generics a gs -> g_type b tr -> g_type d t -> g_where w ->
    g_members (Some tr, t, false) gs [] c l ->
    g_item attrs (v ++ T "impl" :: a ++ b ++ T "for" :: d ++ w ++ T "{" :: c ++ [T "}"]) (parameters_in gs t ++ l)
| item_trait : forall v x a gs b w c l, g_pub v -> is_name x -> g_generics a gs -> g_type_bound b -> g_where w ->
    g_members (None, TyStruct x, true) (gs ++ ["Self"]) [] c l ->
    g_item attrs (v ++ T "trait" :: TId x :: a ++ b ++ w ++ T "{" :: c ++ [T "}"]) l
| item_fn : forall v a f, g_pub v -> g_fn None [] [] a f -> g_item attrs (v ++ a) (fn_items f)
| item_empty : forall v, g_pub v -> g_item attrs (v ++ [T ";"]) [].

(** A file. *)
Inductive g_items : list tok -> list item -> Prop :=
| items_end : forall a la, g_attributes a la -> g_items a []
| items_more : forall a la b l c l', g_attributes a la -> g_item la b l -> g_items c l' -> g_items (a ++ b ++ c) (l ++ l').

(** The lexer takes the longest sign; [>>] that closes two angle brackets is two tokens. *)
Inductive unglued : list tok -> list tok -> Prop :=
| unglued_nil : unglued [] []
| unglued_same : forall t a b, unglued a b -> unglued (t :: a) (t :: b)
| unglued_close : forall a b, unglued a b -> unglued (T ">>" :: a) (T ">" :: T ">" :: b).

Definition is_file (ts : list tok) (l : list item) : Prop := exists a, unglued ts a /\ g_items a l.
