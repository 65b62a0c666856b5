(** * Typing: which term of [Rust.v] an expression stands for, and of which type.

    The rules behind [RustElab.v], without any inference: [reads G e t x] says that in the environment [G] the expression [e] of the source may be
    given the type [t] and then stands for the term [x].  Types decide what the term leaves open otherwise: the type of a literal, the
    target of [.into()], [.try_into()] and [Default::default()].

    Coarser than Rust: references are not told apart from what they refer to, [!] and the type parameters of the function agree with every type, and a
    method is found by its name alone ([Rust.v] finds it by the value it is called on). *)

From Coq Require Import String.
From Verif Require Import Base Rust RustLex RustParse RustElab.
Open Scope string_scope.
Open Scope list_scope.

(** ** Types *)

(** [T] is [t] with something put in for what is left open (nothing is, in a type that was written down). *)
Inductive fits : ty -> ty -> Prop :=
| fits_open : forall v T, fits (TyVar v) T
| fits_int : forall i, fits (TyInt i) (TyInt i)
| fits_bool : fits TyBool TyBool
| fits_f64 : fits TyF64 TyF64
| fits_never : fits TyNever TyNever
| fits_struct : forall x, fits (TyStruct x) (TyStruct x)
| fits_assoc : forall x, fits (TyAssoc x) (TyAssoc x)
| fits_wrap : forall t T, fits t T -> fits (TyWrap t) (TyWrap T)
| fits_ref : forall t T, fits t T -> fits (TyRef t) (TyRef T)
| fits_list : forall t T, fits t T -> fits (TyList t) (TyList T)
| fits_from : forall t T, fits t T -> fits (TyFrom t) (TyFrom T)
| fits_con : forall c ts Ts, fits_all ts Ts -> fits (TyCon c ts) (TyCon c Ts)
with fits_all : list ty -> list ty -> Prop :=
| fits_nil : fits_all [] []
| fits_cons : forall t T ts Ts, fits t T -> fits_all ts Ts -> fits_all (t :: ts) (T :: Ts).

(** The type [t] in the signature of [g], seen by a caller: type parameters may be anything, [Self] and the associated types are those of [g]. *)
Inductive seen (g : sfn) : ty -> ty -> Prop :=
| seen_same : forall t T, fits t T -> seen g t T
| seen_param : forall x T, In x (sfn_gs g) -> seen g (TyStruct x) T
| seen_self : forall tr t d T, sfn_impl g = Some (tr, t, d) -> fits t T -> seen g (TyStruct "Self") T
| seen_assoc : forall x t T, In (x, t) (sfn_assoc g) -> seen g t T -> seen g (TyAssoc x) T
| seen_ref : forall t T, seen g t T -> seen g (TyRef t) (TyRef T)
| seen_list : forall t T, seen g t T -> seen g (TyList t) (TyList T)
| seen_wrap : forall t T, seen g t T -> seen g (TyWrap t) (TyWrap T)
| seen_con : forall c ts Ts, Forall2 (seen g) ts Ts -> seen g (TyCon c ts) (TyCon c Ts).

(** The type of a field: parameters of structures may be anything. *)
Inductive field_type (params : list string) : ty -> ty -> Prop :=
| field_same : forall t T, fits t T -> field_type params t T
| field_param : forall x T, In x params -> field_type params (TyStruct x) T
| field_ref : forall t T, field_type params t T -> field_type params (TyRef t) (TyRef T)
| field_list : forall t T, field_type params t T -> field_type params (TyList t) (TyList T)
| field_wrap : forall t T, field_type params t T -> field_type params (TyWrap t) (TyWrap T).

(** The parts of an expression in which a [break] ends the loop around it. *)
Inductive part : sx -> sx -> Prop :=
| part_ref : forall e, part e (SRef e) | part_deref : forall e, part e (SDeref e) | part_not : forall e, part e (SNot e)
| part_field : forall e f, part e (SField e f) | part_cast : forall e t, part e (SCast e t) | part_return : forall e, part e (SReturn e)
| part_let : forall p t e, part e (SLet p t e) | part_closure : forall p e, part e (SClosure p e) | part_for : forall p e b, part e (SFor p e b)
| part_index_l : forall a b, part a (SIndex a b) | part_index_r : forall a b, part b (SIndex a b)
| part_bin_l : forall o a b, part a (SBin o a b) | part_bin_r : forall o a b, part b (SBin o a b)
| part_repeat_l : forall a b, part a (SRepeat a b) | part_repeat_r : forall a b, part b (SRepeat a b)
| part_assign_l : forall a b, part a (SAssign a b) | part_assign_r : forall a b, part b (SAssign a b)
| part_op_assign_l : forall o a b, part a (SOpAssign o a b) | part_op_assign_r : forall o a b, part b (SOpAssign o a b)
| part_range_l : forall a b, part a (SRange (Some a) b) | part_range_r : forall a b, part b (SRange a (Some b))
| part_tuple : forall e es, In e es -> part e (STuple es) | part_array : forall e es, In e es -> part e (SArray es)
| part_call : forall e p ta es, In e es -> part e (SCall p ta es) | part_macro : forall e m es, In e es -> part e (SMacro m es)
| part_struct : forall e p f fs, In (f, e) fs -> part e (SStruct p fs)
| part_receiver : forall e m es, part e (SMethod e m es) | part_argument : forall r m e es, In e es -> part e (SMethod r m es)
| part_block : forall e es, In e es -> part e (SBlock es)
| part_condition : forall c a b, part c (SIf c a b) | part_then : forall c a b, part a (SIf c a b) | part_else : forall c a b, part b (SIf c a (Some b))
| part_match : forall e arms, part e (SMatch e arms) | part_arm : forall m p e arms, In (p, e) arms -> part e (SMatch m arms).
Inductive breaks : sx -> Prop :=
| breaks_here : breaks SBreak
| breaks_part : forall e e', part e e' -> breaks e -> breaks e'.

Inductive operator : string -> binop -> Prop :=
| op_add : operator "+" Add | op_sub : operator "-" Sub | op_mul : operator "*" Mul | op_div : operator "/" Div | op_rem : operator "%" Rem
| op_shl : operator "<<" Shl | op_shr : operator ">>" Shr | op_and : operator "&" BitAnd | op_or : operator "|" BitOr | op_xor : operator "^" BitXor
| op_lt : operator "<" Lt | op_le : operator "<=" Le | op_gt : operator ">" Gt | op_ge : operator ">=" Ge | op_eq : operator "==" Eq | op_ne : operator "!=" Ne.
Inductive comparison : binop -> Prop :=
| cmp_lt : comparison Lt | cmp_le : comparison Le | cmp_gt : comparison Gt | cmp_ge : comparison Ge | cmp_eq : comparison Eq | cmp_ne : comparison Ne.
Inductive shift : binop -> Prop := shift_l : shift Shl | shift_r : shift Shr.

(** An environment: the last binding of a name counts. *)
Inductive bound : list (string * ty) -> string -> ty -> Prop :=
| bound_here : forall x t G, bound ((x, t) :: G) x t
| bound_there : forall x t y u G, x <> y -> bound G x t -> bound ((y, u) :: G) x t.
Definition unbound (G : list (string * ty)) (p : list string) : Prop := forall x t, p = [x] -> ~ bound G x t.

(** What a [for] goes over, and whether it counts. *)
Inductive goes_over : sx -> bool -> sx -> Prop :=
| over_itself : forall e, goes_over e false e
| over_iter : forall e c o, goes_over e c o -> goes_over (SMethod e "iter" []) c o
| over_cloned : forall e c o, goes_over e c o -> goes_over (SMethod e "cloned" []) c o
| over_enumerate : forall e c o, goes_over e c o -> goes_over (SMethod e "enumerate" []) true o.

Definition free (f : string) (g : sfn) : Prop := sfn_name g = f /\ sfn_impl g = None.
(** A function of an [impl] for [x]. *)
Definition member (x f : string) (g : sfn) : Prop :=
  sfn_name g = f /\ exists tr t d, sfn_impl g = Some (tr, t, d) /\ (t = TyStruct x \/ exists ts, t = TyCon x ts).
Definition method (m : string) (g : sfn) : Prop :=
  sfn_name g = m /\ sfn_impl g <> None /\ exists t mut ps, sfn_params g = (PVar "self", t, mut) :: ps.

Definition param_types (g : sfn) : list ty := map (fun p => snd (fst p)) (sfn_params g).

Section Rules.
Variable cx : context.
Let ci : crate_items := cx_items cx.
Let fn := cx_fn cx.

(** [Self] and associated types stand for what the [impl] says. *)
Inductive unfolds : ty -> ty -> Prop :=
| unfolds_same : forall t, unfolds t t
| unfolds_assoc : forall x t t' T, In (x, t) (sfn_assoc fn) -> fits t t' -> unfolds t' T -> unfolds (TyAssoc x) T
| unfolds_self : forall tr t d t' T, sfn_impl fn = Some (tr, t, d) -> fits t t' -> unfolds t' T -> unfolds (TyStruct "Self") T.
(** References are looked through. *)
Inductive views : ty -> ty -> Prop :=
| views_same : forall t T, unfolds t T -> views t T
| views_ref : forall t u T, unfolds t (TyRef u) -> views u T -> views t T.
(** At most one reference is. *)
Inductive behind : ty -> ty -> Prop :=
| behind_ref : forall t u, unfolds t (TyRef u) -> behind t u
| behind_same : forall t T, unfolds t T -> behind t T.

(** An expression of one type may stand where the other is asked for. *)
Inductive agree : ty -> ty -> Prop :=
| agree_same : forall t, agree t t
| agree_left : forall a a' b, views a a' -> agree a' b -> agree a b
| agree_right : forall a b b', views b b' -> agree a b' -> agree a b
| agree_never_left : forall t, agree TyNever t
| agree_never_right : forall t, agree t TyNever
| agree_param_left : forall x t, In x (sfn_gs fn) -> agree (TyStruct x) t
| agree_param_right : forall x t, In x (sfn_gs fn) -> agree t (TyStruct x)
| agree_list : forall t u, agree t u -> agree (TyList t) (TyList u)
| agree_wrap : forall t u, agree t u -> agree (TyWrap t) (TyWrap u)
| agree_con : forall c ts us, Forall2 agree ts us -> agree (TyCon c ts) (TyCon c us)
| agree_range_left : forall ts c us, Forall (range_of (hd TyUnit ts)) us -> agree (TyCon "Ranges" ts) (TyCon c us)
| agree_range_right : forall us c ts, Forall (range_of (hd TyUnit us)) ts -> agree (TyCon c ts) (TyCon "Ranges" us)
(** [a..b] where a range or its bounds are asked for *)
with range_of : ty -> ty -> Prop :=
| range_itself : forall t u, agree t u -> range_of t u
| range_bound : forall t c u us, agree t u -> range_of t (TyCon c (u :: us)).

(** How a type is called in the name of a conversion. *)
Inductive called : ty -> string -> Prop :=
| called_ref : forall t u x, unfolds t (TyRef u) -> called u x -> called t ("&" ++ x)
| called_struct : forall t x, unfolds t (TyStruct x) -> called t x
| called_list : forall t u, unfolds t (TyList u) -> called t "[]"
| called_con : forall t c us, unfolds t (TyCon c us) -> called t "(..)".
(** [b::from(a)] *)
Inductive conversion : ty -> ty -> string -> Prop :=
| conversion_intro : forall a b x y, views b (TyStruct y) -> called a x -> conversion a b (y ++ "::from<" ++ x ++ ">").

(** A structure, by its path. *)
Inductive structure : list string -> string -> Prop :=
| structure_self : forall p tr x d, last p "" = "Self" -> sfn_impl fn = Some (tr, TyStruct x, d) -> structure p x
| structure_named : forall p, last p "" <> "Self" -> structure p (last p "").

(** Which function a path means, and what it is called there. *)
Inductive resolves : list string -> string -> sfn -> Prop :=
| resolves_free : forall f g, In g (ci_fns ci) -> free f g -> resolves [f] f g
| resolves_crate : forall m f g, In g (ci_fns ci) -> free f g -> resolves ["crate"; m; f] f g
| resolves_member : forall x o f g, structure [x] o -> In g (ci_fns ci) -> member o f g -> resolves [x; f] (o ++ "::" ++ f) g
| resolves_inner : forall m x o f g, structure [x] o -> In g (ci_fns ci) -> member o f g -> resolves [m; x; f] (o ++ "::" ++ f) g.

(** The parameters after [self] and the result of a method [m]: of a function of the crate, or of the two methods that type parameters have. *)
Inductive method_type (m : string) : list ty -> ty -> Prop :=
| method_crate : forall g ts t, In g (ci_fns ci) -> method m g -> Forall2 (seen g) (tl (param_types g)) ts -> seen g (sfn_ret g) t -> method_type m ts t
| method_hash : m = "hash" -> method_type m [TyInt U8] (TyInt U32)
| method_push : m = "push" -> method_type m [TyList (TyInt U8)] (TyCon "Option" [TyInt Usize]).

(** If a structure can be made by [from] in one way only, the argument is of that type. *)
Definition only_from (x : string) (t : ty) : Prop := forall before g after p u m,
  ci_fns ci = before ++ g :: after -> member x "from" g -> (forall g', In g' (before ++ after) -> ~ member x "from" g') ->
  sfn_params g = [(p, u, m)] -> exists T, seen g u T /\ agree T t.

(** ** Expressions *)

Inductive reads : list (string * ty) -> sx -> ty -> expr -> Prop :=
(** literals, names *)
| reads_literal : forall G z t i, views t (TyInt i) -> reads G (SLit z None) t (Lit i z)
| reads_typed_literal : forall G z i, reads G (SLit z (Some i)) (TyInt i) (Lit i z)
| reads_bool : forall G b, reads G (SBool b) TyBool (BoolLit b)
| reads_unit : forall G, reads G SUnit TyUnit (Con "()" [])
| reads_var : forall G x t, bound G x t -> reads G (SPath [x]) t (Var x)
| reads_none : forall G p t, unbound G p -> last p "" = "None" -> reads G (SPath p) (TyCon "Option" [t]) (Con "None" [])
| reads_unbounded : forall G p t, unbound G p -> last p "" = "Unbounded" -> reads G (SPath p) (TyCon "Bound" [t]) (Con "Unbounded" [])
| reads_const : forall G p t T, unbound G p -> In (last p "", t) (ci_consts ci) -> fits t T -> reads G (SPath p) T (Call (last p "") [])
(** references, operators *)
| reads_ref : forall G e t x, reads G e t x -> reads G (SRef e) (TyRef t) x
| reads_deref : forall G e t u x, reads G e t x -> behind t u -> reads G (SDeref e) u x
| reads_not : forall G e t x, reads G e t x -> agree TyBool t -> reads G (SNot e) TyBool (Not x)
| reads_field : forall G e t x s fs f u T, reads G e t x -> views t (TyStruct s) -> In (s, fs) (ci_structs ci) -> In (f, u) fs -> fits u T ->
    reads G (SField e f) T (Field x f)
| reads_wrapped : forall G e t u x, reads G e t x -> views t (TyWrap u) -> reads G (SField e "0") u (Field x "0")
| reads_first : forall G e t u w x, reads G e t x -> views t (TyCon "," [u; w]) -> reads G (SField e "0") u (Match x [(PCon "," ["0"; "1"], Var "0")])
| reads_index : forall G e t u x i ti xi, reads G e t x -> views t (TyList u) -> reads G i ti xi -> agree (TyInt Usize) ti -> reads G (SIndex e i) u (Index x xi)
| reads_whole : forall G e t u x, reads G e t x -> views t (TyList u) -> reads G (SIndex e (SRange None None)) t (Prim Pclone [x])
| reads_slice_from : forall G e t u x lo tl xl, reads G e t x -> views t (TyList u) -> reads G lo tl xl -> agree (TyInt Usize) tl ->
    reads G (SIndex e (SRange (Some lo) None)) t (SliceFrom x xl)
| reads_slice_to : forall G e t u x hi th xh, reads G e t x -> views t (TyList u) -> reads G hi th xh -> agree (TyInt Usize) th ->
    reads G (SIndex e (SRange None (Some hi))) t (SliceTo x xh)
| reads_slice : forall G e t u x lo tl xl hi th xh, reads G e t x -> views t (TyList u) -> reads G lo tl xl -> agree (TyInt Usize) tl ->
    reads G hi th xh -> agree (TyInt Usize) th -> reads G (SIndex e (SRange (Some lo) (Some hi))) t (Slice x xl xh)
| reads_range : forall G a ta xa b tb xb, reads G a ta xa -> reads G b tb xb -> agree ta tb ->
    reads G (SRange (Some a) (Some b)) (TyCon "Ranges" [ta]) (Con ".." [xa; xb])
| reads_cast : forall G e t x i, reads G e t x -> reads G (SCast e (TyInt i)) (TyInt i) (Cast i x)
| reads_and : forall G a ta xa b tb xb, reads G a ta xa -> agree TyBool ta -> reads G b tb xb -> agree TyBool tb -> reads G (SBin "&&" a b) TyBool (And xa xb)
| reads_or : forall G a ta xa b tb xb, reads G a ta xa -> agree TyBool ta -> reads G b tb xb -> agree TyBool tb -> reads G (SBin "||" a b) TyBool (Or xa xb)
| reads_is_none : forall G a ta xa, reads G a ta xa ->
    reads G (SBin "==" a (SPath ["None"])) TyBool (Match xa [(PCon "None" [], BoolLit true); (PWild, BoolLit false)])
| reads_compare : forall G o op a ta xa b tb xb, operator o op -> comparison op -> (o = "==" -> b <> SPath ["None"]) ->
    reads G a ta xa -> reads G b tb xb -> agree ta tb -> reads G (SBin o a b) TyBool (Bin op xa xb)
| reads_arith : forall G o op a ta xa b tb xb t, operator o op -> ~ comparison op -> ~ shift op ->
    reads G a ta xa -> reads G b tb xb -> agree ta tb -> views ta t -> reads G (SBin o a b) t (Bin op xa xb)
| reads_shift : forall G o op a ta xa b tb xb, operator o op -> shift op -> reads G a ta xa -> reads G b tb xb -> reads G (SBin o a b) ta (Bin op xa xb)
(** aggregates *)
| reads_tuple : forall G es ts xs, reads_all G es ts xs -> reads G (STuple es) (TyCon "," ts) (Con "," xs)
| reads_array : forall G es ts xs t, reads_all G es ts xs -> Forall (agree t) ts -> reads G (SArray es) (TyList t) (ListLit xs)
| reads_repeat : forall G e t x n tn xn, reads G e t x -> reads G n tn xn -> agree (TyInt Usize) tn -> reads G (SRepeat e n) (TyList t) (Prim Prepeat [x; xn])
| reads_struct : forall G p s decl fs xs, structure p s -> In (s, decl) (ci_structs ci) -> reads_fields G decl fs xs ->
    reads G (SStruct p fs) (TyStruct s) (StructLit s (map fst decl) xs)
(** calls *)
| reads_some : forall G p ta a t x, last p "" = "Some" -> reads G a t x -> reads G (SCall p ta [a]) (TyCon "Option" [t]) (Con "Some" [x])
| reads_included : forall G p ta a t x, last p "" = "Included" -> reads G a t x -> reads G (SCall p ta [a]) (TyCon "Bound" [t]) (Con "Included" [x])
| reads_excluded : forall G p ta a t x, last p "" = "Excluded" -> reads G a t x -> reads G (SCall p ta [a]) (TyCon "Bound" [t]) (Con "Excluded" [x])
| reads_wrapping : forall G p ta a t x, last p "" = "Wrapping" -> reads G a t x -> reads G (SCall p ta [a]) (TyWrap t) (Wrapping x)
| reads_box : forall G ta a t x, reads G a t x -> reads G (SCall ["Box"; "new"] ta [a]) t (Prim Pclone [x])
| reads_capacity : forall G c ta a t x u, In c ["Vec"; "VecDeque"] -> reads G a t x -> agree (TyInt Usize) t ->
    reads G (SCall [c; "with_capacity"] ta [a]) (TyList u) (Prim Pwith_capacity [x])
| reads_new_vec : forall G ta u, reads G (SCall ["Vec"; "new"] ta []) (TyList u) (ListLit [])
| reads_into_path : forall G f u ta T a t x c, fits u T -> reads G a t x -> conversion t T c -> reads G (SCall ["Into"; f] (Some (u :: ta)) [a]) T (Call c [x])
| reads_from : forall G s ta a t x c, reads G a t x -> only_from s t -> conversion t (TyStruct s) c -> reads G (SCall [s; "from"] ta [a]) (TyStruct s) (Call c [x])
| reads_call : forall G p ta es ts xs c g ps r, resolves p c g -> Forall2 (seen g) (param_types g) ps -> seen g (sfn_ret g) r ->
    reads_all G es ts xs -> Forall2 agree ps ts -> reads G (SCall p ta es) r (Call c xs)
| reads_default : forall G ta t s, views t (TyStruct s) -> reads G (SCall ["Default"; "default"] ta []) t (Call (s ++ "::default") [])
| reads_derived : forall G x ta o s, structure [x] o -> In o (ci_derived ci) -> views (TyStruct o) (TyStruct s) ->
    reads G (SCall [x; "default"] ta []) (TyStruct o) (Call (s ++ "::default") [])
| reads_assoc_default : forall G y ta t s, unfolds (TyAssoc y) t -> views t (TyStruct s) -> reads G (SCall ["Self"; y; "default"] ta []) t (Call (s ++ "::default") [])
| reads_min : forall G p ta a t x b u y, last p "" = "min" -> reads G a t x -> reads G b u y -> agree t u ->
    reads G (SCall p ta [a; b]) t (Prim Pmin [x; y])
| reads_swap : forall G p ta a t x b u y, last p "" = "swap" -> reads G a t x -> reads G b u y -> agree t u ->
    reads G (SCall p ta [a; b]) TyUnit (Swap x y)
(** of the tests *)
| reads_test_data : forall G p ta es ts xs, last p "" = "test_data" -> reads_all G es ts xs -> reads G (SCall p ta es) (TyList (TyInt U8)) (Call "test_data" xs)
| reads_thread_rng : forall G p ta es ts xs, last p "" = "thread_rng" -> reads_all G es ts xs -> reads G (SCall p ta es) (TyStruct "ThreadRng") (Call "thread_rng" xs)
| reads_pcg : forall G p ta es ts xs, In "Pcg64" p -> last p "" = "new" -> reads_all G es ts xs -> Forall (agree (TyInt U128)) (firstn 2 ts) ->
    reads G (SCall p ta es) (TyStruct "Pcg64") (Call "Pcg64::new" xs)
(** methods of the standard library *)
| reads_copy : forall G e t x lo tl xl hi th xh src ts xs, reads G e t x -> reads G lo tl xl -> agree (TyInt Usize) tl -> reads G hi th xh -> agree (TyInt Usize) th ->
    reads G src ts xs -> reads G (SMethod (SIndex e (SRange (Some lo) (Some hi))) "copy_from_slice" [src]) TyUnit (CopyFromSlice x xl xh xs)
| reads_into : forall G e t x T c, reads G e t x -> conversion t T c -> reads G (SMethod e "into" []) T (Call c [x])
| reads_clone : forall G e t x u, reads G e t x -> behind t u -> reads G (SMethod e "clone" []) u (Prim Pclone [x])
| reads_boxed : forall G e t x, reads G e t x -> reads G (SMethod e "into_boxed_slice" []) t (Prim Pclone [x])
| reads_leading_zeros : forall G e t x, reads G e t x -> reads G (SMethod e "leading_zeros" []) (TyInt U32) (Prim Pleading_zeros [x])
| reads_try_into : forall G e t x u i, reads G e t x -> views u (TyInt i) -> reads G (SMethod e "try_into" []) (TyCon "Option" [u]) (Prim (Ptry_into i) [x])
| reads_unwrap : forall G e t x c u us, reads G e t x -> views t (TyCon c (u :: us)) -> reads G (SMethod e "unwrap" []) u (Prim Punwrap [x])
| reads_start : forall G e t x u, reads G e t x -> reads G (SMethod e "start_bound" []) (TyCon "Bound" [TyRef u]) (Prim Pstart_bound [x])
| reads_end : forall G e t x u, reads G e t x -> reads G (SMethod e "end_bound" []) (TyCon "Bound" [TyRef u]) (Prim Pend_bound [x])
| reads_len : forall G e t x u, reads G e t x -> views t (TyList u) -> reads G (SMethod e "len" []) (TyInt Usize) (Prim Plen [x])
| reads_is_empty : forall G e t x u, reads G e t x -> views t (TyList u) -> reads G (SMethod e "is_empty" []) TyBool (Prim Pis_empty [x])
| reads_pop_front : forall G e t x u, reads G e t x -> views t (TyList u) -> reads G (SMethod e "pop_front" []) (TyCon "Option" [u]) (MutPrim Mpop_front x [])
| reads_clear : forall G e t x u, reads G e t x -> views t (TyList u) -> reads G (SMethod e "clear" []) TyUnit (MutPrim Mclear x [])
| reads_saturating_sub : forall G e t x b a ta xa, reads G e t x -> views t b -> reads G a ta xa -> agree b ta ->
    reads G (SMethod e "saturating_sub" [a]) b (Prim Psaturating_sub [x; xa])
| reads_rotate_left : forall G e t x b a ta xa, reads G e t x -> views t b -> reads G a ta xa -> agree (TyInt U32) ta ->
    reads G (SMethod e "rotate_left" [a]) b (Prim Protate_left [x; xa])
| reads_wrapping_pow : forall G e t x b a ta xa, reads G e t x -> views t b -> reads G a ta xa -> agree (TyInt U32) ta ->
    reads G (SMethod e "wrapping_pow" [a]) b (Prim Pwrapping_pow [x; xa])
| reads_split_at : forall G e t x b a ta xa, reads G e t x -> views t b -> reads G a ta xa -> agree (TyInt Usize) ta ->
    reads G (SMethod e "split_at" [a]) (TyCon "," [b; b]) (Prim Psplit_at [x; xa])
| reads_fill_bytes : forall G e t x a ta xa, reads G e t x -> reads G a ta xa -> reads G (SMethod e "fill_bytes" [a]) TyUnit (Method "fill_bytes" [x; xa])
| reads_push : forall G e t x u m a ta xa, In m ["push"; "push_back"] -> reads G e t x -> views t (TyList u) -> reads G a ta xa -> agree u ta ->
    reads G (SMethod e m [a]) TyUnit (MutPrim Mpush_back x [xa])
| reads_unwrap_or : forall G e t x c u us a ta xa, reads G e t x -> views t (TyCon c (u :: us)) -> reads G a ta xa -> agree u ta ->
    reads G (SMethod e "unwrap_or" [a]) u (Match x [(PCon "Some" ["x"], Var "x"); (PCon "None" [], xa)])
| reads_map : forall G e t x u us v y f T xf, reads G e t x -> views t (TyCon "Option" (u :: us)) -> reads ((v, u) :: G) (SField (SPath [y]) f) T xf ->
    reads G (SMethod e "map" [SClosure (PVar v) (SField (SPath [y]) f)]) (TyCon "Option" [T])
      (Match x [(PCon "Some" [v], Con "Some" [xf]); (PCon "None" [], Con "None" [])])
(** methods of the crate *)
| reads_method : forall G e t x m es ts xs ps r, reads G e t x -> method_type m ps r -> reads_all G es ts xs -> Forall2 agree ps ts ->
    reads G (SMethod e m es) r (Method m (x :: xs))
(** macros *)
| reads_assert : forall G e t x, reads G e t x -> agree TyBool t -> reads G (SMacro "assert" [e]) TyUnit (Prim Passert [x])
| reads_assert_eq : forall G a b t x, reads G (SBin "==" a b) t x -> agree TyBool t -> reads G (SMacro "assert_eq" [a; b]) TyUnit (Prim Passert [x])
| reads_assert_ne : forall G a b t x, reads G (SBin "!=" a b) t x -> agree TyBool t -> reads G (SMacro "assert_ne" [a; b]) TyUnit (Prim Passert [x])
| reads_panic : forall G s es ts xs, reads_all G es ts xs -> reads G (SMacro "panic" (SStr s :: es)) TyNever (Block [Con s xs; Prim Passert [BoolLit false]])
| reads_println : forall G s es ts xs, reads_all G es ts xs -> unbound G ["stdout"] -> reads G (SMacro "println" (SStr s :: es)) TyUnit (Con s xs)
| reads_printed : forall G s es ts xs t, reads_all G es ts xs -> bound G "stdout" t -> reads G (SMacro "println" (SStr s :: es)) TyUnit (MutPrim Mpush_back (Var "stdout") [Con s xs])
(** statements *)
| reads_assign : forall G p tp xp e t x, reads G p tp xp -> reads G e t x -> agree tp t -> reads G (SAssign p e) TyUnit (Assign xp x)
| reads_op_assign : forall G o op p tp xp e t x, operator o op -> reads G p tp xp -> reads G e t x -> agree tp t -> reads G (SOpAssign o p e) TyUnit (OpAssign op xp x)
| reads_return : forall G e t x T, reads G e t x -> fits (sfn_ret fn) T -> agree T t -> reads G (SReturn e) TyNever (Return x)
| reads_break : forall G, reads G SBreak TyNever Break
| reads_block : forall G es t xs, reads_statements G TyUnit es t xs -> reads G (SBlock es) t (Block xs)
| reads_if : forall G c tc xc a ta xa, reads G c tc xc -> agree TyBool tc -> reads G a ta xa -> reads G (SIf c a None) TyUnit (If xc xa (Con "()" []))
| reads_if_else : forall G c tc xc a ta xa b tb xb, reads G c tc xc -> agree TyBool tc -> reads G a ta xa -> reads G b tb xb -> agree ta tb ->
    reads G (SIf c a (Some b)) ta (If xc xa xb)
| reads_if_never : forall G c tc xc a ta xa b tb xb, reads G c tc xc -> agree TyBool tc -> reads G a ta xa -> unfolds ta TyNever -> reads G b tb xb ->
    reads G (SIf c a (Some b)) tb (If xc xa xb)
| reads_match : forall G e t x s arms r xs, reads G e t x -> views t s -> reads_arms G s r arms xs -> reads G (SMatch e arms) r (Match x xs)
| reads_for_range : forall G v lo tl xl hi th xh body tb xb, reads G lo tl xl -> agree (TyInt Usize) tl -> reads G hi th xh -> agree (TyInt Usize) th ->
    reads ((v, TyInt Usize) :: G) body tb xb -> reads G (SFor (PVar v) (SRange (Some lo) (Some hi)) body) TyUnit (ForRange v xl xh xb)
| reads_for : forall G v it e t x u body tb xb, goes_over it false e -> reads G e t x -> views t (TyList u) ->
    reads ((v, u) :: G) body tb xb -> reads G (SFor (PVar v) it body) TyUnit (ForIn v x xb)
| reads_for_enumerate : forall G i v it e t x u body tb xb, goes_over it true e -> reads G e t x -> views t (TyList u) ->
    reads ((v, u) :: (i, TyInt Usize) :: G) body tb xb -> reads G (SFor (PTuple [PVar i; PVar v]) it body) TyUnit (ForEnum i v x xb)
| reads_loop : forall G body t x, reads G body t x -> breaks body -> reads G (SLoop body) TyUnit (Loop x)
| reads_forever : forall G body t x, reads G body t x -> ~ breaks body -> reads G (SLoop body) TyNever (Loop x)
with reads_all : list (string * ty) -> list sx -> list ty -> list expr -> Prop :=
| reads_nil : forall G, reads_all G [] [] []
| reads_cons : forall G e t x es ts xs, reads G e t x -> reads_all G es ts xs -> reads_all G (e :: es) (t :: ts) (x :: xs)
(** the fields of a structure *)
with reads_fields : list (string * ty) -> list (string * ty) -> list (string * sx) -> list (string * expr) -> Prop :=
| fields_nil : forall G decl, reads_fields G decl [] []
| fields_cons : forall G decl f u T e t x fs xs, In (f, u) decl -> field_type (ci_params ci) u T -> reads G e t x -> agree T t -> reads_fields G decl fs xs ->
    reads_fields G decl ((f, e) :: fs) ((f, x) :: xs)
(** the arms of a [match] on a value of type [s], with the result [r] *)
with reads_arms : list (string * ty) -> ty -> ty -> list (spat * sx) -> list (pat * expr) -> Prop :=
| arms_nil : forall G s r, reads_arms G s r [] []
| arms_constant : forall G s r c e t x arms xs, reads G e t x -> (unfolds t TyNever \/ agree r t) -> reads_arms G s r arms xs ->
    reads_arms G s r ((PApp c [], e) :: arms) ((PCon c [], x) :: xs)
| arms_constructor : forall G k u us r c ys e t x arms xs, ys <> [] -> reads (map (fun y => (y, u)) ys ++ G) e t x -> (unfolds t TyNever \/ agree r t) ->
    reads_arms G (TyCon k (u :: us)) r arms xs -> reads_arms G (TyCon k (u :: us)) r ((PApp c (map PVar ys), e) :: arms) ((PCon c ys, x) :: xs)
| arms_wild : forall G s r e t x arms xs, reads G e t x -> (unfolds t TyNever \/ agree r t) -> reads_arms G s r arms xs ->
    reads_arms G s r ((PVar "_", e) :: arms) ((PWild, x) :: xs)
(** the statements of a block, those before which had the type [t0] *)
with reads_statements : list (string * ty) -> ty -> list sx -> ty -> list expr -> Prop :=
| statements_nil : forall G t, reads_statements G t [] t []
| statements_let : forall G t0 x e t y es r ys, reads G e t y -> reads_statements ((x, t) :: G) TyUnit es r ys ->
    reads_statements G t0 (SLet (PVar x) None e :: es) r (Let x y :: ys)
| statements_let_typed : forall G t0 x u T e t y es r ys, fits u T -> reads G e t y -> agree T t -> reads_statements ((x, T) :: G) TyUnit es r ys ->
    reads_statements G t0 (SLet (PVar x) (Some u) e :: es) r (Let x y :: ys)
| statements_let_pair : forall G t0 x1 x2 ou e t c t1 t2 y es r ys, (forall u, ou = Some u -> exists T, fits u T /\ agree T t) -> reads G e t y -> views t (TyCon c [t1; t2]) ->
    reads_statements ((x1, t1) :: (x2, t2) :: G) TyUnit es r ys -> reads_statements G t0 (SLet (PTuple [PVar x1; PVar x2]) ou e :: es) r (LetPair x1 x2 y :: ys)
| statements_expr : forall G t0 e t y es r ys, reads G e t y -> reads_statements G t es r ys -> reads_statements G t0 (e :: es) r (y :: ys).

(** ** Functions *)

(** The parameters, what they are bound to, and the first statements of the body: a pair is taken apart there. *)
Inductive reads_params : list (spat * ty * bool) -> list (string * bool) -> list (string * ty) -> list expr -> Prop :=
| params_nil : reads_params [] [] [] []
| params_name : forall x t t' T m ps l G pre, fits t t' -> unfolds t' T -> reads_params ps l G pre ->
    reads_params ((PVar x, t, m) :: ps) ((x, m) :: l) ((x, T) :: G) pre
| params_pair : forall x y t t' c a b m ps l G pre, fits t t' -> unfolds t' (TyCon c [a; b]) -> reads_params ps l G pre ->
    reads_params ((PTuple [PVar x; PVar y], t, m) :: ps) (("arg", m) :: l) ((x, a) :: (y, b) :: G) (LetPair x y (Var "arg") :: pre).

Inductive reads_fn : Rust.fn -> Prop :=
| reads_fn_intro : forall l G pre T t x, reads_params (sfn_params fn) l G pre -> fits (sfn_ret fn) T -> reads G (sfn_body fn) t x -> agree T t ->
    reads_fn {| fn_params := l; fn_body := match pre with [] => x | _ => Block (pre ++ [x]) end |}.

(** The name a function is called by. *)
Inductive reads_name : string -> Prop :=
| name_from : forall u T x y d, sfn_impl fn = Some (Some (TyFrom u), TyStruct x, d) -> fits u T -> called T y -> reads_name (x ++ "::from<" ++ y ++ ">")
| name_member : forall tr x d, sfn_impl fn = Some (tr, TyStruct x, d) -> (forall u, tr <> Some (TyFrom u)) -> reads_name (x ++ "::" ++ sfn_name fn)
| name_free : (forall tr x d, sfn_impl fn <> Some (tr, TyStruct x, d)) -> reads_name (sfn_name fn).
End Rules.
