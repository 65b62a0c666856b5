(** * RustRules: the meaning of the language of [Rust.v] as inference rules.

    [Rust.v] runs a term with a fuel-bounded interpreter.  Here the same language is given by rules in the usual
    big-step style, one or two per construct, without fuel: [ends prog rho e o] says that the expression [e], started
    with the variables [rho], comes to the end [o].  There is no rule for an ill-typed term and none for a term that
    runs for ever.  [PropsRules.v] proves that the interpreter computes exactly what the rules derive. *)

From Coq Require Import String.
From Verif Require Import Base Rust.
Open Scope list_scope.
Open Scope Z_scope.

(** How an expression comes to an end. *)
Inductive outcome : Type :=
| Ended (rho : env) (f : flow)
| Panicked.

(** ** Operators

    [means .. (Some v)]: the result is [v]; [means .. None]: the operation panics. *)

Definition width (t : ity) : Z := match t with U8 => 8 | U32 => 32 | U64 | Usize => 64 | U128 => 128 end.
Definition fits_in (t : ity) (z : Z) : Prop := z < 2 ^ width t.

(** [r] is the truth value of [P]. *)
Definition tells (r : bool) (P : Prop) : Prop := r = true <-> P.

(** Element by element up to the first difference. *)
Inductive same_ints : list value -> list value -> bool -> Prop :=
| same_nil : same_ints [] [] true
| same_shorter : forall v b, same_ints [] (v :: b) false
| same_longer : forall v a, same_ints (v :: a) [] false
| same_next : forall t x a b r, same_ints a b r -> same_ints (VInt t x :: a) (VInt t x :: b) r
| same_differ : forall t x y a b, x <> y -> same_ints (VInt t x :: a) (VInt t y :: b) false.

Inductive bin_means : binop -> value -> value -> option value -> Prop :=
(* integers: checked *)
| add_fits : forall t a b, fits_in t (a + b) -> bin_means Add (VInt t a) (VInt t b) (Some (VInt t (a + b)))
| add_over : forall t a b, ~ fits_in t (a + b) -> bin_means Add (VInt t a) (VInt t b) None
| sub_fits : forall t a b, b <= a -> bin_means Sub (VInt t a) (VInt t b) (Some (VInt t (a - b)))
| sub_under : forall t a b, a < b -> bin_means Sub (VInt t a) (VInt t b) None
| mul_fits : forall t a b, fits_in t (a * b) -> bin_means Mul (VInt t a) (VInt t b) (Some (VInt t (a * b)))
| mul_over : forall t a b, ~ fits_in t (a * b) -> bin_means Mul (VInt t a) (VInt t b) None
| div_ok : forall t a b, b <> 0 -> bin_means Div (VInt t a) (VInt t b) (Some (VInt t (a / b)))
| div_zero : forall t a, bin_means Div (VInt t a) (VInt t 0) None
| rem_ok : forall t a b, b <> 0 -> bin_means Rem (VInt t a) (VInt t b) (Some (VInt t (a mod b)))
| rem_zero : forall t a, bin_means Rem (VInt t a) (VInt t 0) None
| bit_and : forall t a b, bin_means BitAnd (VInt t a) (VInt t b) (Some (VInt t (Z.land a b)))
| bit_or : forall t a b, bin_means BitOr (VInt t a) (VInt t b) (Some (VInt t (Z.lor a b)))
| bit_xor : forall t a b, bin_means BitXor (VInt t a) (VInt t b) (Some (VInt t (Z.lxor a b)))
| lt_int : forall t a b r, tells r (a < b) -> bin_means Lt (VInt t a) (VInt t b) (Some (VBool r))
| le_int : forall t a b r, tells r (a <= b) -> bin_means Le (VInt t a) (VInt t b) (Some (VBool r))
| gt_int : forall t a b r, tells r (b < a) -> bin_means Gt (VInt t a) (VInt t b) (Some (VBool r))
| ge_int : forall t a b r, tells r (b <= a) -> bin_means Ge (VInt t a) (VInt t b) (Some (VBool r))
| eq_int : forall t a b r, tells r (a = b) -> bin_means Eq (VInt t a) (VInt t b) (Some (VBool r))
| ne_int : forall t a b r, tells r (a <> b) -> bin_means Ne (VInt t a) (VInt t b) (Some (VBool r))
(* the amount of a shift may have another type *)
| shl_ok : forall t u a b, b < width t ->
    bin_means Shl (VInt t a) (VInt u b) (Some (VInt t (Z.shiftl a b mod 2 ^ width t)))
| shl_over : forall t u a b, width t <= b -> bin_means Shl (VInt t a) (VInt u b) None
| shr_ok : forall t u a b, b < width t -> bin_means Shr (VInt t a) (VInt u b) (Some (VInt t (Z.shiftr a b)))
| shr_over : forall t u a b, width t <= b -> bin_means Shr (VInt t a) (VInt u b) None
(* Wrapping: modulo the size of the word *)
| wrap_add : forall t a b, bin_means Add (VWrap t a) (VWrap t b) (Some (VWrap t ((a + b) mod 2 ^ width t)))
| wrap_sub : forall t a b, bin_means Sub (VWrap t a) (VWrap t b) (Some (VWrap t ((a - b) mod 2 ^ width t)))
| wrap_mul : forall t a b, bin_means Mul (VWrap t a) (VWrap t b) (Some (VWrap t ((a * b) mod 2 ^ width t)))
| wrap_rem : forall t a b, b <> 0 -> bin_means Rem (VWrap t a) (VWrap t b) (Some (VWrap t (a mod b)))
| wrap_rem_zero : forall t a, bin_means Rem (VWrap t a) (VWrap t 0) None
| wrap_eq : forall t a b r, tells r (a = b) -> bin_means Eq (VWrap t a) (VWrap t b) (Some (VBool r))
| wrap_shl : forall t a b,
    bin_means Shl (VWrap t a) (VInt Usize b) (Some (VWrap t (Z.shiftl a (b mod width t) mod 2 ^ width t)))
(* arrays of integers *)
| eq_list : forall a b r, same_ints a b r -> bin_means Eq (VList a) (VList b) (Some (VBool r))
| eq_bool : forall a b r, tells r (a = b) -> bin_means Eq (VBool a) (VBool b) (Some (VBool r))
(* [Option] of an integer *)
| eq_option : forall c d a b r, In c ["Some"; "None"]%string -> In d ["Some"; "None"]%string -> same_ints a b r -> bin_means Eq (VCon c a) (VCon d b) (Some (VBool r))
| ne_option : forall c d a b r, In c ["Some"; "None"]%string -> In d ["Some"; "None"]%string -> same_ints a b r -> bin_means Ne (VCon c a) (VCon d b) (Some (VBool (negb r))).

Inductive prim_means : prim -> list value -> option value -> Prop :=
| len_means : forall l, prim_means Plen [VList l] (Some (VInt Usize (Z.of_nat (length l))))
| is_empty_means : forall l r, tells r (l = []) -> prim_means Pis_empty [VList l] (Some (VBool r))
| saturating_means : forall t a b, prim_means Psaturating_sub [VInt t a; VInt t b] (Some (VInt t (Z.max 0 (a - b))))
| min_means : forall t a b, prim_means Pmin [VInt t a; VInt t b] (Some (VInt t (Z.min a b)))
| rotate_means : forall x n, prim_means Protate_left [VInt U32 x; VInt U32 n]
    (Some (VInt U32 (Z.lor (Z.shiftl x (n mod 32)) (Z.shiftr x (32 - n mod 32)) mod 2 ^ 32)))
| zeros_none : prim_means Pleading_zeros [VInt U32 0] (Some (VInt U32 32))
| zeros_means : forall x, x <> 0 -> prim_means Pleading_zeros [VInt U32 x] (Some (VInt U32 (31 - Z.log2 x)))
| pow_means : forall b e, prim_means Pwrapping_pow [VInt U64 b; VInt U32 e]
    (Some (VInt U64 (b ^ Z.of_nat (Z.to_nat e) mod 2 ^ 64)))
| into_ok : forall t u z, fits_in t z -> prim_means (Ptry_into t) [VInt u z] (Some (VCon "Ok" [VInt t z]))
| into_err : forall t u z, ~ fits_in t z -> prim_means (Ptry_into t) [VInt u z] (Some (VCon "Err" []))
| unwrap_ok : forall c v, prim_means Punwrap [VCon c [v]] (Some v)
| unwrap_fails : forall c vs, length vs <> 1%nat -> prim_means Punwrap [VCon c vs] None
| clone_means : forall v, prim_means Pclone [v] (Some v)
| repeat_means : forall v n, prim_means Prepeat [v; VInt Usize n] (Some (VList (repeat v (Z.to_nat n))))
| capacity_means : forall n, prim_means Pwith_capacity [VInt Usize n] (Some (VList []))
(* (a, b), a..b, a..=b, a.., ..b, ..=b, .. *)
| start_tuple : forall a b, prim_means Pstart_bound [VCon "," [a; b]] (Some a)
| start_range : forall a b, prim_means Pstart_bound [VCon ".." [a; b]] (Some (VCon "Included" [a]))
| start_incl : forall a b, prim_means Pstart_bound [VCon "..=" [a; b]] (Some (VCon "Included" [a]))
| start_from : forall a, prim_means Pstart_bound [VCon "a.." [a]] (Some (VCon "Included" [a]))
| start_to : forall b, prim_means Pstart_bound [VCon "..b" [b]] (Some (VCon "Unbounded" []))
| start_to_incl : forall b, prim_means Pstart_bound [VCon "..=b" [b]] (Some (VCon "Unbounded" []))
| start_full : prim_means Pstart_bound [VCon ".." []] (Some (VCon "Unbounded" []))
| end_tuple : forall a b, prim_means Pend_bound [VCon "," [a; b]] (Some b)
| end_range : forall a b, prim_means Pend_bound [VCon ".." [a; b]] (Some (VCon "Excluded" [b]))
| end_incl : forall a b, prim_means Pend_bound [VCon "..=" [a; b]] (Some (VCon "Included" [b]))
| end_from : forall a, prim_means Pend_bound [VCon "a.." [a]] (Some (VCon "Unbounded" []))
| end_to : forall b, prim_means Pend_bound [VCon "..b" [b]] (Some (VCon "Excluded" [b]))
| end_to_incl : forall b, prim_means Pend_bound [VCon "..=b" [b]] (Some (VCon "Included" [b]))
| end_full : prim_means Pend_bound [VCon ".." []] (Some (VCon "Unbounded" []))
| split_ok : forall l n, n <= Z.of_nat (length l) -> prim_means Psplit_at [VList l; VInt Usize n]
    (Some (VCon "," [VList (firstn (Z.to_nat n) l); VList (skipn (Z.to_nat n) l)]))
| split_out : forall l n, Z.of_nat (length l) < n -> prim_means Psplit_at [VList l; VInt Usize n] None
| assert_ok : prim_means Passert [VBool true] (Some (VCon "()" []))
| assert_fails : prim_means Passert [VBool false] None.

(** The new receiver and the value returned. *)
Inductive mut_means : mutprim -> value -> list value -> value -> value -> Prop :=
| pop_empty : mut_means Mpop_front (VList []) [] (VList []) (VCon "None" [])
| pop_first : forall v l, mut_means Mpop_front (VList (v :: l)) [] (VList l) (VCon "Some" [v])
| push_last : forall v l, mut_means Mpush_back (VList l) [v] (VList (l ++ [v])) (VCon "()" [])
| clear_all : forall l, mut_means Mclear (VList l) [] (VList []) (VCon "()" []).

(** The first binding of [x] is [v]; and [rho'] is [rho] with that binding changed. *)
Definition looks_up (rho : env) (x : string) (v : value) : Prop :=
  exists pre post, rho = pre ++ (x, v) :: post /\ ~ In x (map fst pre).
Definition updates (rho : env) (x : string) (v : value) (rho' : env) : Prop :=
  exists pre w post, rho = pre ++ (x, w) :: post /\ ~ In x (map fst pre) /\ rho' = pre ++ (x, v) :: post.

(** [l[a..b]]. *)
Definition part {A} (l : list A) (a b : Z) : list A := firstn (Z.to_nat b - Z.to_nat a) (skipn (Z.to_nat a) l).

(** Operators whose operands are all evaluated first, and that change nothing. *)
Inductive head : Type :=
| HField (f : string) | HIndex | HSlice | HSliceFrom | HSliceTo | HWrapping | HCast (t : ity) | HBin (op : binop) | HNot
| HStruct (name : string) (decl names : list string) | HCon (c : string) | HList | HPrim (p : prim).

Definition head_of (e : expr) : option head :=
  match e with
  | Field _ f => Some (HField f)
  | Index _ _ => Some HIndex
  | Slice _ _ _ => Some HSlice
  | SliceFrom _ _ => Some HSliceFrom
  | SliceTo _ _ => Some HSliceTo
  | Wrapping _ => Some HWrapping
  | Cast t _ => Some (HCast t)
  | Bin op _ _ => Some (HBin op)
  | Not _ => Some HNot
  | StructLit name decl fs => Some (HStruct name decl (map fst fs))
  | Con c _ => Some (HCon c)
  | ListLit _ => Some HList
  | Prim p _ => Some (HPrim p)
  | _ => None
  end.

Inductive means : head -> list value -> option value -> Prop :=
| field_struct : forall n fs f v, looks_up fs f v -> means (HField f) [VStruct n fs] (Some v)
| field_wrapping : forall t z, means (HField "0") [VWrap t z] (Some (VInt t z))
| index_ok : forall l z v, nth_error l (Z.to_nat z) = Some v -> means HIndex [VList l; VInt Usize z] (Some v)
| index_out : forall l z, (length l <= Z.to_nat z)%nat -> means HIndex [VList l; VInt Usize z] None
| slice_ok : forall l a b, a <= b <= Z.of_nat (length l) ->
    means HSlice [VList l; VInt Usize a; VInt Usize b] (Some (VList (part l a b)))
| slice_out : forall l a b, ~ a <= b <= Z.of_nat (length l) -> means HSlice [VList l; VInt Usize a; VInt Usize b] None
| from_ok : forall l a, a <= Z.of_nat (length l) ->
    means HSliceFrom [VList l; VInt Usize a] (Some (VList (skipn (Z.to_nat a) l)))
| from_out : forall l a, Z.of_nat (length l) < a -> means HSliceFrom [VList l; VInt Usize a] None
| to_ok : forall l b, 0 <= b <= Z.of_nat (length l) ->
    means HSliceTo [VList l; VInt Usize b] (Some (VList (firstn (Z.to_nat b) l)))
| to_out : forall l b, ~ 0 <= b <= Z.of_nat (length l) -> means HSliceTo [VList l; VInt Usize b] None
| wrapping_means : forall t z, means HWrapping [VInt t z] (Some (VWrap t z))
| cast_means : forall t u z, means (HCast t) [VInt u z] (Some (VInt t (z mod 2 ^ width t)))
| bin_head : forall op a b r, bin_means op a b r -> means (HBin op) [a; b] r
| not_means : forall b, means HNot [VBool b] (Some (VBool (negb b)))
| struct_means : forall name decl names vs fs, map fst fs = decl ->
    Forall (fun '(f, v) => looks_up (combine names vs) f v) fs ->
    means (HStruct name decl names) vs (Some (VStruct name fs))
| con_means : forall c vs, means (HCon c) vs (Some (VCon c vs))
| list_means : forall vs, means HList vs (Some (VList vs))
| prim_head : forall p vs r, prim_means p vs r -> means (HPrim p) vs r.

(** ** Statements *)

(** What is evaluated first, in this order. *)
Definition operands (e : expr) : list expr :=
  match e with
  | Lit _ _ | BoolLit _ | Var _ | Block _ | Loop _ | Break => []
  | Field e _ | Wrapping e | Cast _ e | Not e | Let _ e | LetPair _ _ e | Return e => [e]
  | Index a b | SliceFrom a b | SliceTo a b | Bin _ a b | Swap a b => [a; b]
  | Slice a b c => [a; b; c]
  | And a _ | Or a _ | If a _ _ | Match a _ => [a]
  | StructLit _ _ fs => map snd fs
  | Con _ es | ListLit es | Call _ es | Method _ es | Prim _ es => es
  | MutPrim _ p es => p :: es
  | CopyFromSlice p a b s => [p; a; b; s]
  | Assign _ e => [e]
  | OpAssign _ p e => [e; p]
  | ForRange _ a b _ => [a; b]
  | ForEnum _ _ e _ | ForIn _ e _ => [e]
  end.

(** Statements that store a value [new] in a place, and give [r]. *)
Inductive stores : expr -> list value -> expr -> value -> value -> Prop :=
| store_mut : forall p place es v vs new r, mut_means p v vs new r -> stores (MutPrim p place es) (v :: vs) place new r
| store_copy : forall place x y z l a b s, a <= b <= Z.of_nat (length l) -> Z.of_nat (length s) = b - a ->
    stores (CopyFromSlice place x y z) [VList l; VInt Usize a; VInt Usize b; VList s] place
      (VList (firstn (Z.to_nat a) l ++ s ++ skipn (Z.to_nat b) l)) (VCon "()" [])
| store_assign : forall place e v, stores (Assign place e) [v] place v (VCon "()" [])
| store_op : forall op place e v old new, bin_means op old v (Some new) ->
    stores (OpAssign op place e) [v; old] place new (VCon "()" []).
Inductive store_fails : expr -> list value -> Prop :=
| copy_out : forall place x y z l a b s, ~ (a <= b <= Z.of_nat (length l) /\ Z.of_nat (length s) = b - a) ->
    store_fails (CopyFromSlice place x y z) [VList l; VInt Usize a; VInt Usize b; VList s]
| op_fails : forall op place e v old, bin_means op old v None -> store_fails (OpAssign op place e) [v; old].

(** [place.f = w] and [place[i] = w] as a new value of [place]. *)
Inductive field_set : value -> string -> value -> value -> Prop :=
| set_struct : forall n fs f w fs', updates fs f w fs' -> field_set (VStruct n fs) f w (VStruct n fs')
| set_wrapping : forall t z z', field_set (VWrap t z) "0" (VInt t z') (VWrap t z').

(** The arm of a [match] that is taken, and what it binds. *)
Inductive chooses : value -> list (pat * expr) -> env -> expr -> Prop :=
| choose_wild : forall v e r, chooses v ((PWild, e) :: r) [] e
| choose_con : forall c xs vs e r, chooses (VCon c vs) ((PCon c xs, e) :: r) (combine xs vs) e
| choose_later : forall c c' xs vs e r bs e', c <> c' -> chooses (VCon c vs) r bs e' ->
    chooses (VCon c vs) ((PCon c' xs, e) :: r) bs e'.

(** What a [for] binds in each round. *)
Inductive turns : expr -> list value -> list env -> expr -> Prop :=
| turns_range : forall x lo hi body a b,
    turns (ForRange x lo hi body) [VInt Usize a; VInt Usize b]
      (map (fun i => [(x, VInt Usize (a + Z.of_nat i))]) (List.seq 0 (Z.to_nat b - Z.to_nat a))) body
| turns_enum : forall i x e body l,
    turns (ForEnum i x e body) [VList l]
      (map (fun '(k, v) => [(x, v); (i, VInt Usize (Z.of_nat k))]) (combine (List.seq 0 (length l)) l)) body
| turns_in : forall x e body l, turns (ForIn x e body) [VList l] (map (fun v => [(x, v)]) l) body.

(** The function called, and the expressions passed. *)
Inductive callee : expr -> list value -> string -> list expr -> Prop :=
| callee_fn : forall f es vs, callee (Call f es) vs f es
| callee_struct : forall m es n fs vs, callee (Method m es) (VStruct n fs :: vs) (n ++ "::" ++ m)%string es
| callee_other : forall m es v vs, (forall n fs, v <> VStruct n fs) -> callee (Method m es) (v :: vs) ("R::" ++ m)%string es.

(** At the end of a scope the bindings made in it are dropped. *)
Definition leave (rho : env) (o : outcome) : outcome :=
  match o with
  | Ended rho' f => Ended (skipn (length rho' - length rho) rho') f
  | Panicked => Panicked
  end.

(** [o] is not just a value. *)
Definition abrupt (o : outcome) : Prop :=
  match o with Ended _ (Value _) => False | _ => True end.

Inductive args_end : Type :=
| Vals (rho : env) (vs : list value)
| Stop (o : outcome).

Definition takes (prog : program) (f : string) (ps : list (string * bool)) : Prop :=
  match prog f with
  | Some (Source g) => ps = fn_params g
  | Some (Given qs _) => ps = qs
  | None => False
  end.

Section Rules.
Variable prog : program.

Inductive ends : env -> expr -> outcome -> Prop :=
| ends_act : forall rho e rho' vs o, args rho (operands e) (Vals rho' vs) -> acts rho' e vs o -> ends rho e o
| ends_stop : forall rho e o, args rho (operands e) (Stop o) -> ends rho e o

with args : env -> list expr -> args_end -> Prop :=
| args_nil : forall rho, args rho [] (Vals rho [])
| args_cons : forall rho e es rho1 v rho2 vs, ends rho e (Ended rho1 (Value v)) -> args rho1 es (Vals rho2 vs) ->
    args rho (e :: es) (Vals rho2 (v :: vs))
| args_here : forall rho e es o, ends rho e o -> abrupt o -> args rho (e :: es) (Stop o)
| args_later : forall rho e es rho1 v o, ends rho e (Ended rho1 (Value v)) -> args rho1 es (Stop o) ->
    args rho (e :: es) (Stop o)

(** What [e] does once its operands have the values [vs]. *)
with acts : env -> expr -> list value -> outcome -> Prop :=
| act_lit : forall rho t z, acts rho (Lit t z) [] (Ended rho (Value (VInt t z)))
| act_bool : forall rho b, acts rho (BoolLit b) [] (Ended rho (Value (VBool b)))
| act_var : forall rho x v, looks_up rho x v -> acts rho (Var x) [] (Ended rho (Value v))
| act_pure : forall rho e h vs v, head_of e = Some h -> means h vs (Some v) -> acts rho e vs (Ended rho (Value v))
| act_pure_fails : forall rho e h vs, head_of e = Some h -> means h vs None -> acts rho e vs Panicked
| act_and_false : forall rho a b, acts rho (And a b) [VBool false] (Ended rho (Value (VBool false)))
| act_and_true : forall rho a b o, ends rho b o -> acts rho (And a b) [VBool true] o
| act_or_true : forall rho a b, acts rho (Or a b) [VBool true] (Ended rho (Value (VBool true)))
| act_or_false : forall rho a b o, ends rho b o -> acts rho (Or a b) [VBool false] o
| act_call : forall rho e vs f es ps finals v rho', callee e vs f es -> takes prog f ps ->
    calls f vs (Some (finals, v)) -> writes rho ps es finals (Some rho') -> acts rho e vs (Ended rho' (Value v))
| act_call_write : forall rho e vs f es ps finals v, callee e vs f es -> takes prog f ps ->
    calls f vs (Some (finals, v)) -> writes rho ps es finals None -> acts rho e vs Panicked
| act_call_fails : forall rho e vs f es, callee e vs f es -> calls f vs None -> acts rho e vs Panicked
| act_store : forall rho e vs place new r rho', stores e vs place new r -> assigns rho place new (Some rho') ->
    acts rho e vs (Ended rho' (Value r))
| act_store_place : forall rho e vs place new r, stores e vs place new r -> assigns rho place new None ->
    acts rho e vs Panicked
| act_store_fails : forall rho e vs, store_fails e vs -> acts rho e vs Panicked
| act_swap : forall rho p q a b rho1 rho2, assigns rho p b (Some rho1) -> assigns rho1 q a (Some rho2) ->
    acts rho (Swap p q) [a; b] (Ended rho2 (Value (VCon "()" [])))
| act_swap_first : forall rho p q a b, assigns rho p b None -> acts rho (Swap p q) [a; b] Panicked
| act_swap_second : forall rho p q a b rho1, assigns rho p b (Some rho1) -> assigns rho1 q a None ->
    acts rho (Swap p q) [a; b] Panicked
| act_let : forall rho x e v, acts rho (Let x e) [v] (Ended ((x, v) :: rho) (Value (VCon "()" [])))
| act_let_pair : forall rho x y e c a b,
    acts rho (LetPair x y e) [VCon c [a; b]] (Ended ((y, b) :: (x, a) :: rho) (Value (VCon "()" [])))
| act_block : forall rho es o, steps rho es o -> acts rho (Block es) [] (leave rho o)
| act_if_true : forall rho c t f o, ends rho t o -> acts rho (If c t f) [VBool true] o
| act_if_false : forall rho c t f o, ends rho f o -> acts rho (If c t f) [VBool false] o
| act_match : forall rho e arms v bs e' o, chooses v arms bs e' -> ends (bs ++ rho) e' o ->
    acts rho (Match e arms) [v] (leave rho o)
| act_for : forall rho e vs bss body o, turns e vs bss body -> each rho bss body o -> acts rho e vs o
| act_loop : forall rho body o, repeats rho body o -> acts rho (Loop body) [] o
| act_break : forall rho, acts rho Break [] (Ended rho Breaking)
| act_return : forall rho e v, acts rho (Return e) [v] (Ended rho (Returning v))

(** The statements of a block. *)
with steps : env -> list expr -> outcome -> Prop :=
| steps_nil : forall rho, steps rho [] (Ended rho (Value (VCon "()" [])))
| steps_last : forall rho e o, ends rho e o -> steps rho [e] o
| steps_next : forall rho e e' es rho1 v o, ends rho e (Ended rho1 (Value v)) -> steps rho1 (e' :: es) o ->
    steps rho (e :: e' :: es) o
| steps_stop : forall rho e e' es o, ends rho e o -> abrupt o -> steps rho (e :: e' :: es) o

(** [place = v]; [None]: an index is out of bounds, or the evaluation of a part of the place panics. *)
with assigns : env -> expr -> value -> option env -> Prop :=
| assign_var : forall rho x v rho', updates rho x v rho' -> assigns rho (Var x) v (Some rho')
| assign_field : forall rho p f v rho1 old new r, ends rho p (Ended rho1 (Value old)) -> field_set old f v new ->
    assigns rho p new r -> assigns rho (Field p f) v r
| assign_field_fails : forall rho p f v, ends rho p Panicked -> assigns rho (Field p f) v None
| assign_index : forall rho p i v rho1 l rho2 z r, ends rho p (Ended rho1 (Value (VList l))) ->
    ends rho i (Ended rho2 (Value (VInt Usize z))) -> z < Z.of_nat (length l) ->
    assigns rho p (VList (set_nth l (Z.to_nat z) v)) r -> assigns rho (Index p i) v r
| assign_index_out : forall rho p i v rho1 l rho2 z, ends rho p (Ended rho1 (Value (VList l))) ->
    ends rho i (Ended rho2 (Value (VInt Usize z))) -> Z.of_nat (length l) <= z -> assigns rho (Index p i) v None
| assign_index_place : forall rho p i v, ends rho p Panicked -> assigns rho (Index p i) v None
| assign_index_index : forall rho p i v rho1 old, ends rho p (Ended rho1 (Value old)) -> ends rho i Panicked ->
    assigns rho (Index p i) v None

(** The final values of the [&mut] parameters go back to the places passed. *)
with writes : env -> list (string * bool) -> list expr -> list value -> option env -> Prop :=
| writes_nil : forall rho, writes rho [] [] [] (Some rho)
| writes_mut : forall rho x ps e es v vs rho' r, assigns rho e v (Some rho') -> writes rho' ps es vs r ->
    writes rho ((x, true) :: ps) (e :: es) (v :: vs) r
| writes_fails : forall rho x ps e es v vs, assigns rho e v None -> writes rho ((x, true) :: ps) (e :: es) (v :: vs) None
| writes_other : forall rho x ps e es v vs r, writes rho ps es vs r ->
    writes rho ((x, false) :: ps) (e :: es) (v :: vs) r

(** The call [f(vs)]: final values of the parameters, and the value returned. *)
with calls : string -> list value -> option (list value * value) -> Prop :=
| call_given : forall f ps g vs r, prog f = Some (Given ps g) -> g vs = Done r -> calls f vs (Some r)
| call_given_fails : forall f ps g vs, prog f = Some (Given ps g) -> g vs = Panics -> calls f vs None
| call_source : forall f g vs rho fl v, prog f = Some (Source g) -> length vs = length (fn_params g) ->
    ends (combine (map fst (fn_params g)) vs) (fn_body g) (Ended rho fl) -> fl = Value v \/ fl = Returning v ->
    calls f vs (Some (map snd rho, v))
| call_source_fails : forall f g vs, prog f = Some (Source g) -> length vs = length (fn_params g) ->
    ends (combine (map fst (fn_params g)) vs) (fn_body g) Panicked -> calls f vs None

(** The rounds of a [for]. *)
with each : env -> list env -> expr -> outcome -> Prop :=
| each_nil : forall rho body, each rho [] body (Ended rho (Value (VCon "()" [])))
| each_next : forall rho bs bss body o1 rho1 v o, ends (bs ++ rho) body o1 -> leave rho o1 = Ended rho1 (Value v) ->
    each rho1 bss body o -> each rho (bs :: bss) body o
| each_break : forall rho bs bss body o1 rho1, ends (bs ++ rho) body o1 -> leave rho o1 = Ended rho1 Breaking ->
    each rho (bs :: bss) body (Ended rho1 (Value (VCon "()" [])))
| each_return : forall rho bs bss body o1 rho1 v, ends (bs ++ rho) body o1 -> leave rho o1 = Ended rho1 (Returning v) ->
    each rho (bs :: bss) body (Ended rho1 (Returning v))
| each_fails : forall rho bs bss body, ends (bs ++ rho) body Panicked -> each rho (bs :: bss) body Panicked

(** The rounds of a [loop]. *)
with repeats : env -> expr -> outcome -> Prop :=
| repeat_next : forall rho body rho1 v o, ends rho body (Ended rho1 (Value v)) -> repeats rho1 body o -> repeats rho body o
| repeat_break : forall rho body rho1, ends rho body (Ended rho1 Breaking) ->
    repeats rho body (Ended rho1 (Value (VCon "()" [])))
| repeat_return : forall rho body rho1 v, ends rho body (Ended rho1 (Returning v)) ->
    repeats rho body (Ended rho1 (Returning v))
| repeat_fails : forall rho body, ends rho body Panicked -> repeats rho body Panicked.

End Rules.
