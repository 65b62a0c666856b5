(** * Rust: syntax and meaning of the part of Rust that src/*.rs is written in.

    [RustText.v] holds the bodies of the crate's functions as terms of the type [expr] below, transcribed from the
    source by tools/transcribe.py.  This file says what such a term does; nothing here is specific to the crate.

    - A value carries its type: [VInt U64 5] is [5u64], [VWrap U32 5] is [Wrapping(5u32)].
    - References are transparent.  A [&mut] parameter is copied in and copied back when the call returns, which is what
      a borrow does as long as nothing else can touch the place meanwhile (the borrow checker's job).
    - Arithmetic on integers panics on overflow, as in a build with overflow checks.
    - [Stuck] is the outcome of a term that is not a well-typed program; [NoFuel] bounds the recursion. *)

From Coq Require Import String.
From Verif Require Import Base.
Open Scope list_scope.

(** ** Syntax *)

(** Integer types; [usize] has 64 bits. *)
Inductive ity : Type := U8 | U32 | U64 | U128 | Usize.

Inductive binop : Type :=
| Add | Sub | Mul | Div | Rem | Shl | Shr | BitAnd | BitOr | BitXor | Lt | Le | Gt | Ge | Eq | Ne.

(** Functions and methods of the standard library, without effect on their arguments. *)
Inductive prim : Type :=
| Plen              (* x.len() *)
| Pis_empty         (* x.is_empty() *)
| Psaturating_sub   (* a.saturating_sub(b) *)
| Pmin              (* std::cmp::min(a, b) *)
| Protate_left      (* x.rotate_left(n) *)
| Pleading_zeros    (* x.leading_zeros() *)
| Pwrapping_pow     (* x.wrapping_pow(n) *)
| Ptry_into (t : ity)  (* x.try_into() at an integer type *)
| Punwrap           (* x.unwrap() *)
| Pclone            (* x.clone(), *x, &x, Box::new(x), x.into_boxed_slice() *)
| Prepeat           (* vec![v; n], [v; n] *)
| Pwith_capacity    (* VecDeque::with_capacity(n) *)
| Pstart_bound      (* r.start_bound() *)
| Pend_bound        (* r.end_bound() *)
| Psplit_at         (* x.split_at(n) *)
| Passert.          (* assert!(c) *)

(** Methods of the standard library that change their receiver. *)
Inductive mutprim : Type :=
| Mpop_front | Mpush_back | Mclear.

Inductive pat : Type :=
| PCon (c : string) (xs : list string)   (* Some(x), None, Included(x), .. *)
| PWild.

Inductive expr : Type :=
| Lit (t : ity) (z : Z)
| BoolLit (b : bool)
| Var (x : string)
| Field (e : expr) (f : string)
| Index (e i : expr)
| Slice (e lo hi : expr)                          (* &e[lo..hi] *)
| SliceFrom (e lo : expr)                         (* &e[lo..] *)
| SliceTo (e hi : expr)                           (* &e[..hi] *)
| Wrapping (e : expr)
| Cast (t : ity) (e : expr)                       (* e as t *)
| Bin (op : binop) (a b : expr)
| Not (e : expr)
| And (a b : expr)
| Or (a b : expr)
| StructLit (name : string) (decl : list string) (fields : list (string * expr))
                                                  (* name { f: e, .. }, with the fields in the order of the declaration *)
| Con (c : string) (args : list expr)             (* Some(e), (a, b), a..b, .. *)
| ListLit (es : list expr)                        (* [a, b, ..] *)
| Call (f : string) (args : list expr)            (* f(a, ..) *)
| Method (m : string) (args : list expr)          (* a.m(b, ..): the receiver [a] is the first argument *)
| Prim (p : prim) (args : list expr)
| MutPrim (p : mutprim) (place : expr) (args : list expr)
| CopyFromSlice (place lo hi src : expr)          (* place[lo..hi].copy_from_slice(src) *)
| Swap (p q : expr)                               (* mem::swap(&mut p, &mut q) *)
| Let (x : string) (e : expr)
| LetPair (x y : string) (e : expr)               (* let (x, y) = e *)
| Assign (place e : expr)
| OpAssign (op : binop) (place e : expr)
| Block (es : list expr)
| If (c t f : expr)
| Match (e : expr) (arms : list (pat * expr))
| ForRange (x : string) (lo hi body : expr)       (* for x in lo..hi *)
| ForEnum (i v : string) (e body : expr)          (* for (i, v) in e.iter().enumerate() *)
| ForIn (v : string) (e body : expr)              (* for v in e *)
| Loop (body : expr)
| Break
| Return (e : expr).

(** A function: its parameters, each with a mark "is a [&mut] reference", and its body. *)
Record fn : Type := { fn_params : list (string * bool); fn_body : expr }.

(** ** Values *)

Inductive value : Type :=
| VInt (t : ity) (z : Z)
| VWrap (t : ity) (z : Z)
| VBool (b : bool)
| VList (l : list value)                              (* arrays, slices, [Vec], [VecDeque], [Box<[T]>] *)
| VStruct (name : string) (fields : list (string * value))
| VCon (c : string) (args : list value).              (* enums, tuples, ranges, unit *)

Definition VUnit : value := VCon "()" [].
Definition VPair (a b : value) : value := VCon "," [a; b].
Definition VSome (v : value) : value := VCon "Some" [v].
Definition VNone : value := VCon "None" [].

Inductive out (A : Type) : Type :=
| Done (a : A)
| Panics
| Stuck
| NoFuel.
Arguments Done {A} a.
Arguments Panics {A}.
Arguments Stuck {A}.
Arguments NoFuel {A}.

Definition obind {A B} (m : out A) (k : A -> out B) : out B :=
  match m with
  | Done a => k a
  | Panics => Panics
  | Stuck => Stuck
  | NoFuel => NoFuel
  end.

(** ** Operators *)

Definition ity_bits (t : ity) : Z := match t with U8 => 8 | U32 => 32 | U64 => 64 | U128 => 128 | Usize => 64 end.
Definition ity_size (t : ity) : Z := 2 ^ ity_bits t.
Definition ity_eqb (a b : ity) : bool :=
  match a, b with U8, U8 | U32, U32 | U64, U64 | U128, U128 | Usize, Usize => true | _, _ => false end.

Definition checked (ok : bool) (v : value) : out value := if ok then Done v else Panics.

(** [a op b] on integers of the same type [t]. *)
Definition int_op (t : ity) (op : binop) (a b : Z) : out value :=
  match op with
  | Add => checked (a + b <? ity_size t) (VInt t (a + b))
  | Sub => checked (b <=? a) (VInt t (a - b))
  | Mul => checked (a * b <? ity_size t) (VInt t (a * b))
  | Div => checked (negb (b =? 0)) (VInt t (a / b))
  | Rem => checked (negb (b =? 0)) (VInt t (a mod b))
  | BitAnd => Done (VInt t (Z.land a b))
  | BitOr => Done (VInt t (Z.lor a b))
  | BitXor => Done (VInt t (Z.lxor a b))
  | Lt => Done (VBool (a <? b))
  | Le => Done (VBool (a <=? b))
  | Gt => Done (VBool (b <? a))
  | Ge => Done (VBool (b <=? a))
  | Eq => Done (VBool (a =? b))
  | Ne => Done (VBool (negb (a =? b)))
  | Shl | Shr => Stuck
  end.

(** [a op b] on [Wrapping] integers: reduced modulo the word size. *)
Definition wrap_op (t : ity) (op : binop) (a b : Z) : out value :=
  match op with
  | Add => Done (VWrap t ((a + b) mod ity_size t))
  | Sub => Done (VWrap t ((a - b) mod ity_size t))
  | Mul => Done (VWrap t ((a * b) mod ity_size t))
  | Rem => if b =? 0 then Panics else Done (VWrap t (a mod b))
  | Eq => Done (VBool (a =? b))
  | _ => Stuck
  end.

(** Element-wise equality of two arrays of integers. *)
Fixpoint ints_eqb (a b : list value) : out bool :=
  match a, b with
  | [], [] => Done true
  | VInt t x :: a', VInt u y :: b' =>
      if ity_eqb t u then if x =? y then ints_eqb a' b' else Done false else Stuck
  | [], _ :: _ | _ :: _, [] => Done false
  | _, _ => Stuck
  end.

Definition bin_op (op : binop) (va vb : value) : out value :=
  match va, vb with
  | VInt t a, VInt u b =>
      match op with
      | Shl => checked (b <? ity_bits t) (VInt t (Z.shiftl a b mod ity_size t))
      | Shr => checked (b <? ity_bits t) (VInt t (Z.shiftr a b))
      | _ => if ity_eqb t u then int_op t op a b else Stuck
      end
  | VWrap t a, VInt Usize b =>
      match op with
      | Shl => Done (VWrap t (Z.shiftl a (b mod ity_bits t) mod ity_size t))
      | _ => Stuck
      end
  | VWrap t a, VWrap u b => if ity_eqb t u then wrap_op t op a b else Stuck
  | VList a, VList b => match op with Eq => obind (ints_eqb a b) (fun r => Done (VBool r)) | _ => Stuck end
  | VBool a, VBool b => match op with Eq => Done (VBool (Bool.eqb a b)) | _ => Stuck end
  | VCon c a, VCon d b =>                              (* [Option] of an integer *)
      if ((String.eqb c "Some" || String.eqb c "None") && (String.eqb d "Some" || String.eqb d "None"))%bool then
        match op with
        | Eq => obind (ints_eqb a b) (fun r => Done (VBool r))
        | Ne => obind (ints_eqb a b) (fun r => Done (VBool (negb r)))
        | _ => Stuck
        end
      else Stuck
  | _, _ => Stuck
  end.

(** [a.rotate_left(n)] on [u32]. *)
Definition rotl32 (x n : Z) : Z :=
  Z.lor (Z.shiftl x (n mod 32)) (Z.shiftr x (32 - n mod 32)) mod ity_size U32.

(** [b.wrapping_pow(e)] on [u64]. *)
Fixpoint wpow64 (b : Z) (e : nat) : Z :=
  match e with
  | O => 1
  | S e' => (b * wpow64 b e') mod ity_size U64
  end.

Definition of_bool (t : ity) (ok : bool) (z : Z) : value :=
  if ok then VCon "Ok" [VInt t z] else VCon "Err" [].

Definition prim_op (p : prim) (args : list value) : out value :=
  match p, args with
  | Plen, [VList l] => Done (VInt Usize (Z.of_nat (length l)))
  | Pis_empty, [VList l] => Done (VBool (match l with [] => true | _ => false end))
  | Psaturating_sub, [VInt t a; VInt u b] => if ity_eqb t u then Done (VInt t (Z.max 0 (a - b))) else Stuck
  | Pmin, [VInt t a; VInt u b] => if ity_eqb t u then Done (VInt t (Z.min a b)) else Stuck
  | Protate_left, [VInt U32 x; VInt U32 n] => Done (VInt U32 (rotl32 x n))
  | Pleading_zeros, [VInt U32 x] => Done (VInt U32 (if x =? 0 then 32 else 31 - Z.log2 x))
  | Pwrapping_pow, [VInt U64 b; VInt U32 e] => Done (VInt U64 (wpow64 b (Z.to_nat e)))
  | Ptry_into t, [VInt _ z] => Done (of_bool t (z <? ity_size t) z)
  | Punwrap, [VCon c vs] =>
      match vs with
      | [v] => Done v        (* Some(v), Ok(v) *)
      | _ => Panics          (* None, Err(_) *)
      end
  | Pclone, [v] => Done v
  | Prepeat, [v; VInt Usize n] => Done (VList (repeat v (Z.to_nat n)))
  | Pwith_capacity, [VInt Usize n] => Done (VList [])
  | Pstart_bound, [VCon c [a; b]] =>
      if String.eqb c "," then Done a
      else if String.eqb c ".." then Done (VCon "Included" [a])
      else if String.eqb c "..=" then Done (VCon "Included" [a]) else Stuck
  | Pstart_bound, [VCon c [a]] =>
      if String.eqb c "a.." then Done (VCon "Included" [a])
      else if String.eqb c "..b" then Done (VCon "Unbounded" [])
      else if String.eqb c "..=b" then Done (VCon "Unbounded" []) else Stuck
  | Pstart_bound, [VCon c []] => if String.eqb c ".." then Done (VCon "Unbounded" []) else Stuck
  | Pend_bound, [VCon c [a; b]] =>
      if String.eqb c "," then Done b
      else if String.eqb c ".." then Done (VCon "Excluded" [b])
      else if String.eqb c "..=" then Done (VCon "Included" [b]) else Stuck
  | Pend_bound, [VCon c [b]] =>
      if String.eqb c "a.." then Done (VCon "Unbounded" [])
      else if String.eqb c "..b" then Done (VCon "Excluded" [b])
      else if String.eqb c "..=b" then Done (VCon "Included" [b]) else Stuck
  | Pend_bound, [VCon c []] => if String.eqb c ".." then Done (VCon "Unbounded" []) else Stuck
  | Psplit_at, [VList l; VInt Usize n] =>
      checked (n <=? Z.of_nat (length l)) (VPair (VList (firstn (Z.to_nat n) l)) (VList (skipn (Z.to_nat n) l)))
  | Passert, [VBool b] => checked b VUnit
  | _, _ => Stuck
  end.

(** The new receiver and the value returned. *)
Definition mutprim_op (p : mutprim) (recv : value) (args : list value) : out (value * value) :=
  match p, recv, args with
  | Mpop_front, VList l, [] =>
      match l with
      | [] => Done (VList [], VNone)
      | v :: r => Done (VList r, VSome v)
      end
  | Mpush_back, VList l, [v] => Done (VList (l ++ [v]), VUnit)
  | Mclear, VList l, [] => Done (VList [], VUnit)
  | _, _, _ => Stuck
  end.

(** ** Places *)

Fixpoint assoc (fs : list (string * value)) (f : string) : out value :=
  match fs with
  | [] => Stuck
  | (g, v) :: r => if String.eqb f g then Done v else assoc r f
  end.

Fixpoint assoc_set (fs : list (string * value)) (f : string) (v : value) : out (list (string * value)) :=
  match fs with
  | [] => Stuck
  | (g, w) :: r =>
      if String.eqb f g then Done ((g, v) :: r)
      else obind (assoc_set r f v) (fun r' => Done ((g, w) :: r'))
  end.

(** [v.f]; [Wrapping(x).0] is [x]. *)
Definition get_field (v : value) (f : string) : out value :=
  match v with
  | VStruct _ fs => assoc fs f
  | VWrap t z => if String.eqb f "0" then Done (VInt t z) else Stuck
  | _ => Stuck
  end.

Definition set_field (v : value) (f : string) (w : value) : out value :=
  match v with
  | VStruct n fs => obind (assoc_set fs f w) (fun fs' => Done (VStruct n fs'))
  | VWrap t _ =>
      match w with
      | VInt u z => if String.eqb f "0" then if ity_eqb t u then Done (VWrap t z) else Stuck else Stuck
      | _ => Stuck
      end
  | _ => Stuck
  end.

(** [v[i]] and [v[i] = w]: bounds-checked. *)
Definition get_index (v i : value) : out value :=
  match v, i with
  | VList l, VInt Usize z => match nth_error l (Z.to_nat z) with Some w => Done w | None => Panics end
  | _, _ => Stuck
  end.

Definition set_index (v i w : value) : out value :=
  match v, i with
  | VList l, VInt Usize z => checked (z <? Z.of_nat (length l)) (VList (set_nth l (Z.to_nat z) w))
  | _, _ => Stuck
  end.

Definition get_slice (v lo hi : value) : out value :=
  match v, lo, hi with
  | VList l, VInt Usize a, VInt Usize b =>
      checked ((a <=? b) && (b <=? Z.of_nat (length l)))
        (VList (firstn (Z.to_nat b - Z.to_nat a) (skipn (Z.to_nat a) l)))
  | _, _, _ => Stuck
  end.

Definition len_of (v : value) : out value :=
  match v with VList l => Done (VInt Usize (Z.of_nat (length l))) | _ => Stuck end.

(** [v[lo..hi].copy_from_slice(src)]: the lengths must agree. *)
Definition copy_slice (v lo hi src : value) : out value :=
  match v, lo, hi, src with
  | VList l, VInt Usize a, VInt Usize b, VList s =>
      checked ((a <=? b) && (b <=? Z.of_nat (length l)) && (Z.of_nat (length s) =? b - a))
        (VList (firstn (Z.to_nat a) l ++ s ++ skipn (Z.to_nat b) l))
  | _, _, _, _ => Stuck
  end.

Definition cast (t : ity) (v : value) : out value :=
  match v with VInt _ z => Done (VInt t (z mod ity_size t)) | _ => Stuck end.

(** ** Evaluation *)

Definition env : Type := list (string * value).

(** How an expression ends: with a value, with [return v], or with [break]. *)
Inductive flow : Type :=
| Value (v : value)
| Returning (v : value)
| Breaking.

Definition andthen (m : out (env * flow)) (k : env -> value -> out (env * flow)) : out (env * flow) :=
  match m with
  | Done (rho, Value v) => k rho v
  | Done (rho, Returning v) => Done (rho, Returning v)
  | Done (rho, Breaking) => Done (rho, Breaking)
  | Panics => Panics
  | Stuck => Stuck
  | NoFuel => NoFuel
  end.

Definition pure_then {A} (m : out A) (k : A -> out (env * flow)) : out (env * flow) :=
  match m with
  | Done a => k a
  | Panics => Panics
  | Stuck => Stuck
  | NoFuel => NoFuel
  end.

Definition ret (rho : env) (m : out value) : out (env * flow) :=
  match m with
  | Done v => Done (rho, Value v)
  | Panics => Panics
  | Stuck => Stuck
  | NoFuel => NoFuel
  end.

(** Lists of names and values (short, unlike the slices a program works on). *)
Fixpoint firsts {A B} (l : list (A * B)) : list A := match l with [] => [] | (a, _) :: r => a :: firsts r end.
Fixpoint seconds {A B} (l : list (A * B)) : list B := match l with [] => [] | (_, b) :: r => b :: seconds r end.
Fixpoint zip {A B} (l : list A) (m : list B) : list (A * B) :=
  match l, m with a :: l', b :: m' => (a, b) :: zip l' m' | _, _ => [] end.
Fixpoint env_app (a b : env) : env := match a with [] => b | x :: a' => x :: env_app a' b end.
Fixpoint env_length (a : env) : nat := match a with [] => O | _ :: a' => S (env_length a') end.
(** Keep the last [k] bindings, given that there are [n]. *)
Fixpoint env_keep (n k : nat) (a : env) : env :=
  match a with
  | [] => []
  | x :: a' => if Nat.leb n k then x :: a' else match n with O => [] | S n' => env_keep n' k a' end
  end.
Fixpoint arrange (decl : list string) (fs : list (string * value)) : out (list (string * value)) :=
  match decl with
  | [] => Done []
  | f :: r => obind (assoc fs f) (fun v => obind (arrange r fs) (fun l => Done ((f, v) :: l)))
  end.

(** Expressions of a list, left to right. *)
Fixpoint evals (ev : env -> expr -> out (env * flow)) (rho : env) (es : list expr)
  (k : env -> list value -> out (env * flow)) : out (env * flow) :=
  match es with
  | [] => k rho []
  | e :: r => andthen (ev rho e) (fun rho v => evals ev rho r (fun rho vs => k rho (v :: vs)))
  end.

(** Statements of a block; the value is that of the last one. *)
Fixpoint seq (ev : env -> expr -> out (env * flow)) (rho : env) (es : list expr) : out (env * flow) :=
  match es with
  | [] => Done (rho, Value VUnit)
  | [e] => ev rho e
  | e :: r => andthen (ev rho e) (fun rho _ => seq ev rho r)
  end.

(** Run [k] with extra bindings in front; all bindings made inside are dropped at the end. *)
Definition scoped (bs rho : env) (k : env -> out (env * flow)) : out (env * flow) :=
  match k (env_app bs rho) with
  | Done (rho', f) => Done (env_keep (env_length rho') (env_length rho) rho', f)
  | Panics => Panics
  | Stuck => Stuck
  | NoFuel => NoFuel
  end.

(** [place = v]. *)
Fixpoint assign (ev : env -> expr -> out (env * flow)) (rho : env) (place : expr) (v : value) : out env :=
  match place with
  | Var x => assoc_set rho x v
  | Field p f =>
      match ev rho p with
      | Done (_, Value old) => obind (set_field old f v) (fun new => assign ev rho p new)
      | Panics => Panics | NoFuel => NoFuel | _ => Stuck
      end
  | Index p i =>
      match ev rho p with
      | Done (_, Value old) =>
          match ev rho i with
          | Done (_, Value vi) => obind (set_index old vi v) (fun new => assign ev rho p new)
          | Panics => Panics | NoFuel => NoFuel | _ => Stuck
          end
      | Panics => Panics | NoFuel => NoFuel | _ => Stuck
      end
  | _ => Stuck
  end.

(** After a call: copy the final values of the [&mut] parameters back into the places that were passed. *)
Fixpoint write_back (ev : env -> expr -> out (env * flow)) (rho : env) (params : list (string * bool))
  (args : list expr) (finals : list value) : out env :=
  match params, args, finals with
  | [], [], [] => Done rho
  | (_, true) :: ps, a :: args', v :: vs => obind (assign ev rho a v) (fun rho' => write_back ev rho' ps args' vs)
  | (_, false) :: ps, _ :: args', _ :: vs => write_back ev rho ps args' vs
  | _, _, _ => Stuck
  end.

Fixpoint bind_params (params : list (string * bool)) (vs : list value) : out env :=
  match params, vs with
  | [], [] => Done []
  | (x, _) :: ps, v :: vs' => obind (bind_params ps vs') (fun rho => Done ((x, v) :: rho))
  | _, _ => Stuck
  end.

(** [match v { arms }]: the first arm whose constructor is that of [v]. *)
Fixpoint select (v : value) (arms : list (pat * expr)) : out (env * expr) :=
  match arms with
  | [] => Stuck
  | (PWild, e) :: _ => Done ([], e)
  | (PCon c xs, e) :: r =>
      match v with
      | VCon c' vs => if String.eqb c c' then Done (zip xs vs, e) else select v r
      | _ => Stuck
      end
  end.

Fixpoint iter_enum (body : env -> Z -> value -> out (env * flow)) (i : Z) (l : list value) (rho : env)
  : out (env * flow) :=
  match l with
  | [] => Done (rho, Value VUnit)
  | v :: r =>
      match body rho i v with
      | Done (rho', Value _) => iter_enum body (i + 1) r rho'
      | Done (rho', Returning v) => Done (rho', Returning v)
      | Done (rho', Breaking) => Done (rho', Value VUnit)
      | Panics => Panics
      | Stuck => Stuck
      | NoFuel => NoFuel
      end
  end.

Fixpoint iter_range (body : env -> Z -> out (env * flow)) (lo : Z) (n : nat) (rho : env) : out (env * flow) :=
  match n with
  | O => Done (rho, Value VUnit)
  | S n' =>
      match body rho lo with
      | Done (rho', Value _) => iter_range body (lo + 1) n' rho'
      | Done (rho', Returning v) => Done (rho', Returning v)
      | Done (rho', Breaking) => Done (rho', Value VUnit)
      | Panics => Panics
      | Stuck => Stuck
      | NoFuel => NoFuel
      end
  end.

Fixpoint iter_loop (n : nat) (body : env -> out (env * flow)) (rho : env) : out (env * flow) :=
  match n with
  | O => NoFuel
  | S n' =>
      match body rho with
      | Done (rho', Value _) => iter_loop n' body rho'
      | Done (rho', Returning v) => Done (rho', Returning v)
      | Done (rho', Breaking) => Done (rho', Value VUnit)
      | Panics => Panics
      | Stuck => Stuck
      | NoFuel => NoFuel
      end
  end.

(** What a function name stands for: a function of the crate, or one given from outside (a constant table, a method
    of a type the caller supplies), which maps arguments to their final values and the value returned. *)
Inductive code : Type :=
| Source (f : fn)
| Given (params : list (string * bool)) (f : list value -> out (list value * value)).

Definition program : Type := string -> option code.

(** The name under which a method of [v] is found: the type of a struct, or ["R"] (for the blanket
    [impl<T, R: RangeBounds<T>> RangeExt<T> for R]) for ranges and tuples. *)
Definition type_of (v : value) : string :=
  match v with
  | VStruct n _ => n
  | _ => "R"
  end.

(** The call [f(vs)], given how to evaluate the body: the final values of all parameters, and the value returned. *)
Definition call_with (prog : program) (ev : env -> expr -> out (env * flow)) (f : string) (vs : list value)
  : out (list value * value) :=
  match prog f with
  | None => Stuck
  | Some (Given _ g) => g vs
  | Some (Source g) =>
      obind (bind_params (fn_params g) vs) (fun rho0 =>
      match ev rho0 (fn_body g) with
      | Done (rho1, Value v) => Done (seconds rho1, v)
      | Done (rho1, Returning v) => Done (seconds rho1, v)
      | Done (_, Breaking) => Stuck
      | Panics => Panics
      | Stuck => Stuck
      | NoFuel => NoFuel
      end)
  end.

Definition params_of (prog : program) (f : string) : list (string * bool) :=
  match prog f with
  | None => []
  | Some (Given ps _) => ps
  | Some (Source g) => fn_params g
  end.

(** The fuel for a subterm.  Both are just [n]; they are written this way so that the proofs can run [eval] step by
    step without unfolding what is still to come. *)
Definition gate (rho : env) (n : nat) : nat := match rho with [] => n | _ :: _ => n end.
Definition lock (n : nat) : nat := n.

Fixpoint eval (prog : program) (n : nat) (rho : env) (e : expr) {struct n} : out (env * flow) :=
  match n with
  | O => NoFuel
  | S n' =>
      let ev := fun rho e => eval prog (gate rho n') rho e in
      let body_ev := eval prog (lock n') in
      let apply f rho args vs :=
        pure_then (call_with prog body_ev f vs) (fun '(finals, v) =>
        pure_then (write_back ev rho (params_of prog f) args finals) (fun rho' => Done (rho', Value v))) in
      match e with
      | Lit t z => Done (rho, Value (VInt t z))
      | BoolLit b => Done (rho, Value (VBool b))
      | Var x => ret rho (assoc rho x)
      | Field e f => andthen (ev rho e) (fun rho v => ret rho (get_field v f))
      | Index e i => andthen (ev rho e) (fun rho v => andthen (ev rho i) (fun rho vi => ret rho (get_index v vi)))
      | Slice e lo hi =>
          andthen (ev rho e) (fun rho v =>
          andthen (ev rho lo) (fun rho a =>
          andthen (ev rho hi) (fun rho b => ret rho (get_slice v a b))))
      | SliceFrom e lo =>
          andthen (ev rho e) (fun rho v =>
          andthen (ev rho lo) (fun rho a => ret rho (obind (len_of v) (fun b => get_slice v a b))))
      | SliceTo e hi =>
          andthen (ev rho e) (fun rho v =>
          andthen (ev rho hi) (fun rho b => ret rho (get_slice v (VInt Usize 0) b)))
      | Wrapping e =>
          andthen (ev rho e) (fun rho v => match v with VInt t z => Done (rho, Value (VWrap t z)) | _ => Stuck end)
      | Cast t e => andthen (ev rho e) (fun rho v => ret rho (cast t v))
      | Bin op a b => andthen (ev rho a) (fun rho va => andthen (ev rho b) (fun rho vb => ret rho (bin_op op va vb)))
      | Not e => andthen (ev rho e) (fun rho v => match v with VBool b => Done (rho, Value (VBool (negb b))) | _ => Stuck end)
      | And a b =>
          andthen (ev rho a) (fun rho v =>
          match v with VBool c => if c then ev rho b else Done (rho, Value (VBool false)) | _ => Stuck end)
      | Or a b =>
          andthen (ev rho a) (fun rho v =>
          match v with VBool c => if c then Done (rho, Value (VBool true)) else ev rho b | _ => Stuck end)
      | StructLit name decl fs =>
          evals ev rho (seconds fs) (fun rho vs =>
          pure_then (arrange decl (zip (firsts fs) vs)) (fun fs' => Done (rho, Value (VStruct name fs'))))
      | Con c es => evals ev rho es (fun rho vs => Done (rho, Value (VCon c vs)))
      | ListLit es => evals ev rho es (fun rho vs => Done (rho, Value (VList vs)))
      | Call f args => evals ev rho args (fun rho vs => apply f rho args vs)
      | Method m args =>
          evals ev rho args (fun rho vs =>
          match vs with
          | [] => Stuck
          | v :: _ => apply (append (type_of v) (append "::" m)) rho args vs
          end)
      | Prim p args => evals ev rho args (fun rho vs => ret rho (prim_op p vs))
      | MutPrim p place args =>
          andthen (ev rho place) (fun rho v =>
          evals ev rho args (fun rho vs =>
          pure_then (mutprim_op p v vs) (fun '(v', r) =>
          pure_then (assign ev rho place v') (fun rho' => Done (rho', Value r)))))
      | CopyFromSlice place lo hi src =>
          andthen (ev rho place) (fun rho v =>
          andthen (ev rho lo) (fun rho a =>
          andthen (ev rho hi) (fun rho b =>
          andthen (ev rho src) (fun rho s =>
          pure_then (copy_slice v a b s) (fun v' =>
          pure_then (assign ev rho place v') (fun rho' => Done (rho', Value VUnit)))))))
      | Swap p q =>
          andthen (ev rho p) (fun rho a =>
          andthen (ev rho q) (fun rho b =>
          pure_then (assign ev rho p b) (fun rho =>
          pure_then (assign ev rho q a) (fun rho => Done (rho, Value VUnit)))))
      | Let x e => andthen (ev rho e) (fun rho v => Done ((x, v) :: rho, Value VUnit))
      | LetPair x y e =>
          andthen (ev rho e) (fun rho v =>
          match v with VCon _ [a; b] => Done ((y, b) :: (x, a) :: rho, Value VUnit) | _ => Stuck end)
      | Assign place e =>
          andthen (ev rho e) (fun rho v => pure_then (assign ev rho place v) (fun rho' => Done (rho', Value VUnit)))
      | OpAssign op place e =>
          andthen (ev rho e) (fun rho v =>
          andthen (ev rho place) (fun rho old =>
          pure_then (bin_op op old v) (fun new =>
          pure_then (assign ev rho place new) (fun rho' => Done (rho', Value VUnit)))))
      | Block es => scoped [] rho (fun rho => seq ev rho es)
      | If c t f =>
          andthen (ev rho c) (fun rho v =>
          match v with VBool b => if b then ev rho t else ev rho f | _ => Stuck end)
      | Match e arms =>
          andthen (ev rho e) (fun rho v =>
          pure_then (select v arms) (fun '(bs, e') => scoped bs rho (fun rho => ev rho e')))
      | ForRange x lo hi body =>
          andthen (ev rho lo) (fun rho a =>
          andthen (ev rho hi) (fun rho b =>
          match a, b with
          | VInt Usize a, VInt Usize b =>
              iter_range (fun rho i => scoped [(x, VInt Usize i)] rho (fun rho => body_ev rho body)) a
                (Z.to_nat b - Z.to_nat a) rho
          | _, _ => Stuck
          end))
      | ForEnum i v e body =>
          andthen (ev rho e) (fun rho l =>
          match l with
          | VList l =>
              iter_enum (fun rho iz vv => scoped [(v, vv); (i, VInt Usize iz)] rho (fun rho => body_ev rho body)) 0 l rho
          | _ => Stuck
          end)
      | ForIn v e body =>
          andthen (ev rho e) (fun rho l =>
          match l with
          | VList l => iter_enum (fun rho _ vv => scoped [(v, vv)] rho (fun rho => body_ev rho body)) 0 l rho
          | _ => Stuck
          end)
      | Loop body => iter_loop n' (fun rho => body_ev rho body) rho
      | Break => Done (rho, Breaking)
      | Return e => andthen (ev rho e) (fun rho v => Done (rho, Returning v))
      end
  end.

(** The call [f(vs)], with recursion depth and number of rounds of each [loop] bounded by [n]. *)
Notation call prog n f vs := (call_with prog (eval prog (lock n)) f vs).
