(** * RustElab: from the syntax of Rust to the terms of [Rust.v].

    What the syntax leaves open is filled in by type inference: the type of a literal, the target of [.into()],
    [.try_into()] and [Default::default()].  References are dropped, methods of the standard library become primitives,
    everything else keeps the shape it has in the source.

    Inference works on one function at a time: a first pass collects equations between types and leaves behind, for every
    expression, how to write its term once the equations are solved. *)

From Coq Require Import String Ascii.
From Verif Require Import Base Rust RustLex RustParse.
Open Scope list_scope.
Open Scope string_scope.

(** Type inference succeeded, or the function is not in the part of the language that is covered. *)
Inductive inferred (A : Type) : Type :=
| Fine (a : A)
| Unknown (why : string).
Arguments Fine {A} a.
Arguments Unknown {A} why.

Notation "'try' x <- e ; k" := (match e with Fine x => k | Unknown w => Unknown w end)
  (at level 200, x pattern, e at level 100, k at level 200).

(** ** What the items say *)

Record crate_items : Type := {
  ci_structs : list (string * list (string * ty));
  ci_consts : list (string * ty);
  ci_fns : list sfn;
  ci_derived : list string;         (* structures with a derived [Default] *)
  ci_params : list string }.        (* names of type parameters of structures and blanket [impl]s *)

Record context : Type := {
  cx_items : crate_items;
  cx_fn : sfn;
  cx_i32 : bool;                    (* literals without any constraint are allowed (they count a few rounds of a test) *)
  cx_chain : nat }.                 (* how long a chain of equations may be *)

Definition self_type (cx : context) : ty := match sfn_impl (cx_fn cx) with Some (_, t, _) => t | None => TyUnit end.

(** ** Equations between types *)

Record state : Type := { solved : list (N * ty); unused : N }.
Definition start_state : state := {| solved := []; unused := 0 |}.

Definition fresh (s : state) : ty * state := (TyVar (unused s), {| solved := solved s; unused := N.succ (unused s) |}).
Definition solve (v : N) (t : ty) (s : state) : state := {| solved := (v, t) :: solved s; unused := unused s |}.
Fixpoint solution (l : list (N * ty)) (v : N) : option ty :=
  match l with [] => None | (w, t) :: r => if N.eqb v w then Some t else solution r v end.

Fixpoint ty_eqb (a b : ty) {struct a} : bool :=
  match a, b with
  | TyInt t, TyInt u => ity_eqb t u
  | TyBool, TyBool | TyF64, TyF64 | TyNever, TyNever => true
  | TyWrap t, TyWrap u | TyRef t, TyRef u | TyList t, TyList u | TyFrom t, TyFrom u => ty_eqb t u
  | TyStruct x, TyStruct y | TyAssoc x, TyAssoc y => String.eqb x y
  | TyCon x ts, TyCon y us =>
      (String.eqb x y && (fix all (ts us : list ty) : bool :=
         match ts, us with
         | [], [] => true
         | t :: ts', u :: us' => (ty_eqb t u && all ts' us')%bool
         | _, _ => false
         end) ts us)%bool
  | TyVar v, TyVar w => N.eqb v w
  | _, _ => false
  end.

Section Context.
Variable cx : context.
Let ci : crate_items := cx_items cx.
Let chain : nat := cx_chain cx.

(** The outermost shape of a type, as far as it is known. *)
Fixpoint shape (n : nat) (s : state) (t : ty) : ty :=
  match n with
  | O => t
  | S n' =>
      match t with
      | TyVar v => match solution (solved s) v with Some t' => shape n' s t' | None => t end
      | TyAssoc x => match find (sfn_assoc (cx_fn cx)) x with Some t' => shape n' s t' | None => t end
      | TyStruct x => if String.eqb x "Self" then match sfn_impl (cx_fn cx) with Some (_, TyStruct y, _) => if String.eqb y "Self" then t else shape n' s (TyStruct y) | Some (_, t', _) => t' | None => t end else t
      | _ => t
      end
  end.
Definition res (s : state) (t : ty) : ty := shape chain s t.

(** The type behind all references. *)
Fixpoint strip_refs (n : nat) (s : state) (t : ty) : ty :=
  match n with
  | O => t
  | S n' => match res s t with TyRef t' => strip_refs n' s t' | t' => t' end
  end.
Definition strip (s : state) (t : ty) : ty := strip_refs chain s t.

Definition is_struct_in (l : list string) (t : ty) : bool := match t with TyStruct x => mem l x | _ => false end.

Fixpoint unify_at (n : nat) (a b : ty) (s : state) {struct n} : inferred state :=
  match n with
  | O => Unknown "fuel"
  | S n' =>
      let a := res s a in
      let b := res s b in
      let all := fix all (ts us : list ty) (s : state) : inferred state :=
        match ts, us with
        | t :: ts', u :: us' => try s <- unify_at n' t u s; all ts' us' s
        | _, _ => Fine s
        end in
      let bounds := fix bounds (x : ty) (us : list ty) (s : state) : inferred state :=
        match us with
        | [] => Fine s
        | u :: us' => try s <- unify_at n' x (match u with TyCon _ (u' :: _) => u' | _ => u end) s; bounds x us' s
        end in
      let param := (is_struct_in (sfn_gs (cx_fn cx)) a || is_struct_in (sfn_gs (cx_fn cx)) b)%bool in
      let otherwise := if param then Fine s else Unknown "types differ" in
      if ty_eqb a b then Fine s
      else match a, b with
      | TyVar v, _ => Fine (solve v b s)
      | _, TyVar v => Fine (solve v a s)
      | TyRef _, _ | _, TyRef _ => unify_at n' (strip s a) (strip s b) s
      | TyNever, _ | _, TyNever => Fine s
      | TyList t, TyList u | TyWrap t, TyWrap u => unify_at n' t u s
      | TyCon x ts, TyCon y us =>
          if String.eqb x "Ranges" then bounds (List.hd TyUnit ts) us s
          else if String.eqb y "Ranges" then bounds (List.hd TyUnit us) ts s
          else if (String.eqb x y && Nat.eqb (length ts) (length us))%bool then all ts us s
          else otherwise
      | _, _ => otherwise
      end
  end.
Definition unify (a b : ty) (s : state) : inferred state := unify_at chain a b s.

(** ** Functions of the crate *)

Definition owner_name (t : ty) : option string := match t with TyStruct x | TyCon x _ => Some x | _ => None end.
Definition owned_by (x : string) (g : sfn) : bool :=
  match sfn_impl g with
  | Some (_, t, _) => match owner_name t with Some y => String.eqb x y | None => false end
  | None => false
  end.
Definition named (x : string) (g : sfn) : bool := String.eqb x (sfn_name g).
Definition takes_self (g : sfn) : bool := match sfn_params g with (PVar x, _, _) :: _ => String.eqb x "self" | _ => false end.

(** A type in the signature of [g], seen from outside. *)
Fixpoint instance (n : nat) (g : sfn) (t : ty) (s : state) {struct n} : ty * state :=
  match n with
  | O => (t, s)
  | S n' =>
      match t with
      | TyAssoc x => match find (sfn_assoc g) x with Some t' => instance n' g t' s | None => (t, s) end
      | TyStruct x =>
          if String.eqb x "Self" then (match sfn_impl g with Some (_, t', _) => t' | None => t end, s)
          else if mem (sfn_gs g) x then fresh s else (t, s)
      | TyRef u => let (u', s) := instance n' g u s in (TyRef u', s)
      | TyList u => let (u', s) := instance n' g u s in (TyList u', s)
      | TyWrap u => let (u', s) := instance n' g u s in (TyWrap u', s)
      | TyCon x us =>
          let fix each (us : list ty) (s : state) : list ty * state :=
            match us with [] => ([], s) | u :: r => let (u', s) := instance n' g u s in let (r', s) := each r s in (u' :: r', s) end in
          let (us', s) := each us s in (TyCon x us', s)
      | _ => (t, s)
      end
  end.
Fixpoint instances (g : sfn) (ps : list (spat * ty * bool)) (s : state) : list ty * state :=
  match ps with
  | [] => ([], s)
  | (_, t, _) :: r => let (t', s) := instance chain g t s in let (r', s) := instances g r s in (t' :: r', s)
  end.
Definition signature (g : sfn) (s : state) : list ty * ty * state :=
  let (ps, s) := instances g (sfn_params g) s in let (r, s) := instance chain g (sfn_ret g) s in (ps, r, s).

(** The type of a field, with type parameters left open. *)
Fixpoint open_params (t : ty) (s : state) : ty * state :=
  match t with
  | TyStruct x => if mem (ci_params ci) x then fresh s else (t, s)
  | TyRef u => let (u', s) := open_params u s in (TyRef u', s)
  | TyList u => let (u', s) := open_params u s in (TyList u', s)
  | TyWrap u => let (u', s) := open_params u s in (TyWrap u', s)
  | _ => (t, s)
  end.

(** ** Terms, to be written when all types are known *)

Definition later : Type := state -> inferred expr.

Definition now (e : expr) : later := fun _ => Fine e.
Definition with1 (f : expr -> expr) (k : later) : later := fun s => try a <- k s; Fine (f a).
Definition with2 (f : expr -> expr -> expr) (k l : later) : later := fun s => try a <- k s; try b <- l s; Fine (f a b).
Definition with3 (f : expr -> expr -> expr -> expr) (k l m : later) : later := fun s => try a <- k s; try b <- l s; try c <- m s; Fine (f a b c).
Fixpoint with_all (ks : list later) (s : state) : inferred (list expr) :=
  match ks with [] => Fine [] | k :: r => try a <- k s; try l <- with_all r s; Fine (a :: l) end.
Definition with_list (f : list expr -> expr) (ks : list later) : later := fun s => try l <- with_all ks s; Fine (f l).

Definition int_type (s : state) (t : ty) : inferred ity :=
  match strip s t with
  | TyInt i => Fine i
  | TyVar v => match solution (solved s) v with None => if cx_i32 cx then Fine U32 else Unknown "integer type" | Some _ => Unknown "chain" end
  | _ => Unknown "integer type"
  end.

Definition unit_expr : expr := Con "()" [].

Fixpoint type_name (n : nat) (s : state) (t : ty) : inferred string :=
  match n with
  | O => Unknown "fuel"
  | S n' =>
      match res s t with
      | TyRef u => try x <- type_name n' s u; Fine ("&" ++ x)
      | TyStruct x => Fine x
      | TyList _ => Fine "[]"
      | TyCon _ _ => Fine "(..)"
      | _ => Unknown "type name"
      end
  end.

Definition default_call (t : ty) : later := fun s =>
  match strip s t with TyStruct x => Fine (Call (x ++ "::default") []) | _ => Unknown "default" end.
(** [B::from(a)] where [a : A] *)
Definition from_call (a b : ty) (k : later) : later := fun s =>
  match strip s b with
  | TyStruct y => try x <- type_name chain s a; try e <- k s; Fine (Call (y ++ "::from<" ++ x ++ ">") [e])
  | _ => Unknown "into"
  end.

Definition ops : list (string * binop) :=
  [("+", Add); ("-", Sub); ("*", Mul); ("/", Div); ("%", Rem); ("<<", Shl); (">>", Shr); ("&", BitAnd); ("|", BitOr); ("^", BitXor);
   ("<", Lt); ("<=", Le); (">", Gt); (">=", Ge); ("==", Eq); ("!=", Ne)].
Definition compares (o : string) : bool := mem ["<"; "<="; ">"; ">="; "=="; "!="] o.

(** Is there a [break] that ends the loop with this body? *)
Fixpoint leaves (e : sx) : bool :=
  let some (o : option sx) := match o with Some e => leaves e | None => false end in
  match e with
  | SBreak => true
  | SLit _ _ | SFloat _ | SBool _ | SStr _ | SUnit | SPath _ | SLoop _ => false
  | SRef e | SDeref e | SNot e | SField e _ | SCast e _ | SReturn e | SLet _ _ e | SFor _ e _ | SClosure _ e => leaves e
  | SIndex a b | SBin _ a b | SRepeat a b | SAssign a b | SOpAssign _ a b => (leaves a || leaves b)%bool
  | SRange a b => (some a || some b)%bool
  | STuple es | SArray es | SCall _ _ es | SMacro _ es | SBlock es => existsb leaves es
  | SStruct _ fs => existsb (fun p => leaves (snd p)) fs
  | SMethod e _ es => (leaves e || existsb leaves es)%bool
  | SIf c a b => (leaves c || leaves a || some b)%bool
  | SMatch e arms => (leaves e || existsb (fun p => leaves (snd p)) arms)%bool
  end.

Definition environment : Type := list (string * ty).

Definition struct_name (p : list string) : inferred string :=
  let x := List.last p "" in
  if String.eqb x "Self" then match self_type cx with TyStruct y => Fine y | _ => Unknown "Self" end else Fine x.

Definition usize : ty := TyInt Usize.
Definition bytes_ty : ty := TyList (TyInt U8).
Definition option_ty (t : ty) : ty := TyCon "Option" [t].
Definition bound_ty (t : ty) : ty := TyCon "Bound" [t].

(** The chain of adaptors of an iterator. *)
Fixpoint iterator (e : sx) : list string * sx :=
  match e with
  | SMethod r m [] => if mem ["iter"; "enumerate"; "cloned"] m then let (l, b) := iterator r in (m :: l, b) else ([], e)
  | _ => ([], e)
  end.

Fixpoint pat_vars (ps : list spat) : inferred (list string) :=
  match ps with
  | [] => Fine []
  | PVar x :: r => try l <- pat_vars r; Fine (x :: l)
  | _ => Unknown "pattern"
  end.

(** [p[lo..hi].copy_from_slice(src)] *)
Definition copies (m : string) (r : sx) (args : list sx) : option (sx * sx * sx * sx) :=
  match r, args with
  | SIndex p (SRange (Some lo) (Some hi)), [src] => if String.eqb m "copy_from_slice" then Some (p, lo, hi, src) else None
  | _, _ => None
  end.
Definition is_none (e : sx) : bool := match e with SPath [x] => String.eqb x "None" | _ => false end.

(** Which function the method [m] of a value of type [t] is. *)
Definition method_sig (m : string) (t : ty) (s : state) : inferred (list ty * ty * state) :=
  let owners := List.filter (fun g => (named m g && match sfn_impl g with Some _ => true | None => false end && takes_self g)%bool) (ci_fns ci) in
  let own := match t with TyStruct x => Some x | _ => None end in
  let among (l : list string) := match own with Some x => mem l x | None => false end in
  let mine := match own with Some x => List.filter (owned_by x) owners | None => [] end in
  let open := (among (sfn_gs (cx_fn cx)) || among (ci_params ci) || among ["Self"]
               || match t with TyCon _ _ | TyAssoc _ => true | _ => false end)%bool in
  let general := List.filter (fun g => match sfn_impl g with Some (_, u, tr) => (tr || is_struct_in (ci_params ci) u)%bool | None => false end) owners in
  let of_trait := if String.eqb m "hash" then Some ([TyInt U8], TyInt U32)          (* BuzHashHash *)
                  else if String.eqb m "push" then Some ([bytes_ty], option_ty usize)   (* ChunkIncr *)
                  else None in
  let chosen := match mine with g :: _ => Some g | [] => if open then List.hd_error owners else List.hd_error general end in
  match (if among (ci_params ci) then of_trait else None), chosen with
  | Some (ps, r), _ => Fine (ps, r, s)
  | None, Some g => match signature g s with (ps, r, s) => Fine (List.tl ps, r, s) end
  | None, None =>
      match mine, open, of_trait with
      | [], _, Some (ps, r) => Fine (ps, r, s)
      | _, _, _ => Unknown ("method " ++ m)
      end
  end.

(** ** The first pass.  [want]: the type the context asks for, if any. *)

Fixpoint infer (n : nat) (env : environment) (want : option ty) (e : sx) (s : state) {struct n} : inferred (ty * later * state) :=
  match n with
  | O => Unknown "fuel"
  | S n' =>
      try (t, k, s) <- infer_any n' env want e s;
      match want with
      | Some w => try s <- unify w t s; Fine (t, k, s)
      | None => Fine (t, k, s)
      end
  end
(** expressions in order; [wants] may be shorter *)
with infer_list (n : nat) (env : environment) (wants : list ty) (es : list sx) (s : state) {struct n} : inferred (list ty * list later * state) :=
  match n with
  | O => Unknown "fuel"
  | S n' =>
      match es with
      | [] => Fine ([], [], s)
      | e :: r =>
          try (t, k, s) <- infer n' env (List.hd_error wants) e s;
          try (ts, ks, s) <- infer_list n' env (List.tl wants) r s;
          Fine (t :: ts, k :: ks, s)
      end
  end
(** the statements of a block: a [let] extends the environment of those after it *)
with infer_block (n : nat) (env : environment) (want : option ty) (t : ty) (es : list sx) (s : state) {struct n} : inferred (ty * list later * state) :=
  match n with
  | O => Unknown "fuel"
  | S n' =>
      match es with
      | [] => Fine (t, [], s)
      | SLet p ot e :: r =>
          try (te, k, s) <- infer n' env ot e s;
          let known := match ot with Some u => u | None => te end in
          match p with
          | PVar x =>
              try (t, ks, s) <- infer_block n' ((x, known) :: env) want TyUnit r s; Fine (t, with1 (Let x) k :: ks, s)
          | PTuple [PVar x; PVar y] =>
              match strip s te with
              | TyCon _ [tx; ty] =>
                  try (t, ks, s) <- infer_block n' ((x, tx) :: (y, ty) :: env) want TyUnit r s; Fine (t, with1 (LetPair x y) k :: ks, s)
              | _ => Unknown "let"
              end
          | _ => Unknown "let"
          end
      | e :: r =>
          let w := match r, e with [], SReturn _ => None | [], _ => want | _, _ => None end in
          try (t, k, s) <- infer n' env w e s;
          try (t, ks, s) <- infer_block n' env want t r s;
          Fine (t, k :: ks, s)
      end
  end
with infer_fields (n : nat) (env : environment) (decl : list (string * ty)) (fs : list (string * sx)) (s : state) {struct n} : inferred (list (string * later) * state) :=
  match n with
  | O => Unknown "fuel"
  | S n' =>
      match fs with
      | [] => Fine ([], s)
      | (f, e) :: r =>
          match find decl f with
          | Some t =>
              let (t, s) := open_params t s in
              try (_, k, s) <- infer n' env (Some t) e s;
              try (l, s) <- infer_fields n' env decl r s; Fine ((f, k) :: l, s)
          | None => Unknown "field"
          end
      end
  end
with infer_arms (n : nat) (env : environment) (scrutinee result : ty) (arms : list (spat * sx)) (s : state) {struct n} : inferred (list (pat * later) * state) :=
  match n with
  | O => Unknown "fuel"
  | S n' =>
      match arms with
      | [] => Fine ([], s)
      | (p, e) :: r =>
          try (p', env') <- match p with
                            | PApp c ps =>
                                try xs <- pat_vars ps;
                                match scrutinee, xs with
                                | _, [] => Fine (PCon c [], env)
                                | TyCon _ (a :: _), _ => Fine (PCon c xs, (List.map (fun x => (x, a)) xs ++ env)%list)
                                | _, _ => Unknown "pattern"
                                end
                            | PVar x => if String.eqb x "_" then Fine (PWild, env) else Unknown "pattern"
                            | _ => Unknown "pattern"
                            end;
          try (t, k, s) <- infer n' env' None e s;
          try s <- match res s t with TyNever => Fine s | _ => unify result t s end;
          try (l, s) <- infer_arms n' env scrutinee result r s; Fine ((p', k) :: l, s)
      end
  end
with infer_call (n : nat) (env : environment) (p : list string) (tas : option (list ty)) (args : list sx) (s : state) {struct n} : inferred (ty * later * state) :=
  match n with
  | O => Unknown "fuel"
  | S n' =>
      let f := List.last p "" in
      let of_crate (x : string) (g : option sfn) :=
        match g with
        | None => Unknown ("call " ++ x)
        | Some g =>
            match signature g s with
            | (ps, r, s) =>
                if Nat.eqb (length ps) (length args) then try (_, ks, s) <- infer_list n' env ps args s; Fine (r, with_list (Call x) ks, s)
                else Unknown "arguments"
            end
        end in
      match p, args with
      | _, [a] =>
          if String.eqb f "Some" then try (t, k, s) <- infer n' env None a s; Fine (option_ty t, with1 (fun e => Con "Some" [e]) k, s)
          else if mem ["Included"; "Excluded"] f then try (t, k, s) <- infer n' env None a s; Fine (bound_ty t, with1 (fun e => Con f [e]) k, s)
          else if String.eqb f "Wrapping" then try (t, k, s) <- infer n' env None a s; Fine (TyWrap t, with1 Wrapping k, s)
          else match p with
          | [x; _] =>
              if (String.eqb x "Box" && String.eqb f "new")%bool then
                try (t, k, s) <- infer n' env None a s; Fine (t, with1 (fun e => Prim Pclone [e]) k, s)
              else if (mem ["Vec"; "VecDeque"] x && String.eqb f "with_capacity")%bool then
                try (_, k, s) <- infer n' env (Some usize) a s; let (u, s) := fresh s in Fine (TyList u, with1 (fun e => Prim Pwith_capacity [e]) k, s)
              else if String.eqb x "Into" then
                match tas with
                | Some (b :: _) => try (t, k, s) <- infer n' env None a s; Fine (b, from_call t b k, s)
                | _ => Unknown "Into"
                end
              else if String.eqb f "from" then
                let (want, s) :=                            (* known if there is but one *)
                  match List.filter (fun g => (named f g && owned_by x g)%bool) (ci_fns ci) with
                  | [g] => match signature g s with ([t], _, s') => (Some t, s') | _ => (None, s) end
                  | _ => (None, s)
                  end in
                try (t, k, s) <- infer n' env want a s; Fine (TyStruct x, from_call t (TyStruct x) k, s)
              else try o <- struct_name [x]; of_crate (o ++ "::" ++ f) (List.find (fun g => (named f g && owned_by o g)%bool) (ci_fns ci))
          | [_] => of_crate f (List.find (fun g => (named f g && match sfn_impl g with None => true | _ => false end)%bool) (ci_fns ci))
          | _ => Unknown "path"
          end
      | _, _ =>
          if mem ["test_data"; "thread_rng"] f then       (* of the tests *)
            try (_, ks, s) <- infer_list n' env [] args s;
            Fine (if String.eqb f "test_data" then bytes_ty else TyStruct "ThreadRng", with_list (Call f) ks, s)
          else if (mem p "Pcg64" && String.eqb f "new")%bool then       (* [Pcg64::new(state: u128, stream: u128)] of rand_pcg *)
            try (_, ks, s) <- infer_list n' env [TyInt U128; TyInt U128] args s; Fine (TyStruct "Pcg64", with_list (Call "Pcg64::new") ks, s)
          else match p, args with
          | _ :: x :: _, [a; b] =>
              if String.eqb f "min" then
                try (t, k, s) <- infer n' env None a s; try (_, l, s) <- infer n' env (Some t) b s;
                Fine (t, with2 (fun e e' => Prim Pmin [e; e']) k l, s)
              else if String.eqb f "swap" then
                try (t, k, s) <- infer n' env None a s; try (_, l, s) <- infer n' env (Some t) b s; Fine (TyUnit, with2 Swap k l, s)
              else match p with
              | [y; _] => try o <- struct_name [y]; of_crate (o ++ "::" ++ f) (List.find (fun g => (named f g && owned_by o g)%bool) (ci_fns ci))
              | _ => Unknown "path"
              end
          | [x; y], [] =>
              if (String.eqb x "Vec" && String.eqb y "new")%bool then let (u, s) := fresh s in Fine (TyList u, now (ListLit []), s)
              else if (String.eqb x "Default" && String.eqb f "default")%bool then let (u, s) := fresh s in Fine (u, default_call u, s)
              else
                try o <- struct_name [x];
                if (String.eqb f "default" && mem (ci_derived ci) o)%bool then Fine (TyStruct o, default_call (TyStruct o), s)
                else of_crate (o ++ "::" ++ f) (List.find (fun g => (named f g && owned_by o g)%bool) (ci_fns ci))
          | [x; y; z], [] =>
              if (String.eqb x "Self" && String.eqb z "default")%bool then
                let t := res s (TyAssoc y) in Fine (t, default_call t, s)
              else if String.eqb x "crate" then of_crate f (List.find (fun g => (named f g && match sfn_impl g with None => true | _ => false end)%bool) (ci_fns ci))
              else try o <- struct_name [y]; of_crate (o ++ "::" ++ f) (List.find (fun g => (named f g && owned_by o g)%bool) (ci_fns ci))
          | [x; _], _ => try o <- struct_name [x]; of_crate (o ++ "::" ++ f) (List.find (fun g => (named f g && owned_by o g)%bool) (ci_fns ci))
          | [_], _ => of_crate f (List.find (fun g => (named f g && match sfn_impl g with None => true | _ => false end)%bool) (ci_fns ci))
          | _, _ => Unknown "path"
          end
      end
  end
with infer_method (n : nat) (env : environment) (r : sx) (m : string) (args : list sx) (s : state) {struct n} : inferred (ty * later * state) :=
  match n with
  | O => Unknown "fuel"
  | S n' =>
      match copies m r args with
      | Some (p, lo, hi, src) =>
          try (_, kp, s) <- infer n' env None p s;
          try (_, klo, s) <- infer n' env (Some usize) lo s; try (_, khi, s) <- infer n' env (Some usize) hi s;
          try (_, ks, s) <- infer n' env None src s;
          Fine (TyUnit, (fun s => try a <- kp s; try b <- klo s; try c <- khi s; try d <- ks s; Fine (CopyFromSlice a b c d)), s)
      | None =>
      try (t, k, s) <- infer n' env None r s;
      let b := strip s t in
      let prim0 (p : prim) (u : ty) := Fine (u, with1 (fun e => Prim p [e]) k, s) in
      let prim1 (p : prim) (u want : ty) (a : sx) :=
        try (_, l, s) <- infer n' env (Some want) a s; Fine (u, with2 (fun e e' => Prim p [e; e']) k l, s) in
      let of_crate :=
        try (ps, u, s) <- method_sig m b s;
        if Nat.eqb (length ps) (length args) then try (_, ks, s) <- infer_list n' env ps args s; Fine (u, with_list (Method m) (k :: ks), s)
        else Unknown "arguments" in
      match args with
      | [] =>
          if String.eqb m "into" then let (u, s) := fresh s in Fine (u, from_call t u k, s)
          else if String.eqb m "clone" then prim0 Pclone (match res s t with TyRef u => u | u => u end)
          else if String.eqb m "into_boxed_slice" then prim0 Pclone t
          else if String.eqb m "leading_zeros" then prim0 Pleading_zeros (TyInt U32)
          else if String.eqb m "try_into" then
            let (u, s) := fresh s in
            Fine (option_ty u, (fun s => try i <- int_type s u; try e <- k s; Fine (Prim (Ptry_into i) [e])), s)
          else if String.eqb m "unwrap" then match b with TyCon _ (u :: _) => prim0 Punwrap u | _ => Unknown "unwrap" end
          else if mem ["start_bound"; "end_bound"] m then
            let (u, s') := match b with TyCon _ (u :: _) => (u, s) | _ => fresh s end in
            Fine (bound_ty (TyRef u), with1 (fun e => Prim (if String.eqb m "start_bound" then Pstart_bound else Pend_bound) [e]) k, s')
          else match b with
          | TyList u =>
              if String.eqb m "len" then prim0 Plen usize
              else if String.eqb m "is_empty" then prim0 Pis_empty TyBool
              else if String.eqb m "pop_front" then Fine (option_ty u, with1 (fun e => MutPrim Mpop_front e []) k, s)
              else if String.eqb m "clear" then Fine (TyUnit, with1 (fun e => MutPrim Mclear e []) k, s)
              else of_crate
          | _ => of_crate
          end
      | [a] =>
          if String.eqb m "saturating_sub" then prim1 Psaturating_sub b b a
          else if String.eqb m "rotate_left" then prim1 Protate_left b (TyInt U32) a
          else if String.eqb m "wrapping_pow" then prim1 Pwrapping_pow b (TyInt U32) a
          else if String.eqb m "split_at" then prim1 Psplit_at (TyCon "," [b; b]) usize a
          else if String.eqb m "fill_bytes" then
            try (_, l, s) <- infer n' env None a s; Fine (TyUnit, with2 (fun e e' => Method "fill_bytes" [e; e']) k l, s)
          else match b with
          | TyList u =>
              if mem ["push"; "push_back"] m then
                try (_, l, s) <- infer n' env (Some u) a s; Fine (TyUnit, with2 (fun e e' => MutPrim Mpush_back e [e']) k l, s)
              else of_crate
          | TyCon c (u :: _) =>
              if String.eqb m "unwrap_or" then
                try (_, l, s) <- infer n' env (Some u) a s;
                Fine (u, with2 (fun e e' => Match e [(PCon "Some" ["x"], Var "x"); (PCon "None" [], e')]) k l, s)
              else if (String.eqb m "map" && String.eqb c "Option")%bool then
                match a with
                | SClosure (PVar x) (SField (SPath [y]) f) =>
                    try (v, l, s) <- infer n' ((x, u) :: env) None (SField (SPath [y]) f) s;
                    Fine (option_ty v, with2 (fun e e' => Match e [(PCon "Some" [x], Con "Some" [e']); (PCon "None" [], Con "None" [])]) k l, s)
                | _ => Unknown "closure"
                end
              else of_crate
          | _ => of_crate
          end
      | _ => of_crate
      end
      end
  end
with infer_macro (n : nat) (env : environment) (m : string) (args : list sx) (s : state) {struct n} : inferred (ty * later * state) :=
  match n with
  | O => Unknown "fuel"
  | S n' =>
      let asserts (e : sx) := try (_, k, s) <- infer n' env (Some TyBool) e s; Fine (TyUnit, with1 (fun e => Prim Passert [e]) k, s) in
      match args with
      | SStr x :: r =>
          try (_, ks, s) <- infer_list n' env [] r s;
          let line := with_list (Con x) ks in
          if String.eqb m "panic" then Fine (TyNever, with1 (fun e => Block [e; Prim Passert [BoolLit false]]) line, s)
          else if String.eqb m "println" then
            match find env "stdout" with
            | Some _ => Fine (TyUnit, with1 (fun e => MutPrim Mpush_back (Var "stdout") [e]) line, s)
            | None => Fine (TyUnit, line, s)
            end
          else Unknown "macro"
      | [a] => if String.eqb m "assert" then asserts a else Unknown "macro"
      | [a; b] =>
          if String.eqb m "assert_eq" then asserts (SBin "==" a b)
          else if String.eqb m "assert_ne" then asserts (SBin "!=" a b) else Unknown "macro"
      | _ => Unknown "macro"
      end
  end
with infer_any (n : nat) (env : environment) (want : option ty) (e : sx) (s : state) {struct n} : inferred (ty * later * state) :=
  match n with
  | O => Unknown "fuel"
  | S n' =>
      match e with
      | SLit z o =>
          let (t, s) := match o with Some i => (TyInt i, s) | None => fresh s end in
          Fine (t, (fun s => try i <- int_type s t; Fine (Lit i z)), s)
      | SFloat _ => Unknown "f64"
      | SStr _ => Unknown "string"
      | SBool b => Fine (TyBool, now (BoolLit b), s)
      | SUnit => Fine (TyUnit, now unit_expr, s)
      | SPath p =>
          match (match p with [x] => find env x | _ => None end) with
          | Some t => Fine (t, now (Var (List.hd "" p)), s)
          | None =>
              let x := List.last p "" in
              if mem ["None"; "Unbounded"] x then
                let (u, s) := fresh s in Fine (TyCon (if String.eqb x "None" then "Option" else "Bound") [u], now (Con x []), s)
              else match find (ci_consts ci) x with
                   | Some t => Fine (t, now (Call x []), s)
                   | None => Unknown ("name " ++ x)
                   end
          end
      | SRef a => try (t, k, s) <- infer n' env None a s; Fine (TyRef t, k, s)
      | SDeref a => try (t, k, s) <- infer n' env None a s; Fine (match res s t with TyRef u => u | u => u end, k, s)
      | SNot a => try (_, k, s) <- infer n' env (Some TyBool) a s; Fine (TyBool, with1 Not k, s)
      | SField a f =>
          try (t, k, s) <- infer n' env None a s;
          match strip s t with
          | TyWrap u => if String.eqb f "0" then Fine (u, with1 (fun e => Field e f) k, s) else Unknown "field"
          | TyStruct x =>
              match find (ci_structs ci) x with
              | Some fs => match find fs f with Some u => Fine (u, with1 (fun e => Field e f) k, s) | None => Unknown "field" end
              | None => Unknown "field"
              end
          | TyCon c [u; _] =>
              if (String.eqb c "," && String.eqb f "0")%bool then Fine (u, with1 (fun e => Match e [(PCon "," ["0"; "1"], Var "0")]) k, s) else Unknown "field"
          | _ => Unknown "field"
          end
      | SIndex a i =>
          try (t, k, s) <- infer n' env None a s;
          match strip s t with
          | TyList u =>
              match i with
              | SRange None None => Fine (t, with1 (fun e => Prim Pclone [e]) k, s)
              | SRange (Some lo) None => try (_, l, s) <- infer n' env (Some usize) lo s; Fine (t, with2 SliceFrom k l, s)
              | SRange None (Some hi) => try (_, l, s) <- infer n' env (Some usize) hi s; Fine (t, with2 SliceTo k l, s)
              | SRange (Some lo) (Some hi) =>
                  try (_, l, s) <- infer n' env (Some usize) lo s; try (_, h, s) <- infer n' env (Some usize) hi s; Fine (t, with3 Slice k l h, s)
              | _ => try (_, l, s) <- infer n' env (Some usize) i s; Fine (u, with2 Index k l, s)
              end
          | _ => Unknown "index"
          end
      | SRange (Some a) (Some b) =>
          try (ta, k, s) <- infer n' env None a s; try (tb, l, s) <- infer n' env None b s; try s <- unify ta tb s;
          Fine (TyCon "Ranges" [ta], with2 (fun e e' => Con ".." [e; e']) k l, s)
      | SRange _ _ => Unknown "range"
      | SCast a t =>
          try (ta, k, s) <- infer n' env None a s;
          match strip s ta, t with
          | TyF64, _ | _, TyF64 => Unknown "f64"
          | _, TyInt i => Fine (t, with1 (Cast i) k, s)
          | _, _ => Unknown "cast"
          end
      | SBin o a b =>
          if String.eqb o "&&" then
            try (_, k, s) <- infer n' env (Some TyBool) a s; try (_, l, s) <- infer n' env (Some TyBool) b s; Fine (TyBool, with2 And k l, s)
          else if String.eqb o "||" then
            try (_, k, s) <- infer n' env (Some TyBool) a s; try (_, l, s) <- infer n' env (Some TyBool) b s; Fine (TyBool, with2 Or k l, s)
          else
            try (ta, k, s) <- infer n' env None a s;
            if (String.eqb o "==" && is_none b)%bool then
                Fine (TyBool, with1 (fun e => Match e [(PCon "None" [], BoolLit true); (PWild, BoolLit false)]) k, s)
            else
                try (tb, l, s) <- infer n' env None b s;
                match find ops o with
                | None => Unknown "operator"
                | Some op =>
                    if mem ["<<"; ">>"] o then
                      (* the amount is an integer of any type; without a constraint it is taken as [u32], on [Wrapping] it is [usize] *)
                      try s <- match strip s tb with
                               | TyVar _ => unify tb (match strip s ta with TyWrap _ => usize | _ => TyInt U32 end) s
                               | _ => Fine s
                               end;
                      Fine (ta, with2 (Bin op) k l, s)
                    else
                      try s <- unify (strip s ta) (strip s tb) s;
                      Fine (if compares o then TyBool else strip s ta, with2 (Bin op) k l, s)
                end
      | STuple es => try (ts, ks, s) <- infer_list n' env [] es s; Fine (TyCon "," ts, with_list (Con ",") ks, s)
      | SArray es =>
          let (u, s) := fresh s in
          try (_, ks, s) <- infer_list n' env (List.map (fun _ => u) es) es s; Fine (TyList u, with_list ListLit ks, s)
      | SRepeat a c =>
          try (t, k, s) <- infer n' env None a s; try (_, l, s) <- infer n' env (Some usize) c s;
          Fine (TyList t, with2 (fun e e' => Prim Prepeat [e; e']) k l, s)
      | SStruct p fs =>
          try x <- struct_name p;
          match find (ci_structs ci) x with
          | Some decl =>
              try (l, s) <- infer_fields n' env decl fs s;
              Fine (TyStruct x, (fun s => try es <- with_all (List.map snd l) s; Fine (StructLit x (List.map fst decl) (List.combine (List.map fst l) es))), s)
          | None => Unknown ("struct " ++ x)
          end
      | SCall p tas args => infer_call n' env p tas args s
      | SMethod r m args => infer_method n' env r m args s
      | SMacro m args => infer_macro n' env m args s
      | SAssign p a =>
          try (tp, k, s) <- infer n' env None p s; try (ta, l, s) <- infer n' env None a s; try s <- unify (strip s tp) ta s;
          Fine (TyUnit, with2 Assign k l, s)
      | SOpAssign o p a =>
          try (tp, k, s) <- infer n' env None p s; try (ta, l, s) <- infer n' env None a s; try s <- unify (strip s tp) ta s;
          match find ops o with Some op => Fine (TyUnit, with2 (OpAssign op) k l, s) | None => Unknown "operator" end
      | SReturn a => try (_, k, s) <- infer n' env (Some (sfn_ret (cx_fn cx))) a s; Fine (TyNever, with1 Return k, s)
      | SBreak => Fine (TyNever, now Break, s)
      | SLet _ _ _ => Unknown "let"
      | SBlock es => try (t, ks, s) <- infer_block n' env want TyUnit es s; Fine (t, with_list Block ks, s)
      | SIf c a None =>
          try (_, kc, s) <- infer n' env (Some TyBool) c s; try (_, k, s) <- infer n' env want a s;
          Fine (TyUnit, with2 (fun c e => If c e unit_expr) kc k, s)
      | SIf c a (Some b) =>
          try (_, kc, s) <- infer n' env (Some TyBool) c s; try (ta, k, s) <- infer n' env want a s;
          try (tb, l, s) <- infer n' env want b s; try s <- unify ta tb s;
          Fine (match res s ta with TyNever => tb | _ => ta end, with3 If kc k l, s)
      | SMatch a arms =>
          try (t, k, s) <- infer n' env None a s;
          let (result, s) := match want with Some w => (w, s) | None => fresh s end in
          try (l, s) <- infer_arms n' env (strip s t) result arms s;
          Fine (result, (fun s => try e <- k s; try es <- with_all (List.map snd l) s; Fine (Match e (List.combine (List.map fst l) es))), s)
      | SFor p it body =>
          match p, it with
          | PVar x, SRange (Some lo) (Some hi) =>
              try (_, k, s) <- infer n' env (Some usize) lo s; try (_, l, s) <- infer n' env (Some usize) hi s;
              try (_, b, s) <- infer n' ((x, usize) :: env) None body s; Fine (TyUnit, with3 (ForRange x) k l b, s)
          | _, _ =>
              let (adaptors, over) := iterator it in
              try (t, k, s) <- infer n' env None over s;
              match strip s t with
              | TyList u =>
                  match p, mem adaptors "enumerate" with
                  | PTuple [PVar i; PVar v], true =>
                      try (_, b, s) <- infer n' ((v, u) :: (i, usize) :: env) None body s; Fine (TyUnit, with2 (ForEnum i v) k b, s)
                  | PVar v, false => try (_, b, s) <- infer n' ((v, u) :: env) None body s; Fine (TyUnit, with2 (ForIn v) k b, s)
                  | _, _ => Unknown "for"
                  end
              | _ => Unknown "for"
              end
          end
      | SLoop body => try (_, k, s) <- infer n' env None body s; Fine (if leaves body then TyUnit else TyNever, with1 Loop k, s)
      | SClosure _ _ => Unknown "closure"
      end
  end.

(** ** Functions *)

(** Names and types of the parameters; [(a, b): (A, B)] is taken apart by a first statement. *)
Fixpoint parameters (s : state) (ps : list (spat * ty * bool)) : inferred (list (string * bool) * environment * list expr) :=
  match ps with
  | [] => Fine ([], [], [])
  | (p, t, m) :: r =>
      try (l, env, pre) <- parameters s r;
      match p, res s t with
      | PVar x, t => Fine ((x, m) :: l, (x, t) :: env, pre)
      | PTuple [PVar x; PVar y], TyCon _ [a; b] => Fine (("arg", m) :: l, (x, a) :: (y, b) :: env, LetPair x y (Var "arg") :: pre)
      | _, _ => Unknown "parameter"
      end
  end.

Definition elaborate_fn : inferred fn :=
  let f := cx_fn cx in
  try (ps, env, pre) <- parameters start_state (sfn_params f);
  try (_, k, s) <- infer depth env (Some (sfn_ret f)) (sfn_body f) start_state;
  try b <- k s;
  Fine {| fn_params := ps; fn_body := match pre with [] => b | _ => Block (pre ++ [b])%list end |}.

(** The name under which the function is called. *)
Definition elaborate_name : inferred string :=
  let f := cx_fn cx in
  match sfn_impl f with
  | Some (Some (TyFrom a), TyStruct x, _) => try y <- type_name chain start_state a; Fine (x ++ "::from<" ++ y ++ ">")
  | Some (_, TyStruct x, _) => Fine (x ++ "::" ++ sfn_name f)
  | _ => Fine (sfn_name f)
  end.

End Context.

(** ** Crates *)

Definition no_impl (x : string) (t : ty) (b : sx) : sfn :=
  {| sfn_name := x; sfn_impl := None; sfn_assoc := []; sfn_gs := []; sfn_params := []; sfn_ret := t; sfn_body := b |}.

(** The value of type [t] that a derived [Default] puts into a field. *)
Fixpoint default_of (t : ty) : sx :=
  match t with
  | TyInt _ => SLit 0 None
  | TyBool => SBool false
  | TyWrap u => SCall ["Wrapping"] None [default_of u]
  | _ => SCall ["Default"; "default"] None []
  end.
Definition derived_default (x : string) (fs : list (string * ty)) : sfn :=
  {| sfn_name := "default"; sfn_impl := Some (None, TyStruct x, false); sfn_assoc := []; sfn_gs := []; sfn_params := []; sfn_ret := TyStruct x;
     sfn_body := SBlock [SStruct [x] (List.map (fun p => (fst p, default_of (snd p))) fs)] |}.

Definition consts_of (l : list item) : list sfn :=
  List.flat_map (fun i => match i with IConst _ _ (SArray _) => [] | IConst x t e => [no_impl x t (SBlock [e])] | _ => [] end) l.
Definition derived_of (l : list item) : list sfn :=
  List.flat_map (fun i => match i with IStruct x _ fs true => [derived_default x fs] | _ => [] end) l.
Definition fns_of (l : list item) : list sfn := List.flat_map (fun i => match i with IFn f => [f] | _ => [] end) l.

Definition items_of (l : list item) : crate_items := {|
  ci_structs := List.flat_map (fun i => match i with IStruct x _ fs _ => [(x, fs)] | _ => [] end) l;
  ci_consts := List.flat_map (fun i => match i with IConst x t _ => [(x, t)] | _ => [] end) l;
  ci_fns := (fns_of l ++ derived_of l)%list;
  ci_derived := List.flat_map (fun i => match i with IStruct x _ _ true => [x] | _ => [] end) l;
  ci_params := List.flat_map (fun i => match i with IStruct _ gs _ _ => gs | IParam x => [x] | _ => [] end) l |}.

(** The constant tables: arrays of literals. *)
Fixpoint literals (es : list sx) : option (list Z) :=
  match es with
  | [] => Some []
  | SLit z _ :: r => option_map (cons z) (literals r)
  | _ => None
  end.
Definition tables_of (l : list item) : list (string * (ity * list Z)) :=
  List.flat_map (fun i => match i with
    | IConst x (TyList (TyInt t)) (SArray es) => match literals es with Some zs => [(x, (t, zs))] | None => [] end
    | _ => []
    end) l.

Definition context_of (ci : crate_items) (i32 : bool) (f : sfn) : context := {| cx_items := ci; cx_fn := f; cx_i32 := i32; cx_chain := 100 |}.

(** Every function under its name, or why there is none. *)
Definition elaborate_in (ci : crate_items) (i32 : bool) (f : sfn) : string * inferred fn :=
  let cx := context_of ci i32 f in
  match elaborate_name cx with
  | Fine x => (x, elaborate_fn cx)
  | Unknown w => (sfn_name f, Unknown w)
  end.

Definition elaborate (l : list item) : list (string * inferred fn) :=
  List.map (elaborate_in (items_of l) false) (consts_of l ++ derived_of l ++ fns_of l)%list.

Definition accepted (l : list (string * inferred fn)) : list (string * fn) :=
  List.flat_map (fun p => match snd p with Fine f => [(fst p, f)] | Unknown _ => [] end) l.
Definition rejected (l : list (string * inferred fn)) : list (string * string) :=
  List.flat_map (fun p => match snd p with Fine _ => [] | Unknown w => [(fst p, w)] end) l.

Fixpoint parse_all (l : list source) : option (list item) :=
  match l with
  | [] => Some []
  | s :: r =>
      match parse s with
      | Got a [] => option_map (app a) (parse_all r)
      | _ => None
      end
  end.
