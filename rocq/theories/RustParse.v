(** * RustParse: from tokens to the syntax of Rust, as far as the crate uses it.

    Nothing is interpreted here: names are not resolved and literals have no type yet ([RustElab.v] does that). *)

From Coq Require Import String Ascii.
From Verif Require Import Base Rust RustLex.
Open Scope list_scope.
Open Scope string_scope.

(** ** Types *)

Inductive ty : Type :=
| TyInt (t : ity)
| TyBool
| TyF64
| TyWrap (t : ty)                       (* Wrapping<T> *)
| TyRef (t : ty)                        (* &T, &mut T *)
| TyList (t : ty)                       (* [T], [T; n], Vec<T>, VecDeque<T> *)
| TyStruct (n : string)                 (* also type parameters and [Self] *)
| TyCon (n : string) (ts : list ty)     (* Option, tuples, Bound, the ranges *)
| TyAssoc (n : string)                  (* Self::N *)
| TyFrom (t : ty)                       (* the trait From<T> *)
| TyVar (n : N)                         (* not known yet *)
| TyNever.                              (* of [return], [break], [panic!] *)

Definition TyUnit : ty := TyCon "()" [].

(** ** Expressions and patterns *)

Inductive spat : Type :=
| PVar (x : string)
| PTuple (ps : list spat)
| PApp (c : string) (ps : list spat).

Inductive sx : Type :=
| SLit (z : Z) (t : option ity)
| SFloat (z : Z)
| SBool (b : bool)
| SStr (s : string)
| SUnit
| SPath (p : list string)
| SRef (e : sx)                                   (* &e, &mut e *)
| SDeref (e : sx)
| SNot (e : sx)
| SField (e : sx) (f : string)
| SIndex (e i : sx)
| SRange (lo hi : option sx)
| SCast (e : sx) (t : ty)
| SBin (op : string) (a b : sx)
| STuple (es : list sx)
| SArray (es : list sx)
| SRepeat (e n : sx)                              (* [e; n], vec![e; n] *)
| SStruct (p : list string) (fs : list (string * sx))
| SCall (p : list string) (ts : option (list ty)) (args : list sx)
| SMethod (e : sx) (m : string) (args : list sx)
| SMacro (m : string) (args : list sx)
| SAssign (l e : sx)
| SOpAssign (op : string) (l e : sx)
| SReturn (e : sx)
| SBreak
| SLet (p : spat) (t : option ty) (e : sx)
| SBlock (es : list sx)                           (* the value is that of the last one; a final [;] adds a unit *)
| SIf (c t : sx) (e : option sx)
| SMatch (e : sx) (arms : list (spat * sx))
| SFor (p : spat) (it body : sx)
| SLoop (body : sx)
| SClosure (p : spat) (e : sx).

(** ** The parser's monad: the result and the tokens left, or what went wrong where *)

Inductive parsed (A : Type) : Type :=
| Got (a : A) (rest : list tok)
| Fail (why : string) (rest : list tok).
Arguments Got {A} a rest.
Arguments Fail {A} why rest.

Notation "'do' x , ts <- e ; k" := (match e with Got x ts => k | Fail w r => Fail w r end)
  (at level 200, x pattern, ts name, e at level 100, k at level 200).

(** A word or a sign. *)
Definition is_word (s : string) : bool := match s with String c _ => is_id_start (byte_of_ascii c) | EmptyString => false end.
Definition is_tok (s : string) (t : tok) : bool :=
  match t with TOp o => (negb (is_word s) && String.eqb o s)%bool | TId i => (is_word s && String.eqb i s)%bool | _ => false end.
Definition at_ (s : string) (ts : list tok) : bool := match ts with t :: _ => is_tok s t | [] => false end.
(** Is it there?  And what comes after it. *)
Definition eat (s : string) (ts : list tok) : bool * list tok :=
  match ts with t :: r => if is_tok s t then (true, r) else (false, ts) | [] => (false, ts) end.
Definition opt (s : string) (ts : list tok) : list tok := snd (eat s ts).
Definition expect (s : string) (ts : list tok) : parsed unit :=
  match eat s ts with (true, r) => Got tt r | _ => Fail (append "expected " s) ts end.
Definition at_life (ts : list tok) : bool := match ts with TLife :: _ => true | _ => false end.
Definition opt_life (ts : list tok) : list tok := match ts with TLife :: r => r | _ => ts end.

(** Words that are not names.  [self], [Self], [super] and [crate] may stand in paths. *)
Definition keywords : list string :=
  ["as"; "async"; "await"; "break"; "const"; "continue"; "dyn"; "else"; "enum"; "extern"; "false"; "fn"; "for"; "if"; "impl"; "in"; "let"; "loop";
   "match"; "mod"; "move"; "mut"; "pub"; "ref"; "return"; "static"; "struct"; "trait"; "true"; "type"; "unsafe"; "use"; "where"; "while"].
Definition is_keyword (s : string) : bool := existsb (String.eqb s) keywords.
Definition name (ts : list tok) : parsed string :=
  match ts with TId s :: r => if is_keyword s then Fail "keyword" ts else Got s r | _ => Fail "name" ts end.

(** Between two elements of a list that ends with [close]. *)
Definition comma (close : string) (ts : list tok) : parsed unit := if at_ close ts then Got tt ts else expect "," ts.

(** [&&] in front of a type or operand is two references, [>>] in [A<B<C>>] two closing brackets. *)
Definition split_ref (ts : list tok) : list tok :=
  match ts with
  | TOp o :: r => if String.eqb o "&&" then TOp "&" :: TOp "&" :: r else ts
  | _ => ts
  end.
Definition split_close (ts : list tok) : list tok :=
  match ts with
  | TOp o :: r => if String.eqb o ">>" then TOp ">" :: TOp ">" :: r else ts
  | _ => ts
  end.

Definition is_upper_name (s : string) : bool :=
  match s with String c _ => is_upper (byte_of_ascii c) | EmptyString => false end.

(** ** Binary operators and how tightly they bind *)

Fixpoint find {A} (l : list (string * A)) (s : string) : option A :=
  match l with [] => None | (t, a) :: r => if String.eqb s t then Some a else find r s end.
Definition mem (l : list string) (s : string) : bool := existsb (String.eqb s) l.

Definition binary_ops : list (string * nat) :=
  [("||", 0); ("&&", 1); ("==", 2); ("!=", 2); ("<", 2); (">", 2); ("<=", 2); (">=", 2); ("|", 3); ("^", 4); ("&", 5);
   ("<<", 6); (">>", 6); ("+", 7); ("-", 7); ("*", 8); ("/", 8); ("%", 8)]%nat.
Definition tightest : nat := 9.
Definition comparison : nat := 2.       (* [a == b == c] is not allowed *)

Definition assign_ops : list (string * string) :=
  [("+=", "+"); ("-=", "-"); ("*=", "*"); ("%=", "%"); ("^=", "^"); ("|=", "|"); ("&=", "&"); ("<<=", "<<"); (">>=", ">>")].

Definition int_types : list (string * ity) := [("u8", U8); ("u32", U32); ("u64", U64); ("u128", U128); ("usize", Usize)].

(** The type a path with arguments denotes. *)
Definition path_type (path : list string) (args : list ty) : ty :=
  let n := List.last path "" in
  match find int_types n, args with
  | Some t, _ => TyInt t
  | None, a :: _ =>
      if String.eqb n "Wrapping" then TyWrap a
      else if String.eqb n "Option" then TyCon "Option" [a]
      else if String.eqb n "Box" then a
      else if mem ["Vec"; "VecDeque"] n then TyList a
      else if String.eqb n "Bound" then TyCon "Bound" [a]
      else if String.eqb n "RangeBounds" then TyCon "Ranges" [a]
      else if String.eqb n "From" then TyFrom a
      else TyStruct n
  | None, [] =>
      if String.eqb n "bool" then TyBool
      else if String.eqb n "f64" then TyF64
      else match path with
           | [s; _] => if String.eqb s "Self" then TyAssoc n else TyStruct n
           | _ => TyStruct n
           end
  end.

(** Statements that end at their closing brace start like this. *)
Definition ends_itself (ts : list tok) : bool := existsb (fun k => at_ k ts) ["if"; "match"; "for"; "loop"; "{"].
Definition leaves (e : sx) : bool := match e with SReturn _ | SBreak => true | _ => false end.

(** Tokens up to the next [;], and those between brackets of which one is open already; both are taken off as well. *)
Fixpoint until_semi (ts : list tok) : parsed unit :=
  match ts with [] => Fail "; expected" ts | t :: r => if is_tok ";" t then Got tt r else until_semi r end.
Fixpoint group (opening closing : list string) (d : nat) (ts : list tok) : parsed (list tok) :=
  match ts with
  | [] => Fail "bracket expected" ts
  | t :: r =>
      if existsb (fun o => is_tok o t) opening then do a, b <- group opening closing (S d) r; Got (t :: a) b
      else if existsb (fun o => is_tok o t) closing then
        match d with O => Got [] r | S d' => do a, b <- group opening closing d' r; Got (t :: a) b end
      else do a, b <- group opening closing d r; Got (t :: a) b
  end.
Definition bracketed := group ["("; "["; "{"] [")"; "]"; "}"] 0.

(** The attributes in front of an item or statement: [#[..]]. *)
Fixpoint attributes (n : nat) (ts : list tok) : parsed (list (list tok)) :=
  match n with
  | O => Fail "fuel" ts
  | S n' =>
      if at_ "#" ts then
        do _, ts <- expect "[" (opt "!" (opt "#" ts)); do a, ts <- bracketed ts; do l, ts <- attributes n' ts; Got (a :: l) ts
      else Got [] ts
  end.

(** ** Types, patterns, expressions.  [n] bounds the recursion; [ns]: no structure literal here (the head of an [if]). *)

Fixpoint p_pat (n : nat) (ts : list tok) {struct n} : parsed spat :=
  match n with
  | O => Fail "fuel" ts
  | S n' =>
      let ts := split_ref ts in
      if at_ "&" ts then p_pat n' (opt "&" ts)
      else if at_ "ref" ts then p_pat n' (opt "ref" ts)
      else if at_ "mut" ts then p_pat n' (opt "mut" ts)
      else if at_ "(" ts then do l, ts <- p_pats n' (opt "(" ts); Got (PTuple l) ts
      else do x, ts <- name ts; p_pat_path n' true x ts
  end
(** [first]: no [::] before it *)
with p_pat_path (n : nat) (first : bool) (x : string) (ts : list tok) {struct n} : parsed spat :=
  match n with
  | O => Fail "fuel" ts
  | S n' =>
      if at_ "::" ts then do y, ts <- name (opt "::" ts); p_pat_path n' false y ts
      else if at_ "(" ts then do l, ts <- p_pats n' (opt "(" ts); Got (PApp x l) ts
      else if is_upper_name x then Got (PApp x []) ts
      else if first then Got (PVar x) ts
      else Fail "pattern" ts
  end
with p_pats (n : nat) (ts : list tok) {struct n} : parsed (list spat) :=
  match n with
  | O => Fail "fuel" ts
  | S n' =>
      if at_ ")" ts then Got [] (opt ")" ts)
      else do p, ts <- p_pat n' ts; do _, ts <- comma ")" ts; do l, ts <- p_pats n' ts; Got (p :: l) ts
  end.

Fixpoint p_type (n : nat) (ts : list tok) {struct n} : parsed ty :=
  match n with
  | O => Fail "fuel" ts
  | S n' =>
      let ts := split_ref ts in
      if at_ "&" ts then
        do t, ts <- p_type n' (opt "mut" (opt_life (opt "&" ts))); Got (TyRef t) ts
      else if at_ "(" ts then
        do l, ts <- p_types n' (opt "(" ts);
        match l with [] => Got TyUnit ts | [_] => Fail "type" ts | _ => Got (TyCon "," l) ts end
      else if at_ "[" ts then
        do t, ts <- p_type n' (opt "[" ts);
        if at_ ";" ts then
          do e, ts <- p_expr n' false (opt ";" ts); do _, ts <- expect "]" ts; Got (TyList t) ts
        else do _, ts <- expect "]" ts; Got (TyList t) ts
      else if at_ "impl" ts then
        do t, ts <- p_type n' (opt "impl" ts); do _, ts <- p_bounds n' ts; Got t ts
      else
        do x, ts <- name (opt "::" (opt "dyn" ts)); p_path_type n' [x] [] ts
  end
with p_bounds (n : nat) (ts : list tok) {struct n} : parsed unit :=
  match n with
  | O => Fail "fuel" ts
  | S n' => if at_ "+" ts then do _, ts <- p_type n' (opt "+" ts); p_bounds n' ts else Got tt ts
  end
with p_path_type (n : nat) (path : list string) (args : list ty) (ts : list tok) {struct n} : parsed ty :=
  match n with
  | O => Fail "fuel" ts
  | S n' =>
      if at_ "::" ts then do x, ts <- name (opt "::" ts); p_path_type n' (path ++ [x]) args ts
      else if at_ "<" ts then do l, ts <- p_type_args n' (opt "<" ts); p_path_type n' path l ts
      else Got (path_type path args) ts
  end
with p_types (n : nat) (ts : list tok) {struct n} : parsed (list ty) :=
  match n with
  | O => Fail "fuel" ts
  | S n' =>
      if at_ ")" ts then Got [] (opt ")" ts)
      else do t, ts <- p_type n' ts; do _, ts <- comma ")" ts; do l, ts <- p_types n' ts; Got (t :: l) ts
  end
(** lifetimes and bindings [Item = T] are left out *)
with p_type_args (n : nat) (ts : list tok) {struct n} : parsed (list ty) :=
  match n with
  | O => Fail "fuel" ts
  | S n' =>
      let ts := split_close ts in
      if at_ ">" ts then Got [] (opt ">" ts)
      else do o, ts <- p_type_arg n' ts;
           let ts := split_close ts in
           do _, ts <- comma ">" ts; do l, ts <- p_type_args n' ts; Got (match o with Some t => t :: l | None => l end) ts
  end
with p_type_arg (n : nat) (ts : list tok) {struct n} : parsed (option ty) :=
  match n with
  | O => Fail "fuel" ts
  | S n' =>
      if at_life ts then Got None (opt_life ts)
      else match ts with
           | TId x :: TOp o :: r =>
               if (String.eqb o "=" && negb (is_keyword x))%bool then do _, ts <- p_type n' r; Got None ts
               else do t, ts <- p_type n' ts; Got (Some t) ts
           | _ => do t, ts <- p_type n' ts; Got (Some t) ts
           end
  end
with p_expr (n : nat) (ns : bool) (ts : list tok) {struct n} : parsed sx :=
  match n with
  | O => Fail "fuel" ts
  | S n' =>
      if at_ "return" ts then
        let ts := opt "return" ts in
        if (at_ ";" ts || at_ "}" ts)%bool then Got (SReturn SUnit) ts else do e, ts <- p_expr n' ns ts; Got (SReturn e) ts
      else if at_ "break" ts then Got SBreak (opt "break" ts)
      else if at_ "|" ts then do p, ts <- p_pat n' (opt "|" ts); do _, ts <- expect "|" ts; do e, ts <- p_expr n' ns ts; Got (SClosure p e) ts
      else
        do l, ts <- p_range n' ns ts;
        match ts with
        | TOp o :: r =>
            if String.eqb o "=" then do e, ts <- p_expr n' ns r; Got (SAssign l e) ts
            else match find assign_ops o with
                 | Some b => do e, ts <- p_expr n' ns r; Got (SOpAssign b l e) ts
                 | None => Got l ts
                 end
        | _ => Got l ts
        end
  end
with p_range (n : nat) (ns : bool) (ts : list tok) {struct n} : parsed sx :=
  match n with
  | O => Fail "fuel" ts
  | S n' =>
      if at_ ".." ts then
        let ts := opt ".." ts in
        if at_ "]" ts then Got (SRange None None) ts else do e, ts <- p_bin n' 0 ns ts; Got (SRange None (Some e)) ts
      else
        do l, ts <- p_bin n' 0 ns ts;
        if at_ ".." ts then
          let ts := opt ".." ts in
          if (at_ "]" ts || at_ "{" ts)%bool then Got (SRange (Some l) None) ts
          else do e, ts <- p_bin n' 0 ns ts; Got (SRange (Some l) (Some e)) ts
        else Got l ts
  end
(** operators of level [k] and tighter *)
with p_bin (n : nat) (k : nat) (ns : bool) (ts : list tok) {struct n} : parsed sx :=
  match n with
  | O => Fail "fuel" ts
  | S n' =>
      if Nat.eqb k tightest then do e, ts <- p_unary n' ns ts; p_casts n' e ts
      else do l, ts <- p_bin n' (S k) ns ts; p_bin_more n' k ns l ts
  end
with p_bin_more (n : nat) (k : nat) (ns : bool) (l : sx) (ts : list tok) {struct n} : parsed sx :=
  match n with
  | O => Fail "fuel" ts
  | S n' =>
      match ts with
      | TOp o :: r =>
          match find binary_ops o with
          | Some j =>
              if Nat.eqb j k then
                do e, ts <- p_bin n' (S k) ns r;
                if Nat.eqb k comparison then Got (SBin o l e) ts else p_bin_more n' k ns (SBin o l e) ts
              else Got l ts
          | None => Got l ts
          end
      | _ => Got l ts
      end
  end
with p_casts (n : nat) (e : sx) (ts : list tok) {struct n} : parsed sx :=
  match n with
  | O => Fail "fuel" ts
  | S n' => if at_ "as" ts then do t, ts <- p_type n' (opt "as" ts); p_casts n' (SCast e t) ts else Got e ts
  end
with p_unary (n : nat) (ns : bool) (ts : list tok) {struct n} : parsed sx :=
  match n with
  | O => Fail "fuel" ts
  | S n' =>
      let ts := split_ref ts in
      if at_ "&" ts then do e, ts <- p_unary n' ns (opt "mut" (opt "&" ts)); Got (SRef e) ts
      else if at_ "*" ts then do e, ts <- p_unary n' ns (opt "*" ts); Got (SDeref e) ts
      else if at_ "!" ts then do e, ts <- p_unary n' ns (opt "!" ts); Got (SNot e) ts
      else do e, ts <- p_primary n' ns ts; p_postfix n' e ts
  end
with p_postfix (n : nat) (e : sx) (ts : list tok) {struct n} : parsed sx :=
  match n with
  | O => Fail "fuel" ts
  | S n' =>
      if at_ "." ts then
        match opt "." ts with
        | TInt 0 None :: r => p_postfix n' (SField e "0") r
        | TId x :: r =>
            if is_keyword x then Fail "field" ts
            else if at_ "(" r then do l, ts <- p_args n' ")" (opt "(" r); p_postfix n' (SMethod e x l) ts
            else p_postfix n' (SField e x) r
        | _ => Fail "field" ts
        end
      else if at_ "[" ts then
        do i, ts <- p_expr n' false (opt "[" ts); do _, ts <- expect "]" ts; p_postfix n' (SIndex e i) ts
      else Got e ts
  end
with p_args (n : nat) (close : string) (ts : list tok) {struct n} : parsed (list sx) :=
  match n with
  | O => Fail "fuel" ts
  | S n' =>
      if at_ close ts then Got [] (opt close ts)
      else do e, ts <- p_expr n' false ts;
           do _, ts <- comma close ts; do l, ts <- p_args n' close ts; Got (e :: l) ts
  end
with p_primary (n : nat) (ns : bool) (ts : list tok) {struct n} : parsed sx :=
  match n with
  | O => Fail "fuel" ts
  | S n' =>
      match ts with
      | TInt z s :: r => Got (SLit z s) r
      | TFloat z :: r => Got (SFloat z) r
      | TStr s :: r => Got (SStr s) r
      | TOp o :: r =>
          if String.eqb o "(" then
            if at_ ")" r then Got SUnit (opt ")" r)
            else do e, ts <- p_expr n' false r;
                 if at_ ")" ts then Got e (opt ")" ts)
                 else do _, ts <- expect "," ts; do l, ts <- p_args n' ")" ts; Got (STuple (e :: l)) ts
          else if String.eqb o "[" then
            if at_ "]" r then Got (SArray []) (opt "]" r)
            else do e, ts <- p_expr n' false r;
                 if at_ ";" ts then do c, ts <- p_expr n' false (opt ";" ts); do _, ts <- expect "]" ts; Got (SRepeat e c) ts
                 else do _, ts <- comma "]" ts; do l, ts <- p_args n' "]" ts; Got (SArray (e :: l)) ts
          else if String.eqb o "{" then p_block n' ts
          else if String.eqb o "::" then do x, ts <- name r; p_path n' ns [x] None ts
          else Fail "expression" ts
      | TId x :: r =>
          if String.eqb x "if" then
            do c, ts <- p_expr n' true r; do t, ts <- p_block n' ts;
            if at_ "else" ts then
              let ts := opt "else" ts in
              do e, ts <- (if at_ "if" ts then p_primary n' false ts else p_block n' ts); Got (SIf c t (Some e)) ts
            else Got (SIf c t None) ts
          else if String.eqb x "match" then
            do e, ts <- p_expr n' true r; do _, ts <- expect "{" ts; do l, ts <- p_arms n' ts; Got (SMatch e l) ts
          else if String.eqb x "for" then
            do p, ts <- p_pat n' r; do _, ts <- expect "in" ts; do it, ts <- p_expr n' true ts; do b, ts <- p_block n' ts; Got (SFor p it b) ts
          else if String.eqb x "loop" then do b, ts <- p_block n' r; Got (SLoop b) ts
          else if String.eqb x "true" then Got (SBool true) r
          else if String.eqb x "false" then Got (SBool false) r
          else match r with
               | TStr s :: r' => if String.eqb x "b" then Got (SStr s) r' else Fail "expression" ts
               | _ => if is_keyword x then Fail "expression" ts else p_path n' ns [x] None r
               end
      | _ => Fail "expression" ts
      end
  end
with p_path (n : nat) (ns : bool) (path : list string) (tas : option (list ty)) (ts : list tok) {struct n} : parsed sx :=
  match n with
  | O => Fail "fuel" ts
  | S n' =>
      if at_ "::" ts then
        let ts := opt "::" ts in
        if at_ "<" ts then do l, ts <- p_type_args n' (opt "<" ts); p_path n' ns path (Some l) ts
        else do x, ts <- name ts; p_path n' ns (path ++ [x]) tas ts
      else if at_ "!" ts then
        let ts := opt "!" ts in
        let m := match path, tas with [m], None => m | _, _ => "" end in
        if String.eqb m "" then Fail "macro" ts
        else if (String.eqb m "vec" && at_ "[" ts)%bool then
          do e, ts <- p_expr n' false (opt "[" ts); do _, ts <- expect ";" ts; do c, ts <- p_expr n' false ts;
          do _, ts <- expect "]" ts; Got (SRepeat e c) ts
        else do _, ts <- expect "(" ts; do l, ts <- p_args n' ")" ts; Got (SMacro m l) ts
      else if at_ "(" ts then do l, ts <- p_args n' ")" (opt "(" ts); Got (SCall path tas l) ts
      else match tas with
      | Some _ => Fail "( expected" ts
      | None =>
          if (at_ "{" ts && negb ns && is_upper_name (List.hd "" path))%bool then do l, ts <- p_fields n' (opt "{" ts); Got (SStruct path l) ts
          else Got (SPath path) ts
      end
  end
with p_fields (n : nat) (ts : list tok) {struct n} : parsed (list (string * sx)) :=
  match n with
  | O => Fail "fuel" ts
  | S n' =>
      if at_ "}" ts then Got [] (opt "}" ts)
      else do f, ts <- name ts;
           do e, ts <- (if at_ ":" ts then p_expr n' false (opt ":" ts) else Got (SPath [f]) ts);
           do _, ts <- comma "}" ts; do l, ts <- p_fields n' ts; Got ((f, e) :: l) ts
  end
with p_arms (n : nat) (ts : list tok) {struct n} : parsed (list (spat * sx)) :=
  match n with
  | O => Fail "fuel" ts
  | S n' =>
      if at_ "}" ts then Got [] (opt "}" ts)
      else do p, ts <- p_pat n' ts; do _, ts <- expect "=>" ts;
           if at_ "{" ts then
             do e, ts <- p_block n' ts; do l, ts <- p_arms n' (opt "," ts); Got ((p, e) :: l) ts
           else
             do e, ts <- p_expr n' false ts; do _, ts <- comma "}" ts; do l, ts <- p_arms n' ts; Got ((p, e) :: l) ts
  end
with p_block (n : nat) (ts : list tok) {struct n} : parsed sx :=
  match n with
  | O => Fail "fuel" ts
  | S n' => do _, ts <- expect "{" ts; do l, ts <- p_stmts n' false ts; Got (SBlock l) ts
  end
(** [open]: the last thing read was a statement, so the value of the block is a unit if nothing follows *)
with p_stmts (n : nat) (open : bool) (ts : list tok) {struct n} : parsed (list sx) :=
  match n with
  | O => Fail "fuel" ts
  | S n' =>
      if at_ "}" ts then Got (if open then [SUnit] else []) (opt "}" ts)
      else if at_ ";" ts then p_stmts n' open (opt ";" ts)
      else if at_ "#" ts then do _, ts <- attributes n' ts; p_stmts n' open ts
      else if at_ "let" ts then
        do p, ts <- p_pat n' (opt "let" ts);
        do t, ts <- (if at_ ":" ts then do t, ts <- p_type n' (opt ":" ts); Got (Some t) ts else Got None ts);
        do _, ts <- expect "=" ts; do e, ts <- p_expr n' false ts; do _, ts <- expect ";" ts;
        do l, ts <- p_stmts n' true ts; Got (SLet p t e :: l) ts
      else if at_ "use" ts then do _, ts <- until_semi ts; p_stmts n' open ts
      else if at_ "const" ts then
        do x, ts <- name (opt "const" ts); do _, ts <- expect ":" ts; do t, ts <- p_type n' ts; do _, ts <- expect "=" ts;
        do e, ts <- p_expr n' false ts; do _, ts <- expect ";" ts;
        do l, ts <- p_stmts n' true ts; Got (SLet (PVar x) (Some t) e :: l) ts
      else
        let alone := ends_itself ts in
        do e, ts <- (if alone then p_primary n' false ts else p_expr n' false ts);
        if at_ ";" ts then do l, ts <- p_stmts n' (negb (leaves e)) (opt ";" ts); Got (e :: l) ts
        else if at_ "}" ts then do l, ts <- p_stmts n' false ts; Got (e :: l) ts
        else if alone then do l, ts <- p_stmts n' true ts; Got (e :: l) ts
        else Fail "; expected" ts
  end.

(** ** Items *)

(** A function: the [impl] it stands in (trait, type, "is the definition of the trait itself"), the associated types and
    type parameters in scope, the parameters with their type and "is a [&mut] reference". *)
Record sfn : Type := {
  sfn_name : string;
  sfn_impl : option (option ty * ty * bool);
  sfn_assoc : list (string * ty);
  sfn_gs : list string;
  sfn_params : list (spat * ty * bool);
  sfn_ret : ty;
  sfn_body : sx }.

Inductive item : Type :=
| IConst (n : string) (t : ty) (e : sx)
| IStruct (n : string) (gs : list string) (fs : list (string * ty)) (derives_default : bool)
| IFn (f : sfn)
| IParam (n : string).                   (* [impl<R> .. for R] *)

(** The type parameters in [<..>]: names and lifetimes with bounds, which are skipped; [d] brackets are open in them. *)
Fixpoint bound (d : nat) (ts : list tok) : parsed unit :=
  match ts with
  | [] => Fail "> expected" ts
  | TOp o :: r =>
      if String.eqb o "<" then bound (S d) r
      else if String.eqb o ">" then match d with O => Got tt ts | S d' => bound d' r end
      else if String.eqb o ">>" then match d with O => Fail ">" ts | 1%nat => Got tt (TOp ">" :: r) | S (S d') => bound d' r end
      else if (String.eqb o "," && Nat.eqb d 0)%bool then Got tt ts
      else bound d r
  | _ :: r => bound d r
  end.
Fixpoint p_generics (n : nat) (ts : list tok) : parsed (list string) :=
  match n with
  | O => Fail "fuel" ts
  | S n' =>
      if at_ ">" ts then Got [] (opt ">" ts)
      else do l, ts <- (if at_life ts then Got [] (opt_life ts) else do x, ts <- name ts; Got [x] ts);
           do _, ts <- (if at_ ":" ts then bound 0 (opt ":" ts) else Got tt ts);
           do _, ts <- comma ">" ts; do l', ts <- p_generics n' ts; Got (l ++ l')%list ts
  end.
Definition generics (n : nat) (ts : list tok) : parsed (list string) :=
  if at_ "<" ts then p_generics n (opt "<" ts) else Got [] ts.

(** A [where] clause goes up to the body. *)
Fixpoint until_body (ts : list tok) : parsed unit :=
  match ts with [] => Fail "body expected" ts | t :: r => if (is_tok "{" t || is_tok ";" t)%bool then Got tt ts else until_body r end.
Definition p_where (ts : list tok) : parsed unit := if at_ "where" ts then until_body ts else Got tt ts.

(** [pub], [pub(crate)] *)
Definition p_pub (ts : list tok) : parsed unit :=
  if at_ "pub" ts then
    let ts := opt "pub" ts in if at_ "(" ts then do _, ts <- bracketed (opt "(" ts); Got tt ts else Got tt ts
  else Got tt ts.

(** [self], [&self], [&mut self] *)
Definition p_self (ts : list tok) : option (bool * bool * list tok) :=
  if at_ "self" ts then Some (false, false, opt "self" ts)
  else match eat "&" ts with
       | (true, r) =>
           if at_ "self" r then Some (true, false, opt "self" r)
           else if (at_ "mut" r && at_ "self" (opt "mut" r))%bool then Some (true, true, opt "self" (opt "mut" r)) else None
       | _ => None
       end.

(** Is it a [&mut] reference? *)
Definition p_param_type (n : nat) (ts : list tok) : parsed (ty * bool) :=
  if at_ "&" ts then
    let ts := opt_life (opt "&" ts) in
    if at_ "mut" ts then do t, ts <- p_type n (opt "mut" ts); Got (TyRef t, true) ts
    else do t, ts <- p_type n ts; Got (TyRef t, false) ts
  else do t, ts <- p_type n ts; Got (t, false) ts.

Fixpoint p_params (n : nat) (self_ty : ty) (ts : list tok) : parsed (list (spat * ty * bool)) :=
  match n with
  | O => Fail "fuel" ts
  | S n' =>
      if at_ ")" ts then Got [] (opt ")" ts)
      else match p_self ts with
      | Some (isref, ismut, ts) =>
          do _, ts <- comma ")" ts; do l, ts <- p_params n' self_ty ts; Got ((PVar "self", (if isref then TyRef self_ty else self_ty), ismut) :: l) ts
      | None =>
          do p, ts <- p_pat n ts; do _, ts <- expect ":" ts;
          do (t, ismut), ts <- p_param_type n ts; do _, ts <- comma ")" ts; do l, ts <- p_params n' self_ty ts; Got ((p, t, ismut) :: l) ts
      end
  end.

(** After [fn]; a declaration without a body gives nothing. *)
Definition p_fn (n : nat) (impl : option (option ty * ty * bool)) (assoc : list (string * ty)) (gs : list string) (ts : list tok) : parsed (option sfn) :=
  do x, ts <- name ts;
  do gs', ts <- generics n ts;
  do _, ts <- expect "(" ts;
  do ps, ts <- p_params n (match impl with Some (_, t, _) => t | None => TyUnit end) ts;
  do rt, ts <- (if at_ "->" ts then p_type n (opt "->" ts) else Got TyUnit ts);
  do _, ts <- p_where ts;
  if at_ ";" ts then Got None (opt ";" ts)
  else do b, ts <- p_block n ts;
       Got (Some {| sfn_name := x; sfn_impl := impl; sfn_assoc := assoc; sfn_gs := (gs ++ gs')%list; sfn_params := ps; sfn_ret := rt; sfn_body := b |}) ts.

Fixpoint p_struct_fields (n : nat) (ts : list tok) : parsed (list (string * ty)) :=
  match n with
  | O => Fail "fuel" ts
  | S n' =>
      if at_ "}" ts then Got [] (opt "}" ts)
      else do _, ts <- attributes n ts; do _, ts <- p_pub ts; do f, ts <- name ts; do _, ts <- expect ":" ts; do t, ts <- p_type n ts;
           do _, ts <- comma "}" ts; do l, ts <- p_struct_fields n' ts; Got ((f, t) :: l) ts
  end.

(** The members of an [impl] or [trait].  [Debug] prints and computes nothing: its methods are passed over. *)
Fixpoint p_members (n : nat) (impl : option ty * ty * bool) (assoc : list (string * ty)) (gs : list string) (ts : list tok) : parsed (list item) :=
  match n with
  | O => Fail "fuel" ts
  | S n' =>
      if at_ "}" ts then Got [] (opt "}" ts)
      else if at_ "#" ts then do _, ts <- attributes n' ts; p_members n' impl assoc gs ts
      else
        do _, ts <- p_pub ts;
        if at_ "type" ts then
          do x, ts <- name (opt "type" ts);
          do _, ts <- (if at_ ":" ts then p_type n (opt ":" ts) else Got TyUnit ts);
          if at_ "=" ts then
            do t, ts <- p_type n (opt "=" ts); do _, ts <- expect ";" ts; p_members n' impl ((x, t) :: assoc) gs ts
          else do _, ts <- expect ";" ts; p_members n' impl assoc gs ts
        else if at_ "fn" ts then
          if match impl with (Some (TyStruct t), _, _) => String.eqb t "Debug" | _ => false end then
            do _, ts <- until_body ts; do _, ts <- expect "{" ts; do _, ts <- bracketed ts; p_members n' impl assoc gs ts
          else
          do f, ts <- p_fn n (Some impl) assoc gs (opt "fn" ts);
          do l, ts <- p_members n' impl assoc gs ts; Got (match f with Some f => IFn f :: l | None => l end) ts
        else Fail "member" ts
  end.

Definition derives (s : string) (attrs : list (list tok)) : bool :=
  existsb (fun a => (existsb (is_tok "derive") a && existsb (is_tok s) a)%bool) attrs.

(** One item; nothing for [use], [mod] (the test modules) and declarations. *)
Definition p_item (n : nat) (attrs : list (list tok)) (ts : list tok) : parsed (list item) :=
  do _, ts <- p_pub ts;
  if at_ "use" ts then do _, ts <- until_semi ts; Got [] ts
  else if (at_ "const" ts || at_ "static" ts)%bool then
    do x, ts <- name (if at_ "const" ts then opt "const" ts else opt "static" ts); do _, ts <- expect ":" ts; do t, ts <- p_type n ts;
    do _, ts <- expect "=" ts; do e, ts <- p_expr n false ts; do _, ts <- expect ";" ts; Got [IConst x t e] ts
  else if at_ "struct" ts then
    do x, ts <- name (opt "struct" ts);
    do gs, ts <- generics n ts;
    do _, ts <- expect "{" ts; do fs, ts <- p_struct_fields n ts;
    Got [IStruct x gs fs (derives "Default" attrs)] ts
  else if at_ "mod" ts then
    do _, ts <- name (opt "mod" ts); if at_ ";" ts then Got [] (opt ";" ts) else do _, ts <- expect "{" ts; do _, ts <- bracketed ts; Got [] ts
  else if at_ "impl" ts then
    do gs, ts <- generics n (opt "impl" ts);
    do t, ts <- p_type n ts;
    do (tr, t), ts <- (if at_ "for" ts then do t', ts <- p_type n (opt "for" ts); Got (Some t, t') ts else Got (None, t) ts);
    do _, ts <- p_where ts; do _, ts <- expect "{" ts;
    do l, ts <- p_members n (tr, t, false) [] gs ts;
    Got (match t with TyStruct x => if mem gs x then IParam x :: l else l | _ => l end) ts
  else if at_ "trait" ts then
    do x, ts <- name (opt "trait" ts);
    do gs, ts <- generics n ts;
    do _, ts <- (if at_ ":" ts then p_type n (opt ":" ts) else Got TyUnit ts);
    do _, ts <- p_where ts; do _, ts <- expect "{" ts;
    p_members n (None, TyStruct x, true) [] (gs ++ ["Self"]) ts
  else if at_ "fn" ts then
    do f, ts <- p_fn n None [] [] (opt "fn" ts); Got (match f with Some f => [IFn f] | None => [] end) ts
  else if at_ ";" ts then Got [] (opt ";" ts)
  else Fail "item" ts.

Fixpoint p_items (k n : nat) (ts : list tok) : parsed (list item) :=
  match k, ts with
  | _, [] => Got [] []
  | O, _ => Fail "fuel" ts
  | S k', _ =>
      do attrs, ts <- attributes n ts;
      match ts with
      | [] => Got [] []
      | _ => do l, ts <- p_item n attrs ts; do l', ts <- p_items k' n ts; Got (l ++ l')%list ts
      end
  end.

(** How deep the recursion may go: one source file's worth of items, each of at most a table of 256 words. *)
Definition depth : nat := 1000.

Definition parse (s : source) : parsed (list item) :=
  match tokens s with
  | Some ts => p_items depth depth ts
  | None => Fail "token" []
  end.
