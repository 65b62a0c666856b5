(** * RustLex: from the bytes of a source file to tokens.

    Comments and white space are dropped (block comments nest); a lifetime is a token without content. *)

From Coq Require Import String Strings.Byte NArith.
From Verif Require Import Base Rust.
Open Scope list_scope.

(** The bytes of a file; written as a string literal in [RustSource.v]. *)
Record source : Type := Source { bytes : list byte }.
Declare Scope source_scope.
Delimit Scope source_scope with source.
String Notation source Source bytes : source_scope.

Inductive tok : Type :=
| TInt (z : Z) (suffix : option ity)
| TFloat (z : Z)                          (* 64f64 *)
| TLife
| TStr (s : string)
| TId (s : string)
| TOp (s : string).

Definition between (a b : N) (c : byte) : bool := (N.leb a (to_N c) && N.leb (to_N c) b)%bool.
Definition is_space (c : byte) : bool := (Byte.eqb c x20 || between 9 13 c)%bool.
Definition is_digit (c : byte) : bool := between 48 57 c.
Definition is_lower (c : byte) : bool := between 97 122 c.
Definition is_upper (c : byte) : bool := between 65 90 c.
Definition is_id_start (c : byte) : bool := (is_lower c || is_upper c || Byte.eqb c x5f)%bool.
Definition is_id (c : byte) : bool := (is_id_start c || is_digit c)%bool.
Definition is_hex (c : byte) : bool := (is_digit c || between 97 102 c || between 65 70 c)%bool.

Fixpoint span (p : byte -> bool) (l : list byte) : list byte * list byte :=
  match l with
  | [] => ([], [])
  | c :: r => if p c then let (a, b) := span p r in (c :: a, b) else ([], l)
  end.

(** The value of a digit, whatever the base. *)
Definition digit (c : byte) : Z :=
  Z.of_N (if is_digit c then to_N c - 48 else if is_lower c then to_N c - 87 else to_N c - 55).

(** [_] separates digits. *)
Fixpoint number (base acc : Z) (l : list byte) : Z :=
  match l with
  | [] => acc
  | c :: r => if Byte.eqb c x5f then number base acc r else number base (base * acc + digit c) r
  end.

Definition text_of (l : list byte) : string := string_of_list_byte l.

(** After a comment opened by a slash and a star; [d] comments are open around it. *)
Fixpoint drop_comment (d : nat) (l : list byte) : option (list byte) :=
  match l with
  | [] => None
  | c :: r =>
      match r with
      | [] => None
      | c' :: r' =>
          if (Byte.eqb c x2a && Byte.eqb c' x2f)%bool then match d with S d' => drop_comment d' r' | O => Some r' end
          else if (Byte.eqb c x2f && Byte.eqb c' x2a)%bool then drop_comment (S d) r'
          else drop_comment d r
      end
  end.

(** Up to the closing quote; a backslash protects the next byte. *)
Fixpoint in_quotes (l : list byte) : option (list byte * list byte) :=
  match l with
  | [] => None
  | c :: r =>
      if Byte.eqb c x22 then Some ([], r)
      else if Byte.eqb c x5c then
        match r with
        | [] => None
        | c' :: r' => option_map (fun p => (c :: c' :: fst p, snd p)) (in_quotes r')
        end
      else option_map (fun p => (c :: fst p, snd p)) (in_quotes r)
  end.

Fixpoint strip_prefix (s : string) (l : list byte) : option (list byte) :=
  match s, l with
  | EmptyString, _ => Some l
  | String a s', c :: r => if Byte.eqb (Ascii.byte_of_ascii a) c then strip_prefix s' r else None
  | _, _ => None
  end.

Fixpoint first_prefix {A} (cands : list (string * A)) (l : list byte) : option (string * A * list byte) :=
  match cands with
  | [] => None
  | (s, a) :: r => match strip_prefix s l with Some l' => Some (s, a, l') | None => first_prefix r l end
  end.

Definition suffixes : list (string * ity) := [("u8", U8); ("u32", U32); ("u64", U64); ("u128", U128); ("usize", Usize)]%string.

(** A literal does not run into a name or a fraction. *)
Definition starts (p : byte -> bool) (l : list byte) : bool := match l with c :: _ => p c | [] => false end.
Definition number_ends (l : list byte) : bool :=
  negb (starts is_id l || match l with c :: r => Byte.eqb c x2e && starts is_digit r | [] => false end).
Definition checked (t : tok) (l : list byte) : option (tok * list byte) := if number_ends l then Some (t, l) else None.
Definition with_suffix (z : Z) (l : list byte) : option (tok * list byte) :=
  match first_prefix suffixes l with
  | Some (_, t, l') => checked (TInt z (Some t)) l'
  | None => checked (TInt z None) l
  end.
Definition in_base (base : Z) (p : byte -> bool) (l : list byte) : option (tok * list byte) :=
  let (d, l') := span (fun c => p c || Byte.eqb c x5f)%bool l in
  if existsb p d then with_suffix (number base 0 d) l' else None.

(** Longest first. *)
Definition operators : list (string * unit) := List.map (fun s => (s, tt))
  ["<<="; ">>="; "..="; "::"; "->"; "=>"; "=="; "!="; "<="; ">="; "&&"; "||"; "<<"; ">>"; "+="; "-="; "*="; "/="; "%="; "&="; "|="; "^="; "..";
   "-"; "+"; "*"; "/"; "%"; "&"; "|"; "^"; "!"; "<"; ">"; "="; "."; ","; ";"; ":"; "("; ")"; "["; "]"; "{"; "}"; "#"; "?"; "$"; "@"]%string.

(** One token at the start of a text that starts neither with a space nor with a comment. *)
Definition lex_one (l : list byte) : option (tok * list byte) :=
  match l with
  | [] => None
  | c :: r =>
      if is_digit c then
        match r with
        | x78 :: r' => if Byte.eqb c x30 then in_base 16 is_hex r' else None
        | x62 :: r' => if Byte.eqb c x30 then in_base 2 (between 48 49) r' else None
        | _ =>
            let (d, l') := span (fun c => is_digit c || Byte.eqb c x5f)%bool l in
            match strip_prefix "f64" l' with
            | Some l'' => checked (TFloat (number 10 0 d)) l''
            | None => with_suffix (number 10 0 d) l'
            end
        end
      else if Byte.eqb c x27 then
        if starts is_id_start r then let (_, l') := span is_id r in if starts (Byte.eqb x27) l' then None else Some (TLife, l') else None
      else if Byte.eqb c x22 then option_map (fun p => (TStr (text_of (fst p)), snd p)) (in_quotes r)
      else if is_id_start c then let (d, l') := span is_id l in Some (TId (text_of d), l')
      else option_map (fun p => (TOp (fst (fst p)), snd p)) (first_prefix operators l)
  end.

(** All tokens; [None]: not a token of the language.  Every round takes at least one byte, so the length is enough fuel. *)
Fixpoint lex (n : nat) (l : list byte) : option (list tok) :=
  match n, l with
  | _, [] => Some []
  | O, _ => None
  | S n', c :: r =>
      if is_space c then lex n' r
      else match strip_prefix "//" l with
      | Some r' => lex n' (snd (span (fun c => negb (Byte.eqb c x0a)) r'))
      | None =>
          match strip_prefix "/*" l with
          | Some r' => match drop_comment 0 r' with Some l' => lex n' l' | None => None end
          | None =>
              match lex_one l with
              | Some (t, l') => option_map (cons t) (lex n' l')
              | None => None
              end
          end
      end
  end.

Definition tokens (s : source) : option (list tok) := lex (length (bytes s)) (bytes s).
