(** * Lexical: the tokens of Rust, as far as the crate uses them, as a grammar over bytes. *)

From Coq Require Import String Strings.Byte.
From Verif Require Import Base Rust RustLex.
Open Scope string_scope.
Open Scope list_scope.
Open Scope Z_scope.

Definition spelled (s : string) : list byte := list_byte_of_string s.
Definition among (s : string) (c : byte) : bool := existsb (Byte.eqb c) (spelled s).

Definition blank (c : byte) : bool := existsb (Byte.eqb c) [x09; x0a; x0b; x0c; x0d; x20].
Definition decimal : byte -> bool := among "0123456789".
Definition hexadecimal : byte -> bool := among "0123456789abcdefABCDEF".
Definition binary : byte -> bool := among "01".
Definition initial : byte -> bool := among "abcdefghijklmnopqrstuvwxyzABCDEFGHIJKLMNOPQRSTUVWXYZ_".
Definition further (c : byte) : bool := initial c || decimal c.

(** [_] counts for nothing. *)
Fixpoint position (c : byte) (l : list byte) : Z := match l with [] => 0 | d :: r => if Byte.eqb c d then 0 else 1 + position c r end.
Definition digit_of (c : byte) : Z := position c (spelled "0123456789abcdef0123456789ABCDEF") mod 16.
Definition value (base : Z) (w : list byte) : Z := fold_left (fun z c => if among "_" c then z else base * z + digit_of c) w 0.

Definition signs : list string :=
  ["+"; "-"; "*"; "/"; "%"; "^"; "!"; "&"; "|"; "&&"; "||"; "<<"; ">>"; "+="; "-="; "*="; "/="; "%="; "^="; "&="; "|="; "<<="; ">>="; "="; "=="; "!=";
   ">"; "<"; ">="; "<="; "@"; "."; ".."; "..="; ","; ";"; ":"; "::"; "->"; "=>"; "#"; "$"; "?"; "("; ")"; "["; "]"; "{"; "}"].

Definition int_suffixes : list (string * option ity) :=
  [("", None); ("u8", Some U8); ("u32", Some U32); ("u64", Some U64); ("u128", Some U128); ("usize", Some Usize)].
Definition radixes : list (string * (Z * (byte -> bool))) := [("0x", (16, hexadecimal)); ("0b", (2, binary))].

Definition starts_with (s : string) (l : list byte) : Prop := exists r, l = spelled s ++ r.
(** What follows does not continue it. *)
Definition word_over (rest : list byte) : Prop := forall c r, rest = c :: r -> further c = false.
Definition number_over (rest : list byte) : Prop := word_over rest /\ forall c r, rest = x2e :: c :: r -> decimal c = false.

(** Between quotes: a backslash goes with what follows. *)
Inductive quoted : list byte -> Prop :=
| quoted_nil : quoted []
| quoted_plain : forall c w, c <> x22 -> c <> x5c -> quoted w -> quoted (c :: w)
| quoted_escape : forall c w, quoted w -> quoted (x5c :: c :: w).

(** A token: how it is spelled, and what follows it. *)
Inductive token : list byte -> list byte -> tok -> Prop :=
| token_word : forall c w rest, initial c = true -> Forall (fun d => further d = true) w -> word_over rest ->
    token (c :: w) rest (TId (string_of_list_byte (c :: w)))
| token_decimal : forall c w s t rest, decimal c = true -> Forall (fun d => decimal d = true \/ d = x5f) w -> In (s, t) int_suffixes -> number_over rest ->
    token (c :: w ++ spelled s) rest (TInt (value 10 (c :: w)) t)
| token_radix : forall p base ok w s t rest, In (p, (base, ok)) radixes -> Forall (fun d => ok d = true \/ d = x5f) w -> Exists (fun d => ok d = true) w ->
    In (s, t) int_suffixes -> number_over rest -> token (spelled p ++ w ++ spelled s) rest (TInt (value base w) t)
| token_float : forall c w rest, decimal c = true -> Forall (fun d => decimal d = true \/ d = x5f) w -> number_over rest ->
    token (c :: w ++ spelled "f64") rest (TFloat (value 10 (c :: w)))
| token_lifetime : forall c w rest, initial c = true -> Forall (fun d => further d = true) w -> word_over rest -> ~ starts_with "'" rest ->
    token (x27 :: c :: w) rest TLife
| token_string : forall w rest, quoted w -> token (x22 :: w ++ [x22]) rest (TStr (string_of_list_byte w))
| token_sign : forall s rest, In s signs -> (forall s', In s' signs -> starts_with s' (spelled s ++ rest) -> (String.length s' <= String.length s)%nat) ->
    ~ starts_with "//" (spelled s ++ rest) -> ~ starts_with "/*" (spelled s ++ rest) -> token (spelled s) rest (TOp s).

(** The rest of a comment, [d] others being open around it. *)
Inductive comment : nat -> list byte -> Prop :=
| comment_end : comment 0 (spelled "*/")
| comment_close : forall d w, comment d w -> comment (S d) (spelled "*/" ++ w)
| comment_open : forall d w, comment (S d) w -> comment d (spelled "/*" ++ w)
| comment_other : forall d c w, ~ starts_with "*/" (c :: w) -> ~ starts_with "/*" (c :: w) -> comment d w -> comment d (c :: w).

Inductive ignored : list byte -> list byte -> Prop :=
| ignored_blank : forall c rest, blank c = true -> ignored [c] rest
| ignored_line : forall w rest, ~ In x0a w -> rest = [] \/ (exists r, rest = x0a :: r) -> ignored (spelled "//" ++ w) rest
| ignored_comment : forall w rest, comment 0 w -> ignored (spelled "/*" ++ w) rest.

Inductive lexes : list byte -> list tok -> Prop :=
| lexes_end : lexes [] []
| lexes_ignored : forall w rest l, ignored w rest -> lexes rest l -> lexes (w ++ rest) l
| lexes_token : forall w rest t l, token w rest t -> lexes rest l -> lexes (w ++ rest) (t :: l).
