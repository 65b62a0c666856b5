(** * LexSound: the lexer finds exactly the tokens of Lexical.v. *)

From Coq Require Import Ascii String Strings.Byte.
From Verif Require Import Base Rust RustLex Lexical.
Open Scope string_scope.
Open Scope list_scope.
Open Scope Z_scope.

(** ** Classes of bytes *)

Lemma blank_eq c : is_space c = blank c. Proof. now destruct c. Qed.
Lemma decimal_eq c : is_digit c = decimal c. Proof. now destruct c. Qed.
Lemma hex_eq c : is_hex c = hexadecimal c. Proof. now destruct c. Qed.
Lemma binary_eq c : between 48 49 c = binary c. Proof. now destruct c. Qed.
Lemma initial_eq c : is_id_start c = initial c. Proof. now destruct c. Qed.
Lemma further_eq c : is_id c = further c. Proof. now destruct c. Qed.
Lemma byte_eq_true c d : Byte.eqb c d = true <-> c = d.
Proof. split; [apply byte_dec_bl|intros ->; apply byte_dec_lb; reflexivity]. Qed.
Lemma underscore c : among "_" c = Byte.eqb c x5f. Proof. now destruct c. Qed.
Lemma digit_eq c : hexadecimal c = true -> digit c = digit_of c.
Proof.
  intros H. assert (X : negb (hexadecimal c) || (digit c =? digit_of c) = true) by now destruct c. rewrite H in X. now apply Z.eqb_eq.
Qed.
Lemma decimal_hex c : decimal c = true -> hexadecimal c = true. Proof. now destruct c. Qed.
Lemma binary_hex c : binary c = true -> hexadecimal c = true. Proof. now destruct c. Qed.

Lemma number_eq base w : Forall (fun d => hexadecimal d = true \/ d = x5f) w -> number base 0 w = value base w.
Proof.
  unfold value. generalize 0. intros z F. revert z. induction F as [|c w [H| ->] F IH]; intros z; [reflexivity| |].
  - cbn [number fold_left]. rewrite underscore. destruct (Byte.eqb c x5f) eqn:E; [apply IH|]. rewrite digit_eq by exact H. apply IH.
  - cbn [number fold_left]. apply IH.
Qed.

(** ** Prefixes *)

Lemma strip_prefix_iff s : forall l r, strip_prefix s l = Some r <-> l = spelled s ++ r.
Proof.
  induction s as [|a s IH]; intros l r.
  - cbn. split; [now intros [= ->]|now intros ->].
  - cbn [strip_prefix]. change (spelled (String a s)) with (Ascii.byte_of_ascii a :: spelled s). destruct l as [|c l]; [split; discriminate|]. cbn [app].
    destruct (Byte.eqb (Ascii.byte_of_ascii a) c) eqn:E.
    + apply byte_eq_true in E as <-. rewrite IH. split; [now intros ->|now intros [= ->]].
    + split; [discriminate|]. intros [= -> _]. assert (X : Byte.eqb (Ascii.byte_of_ascii a) (Ascii.byte_of_ascii a) = true) by now apply byte_eq_true. congruence.
Qed.
Lemma strip_prefix_none s l : strip_prefix s l = None <-> ~ starts_with s l.
Proof.
  destruct (strip_prefix s l) as [r|] eqn:E; split; try discriminate.
  - intros H. exfalso. apply H. exists r. now apply strip_prefix_iff.
  - intros _ (r & F). apply strip_prefix_iff in F. congruence.
  - reflexivity.
Qed.

Lemma span_spec p : forall l a b, span p l = (a, b) -> l = a ++ b /\ Forall (fun c => p c = true) a /\ starts p b = false.
Proof.
  induction l as [|c r IH]; intros a b; cbn [span]; [intros [= <- <-]; repeat split; constructor|].
  destruct (p c) eqn:E; [|intros [= <- <-]; repeat split; [constructor|exact E]].
  destruct (span p r) as [a' b'] eqn:F. intros [= <- <-]. destruct (IH a' b' eq_refl) as (-> & G & H). repeat split; [now constructor|exact H].
Qed.
Lemma span_app p a b : Forall (fun c => p c = true) a -> starts p b = false -> span p (a ++ b) = (a, b).
Proof.
  induction 1 as [|c a H F IH]; intros S; [|cbn [app span]; rewrite H, IH by exact S; reflexivity].
  destruct b as [|c b]; [reflexivity|]. cbn in *. now rewrite S.
Qed.

(** A table of spellings in which no entry comes after a proper prefix of it. *)
Definition longest_first (l : list string) : bool :=
  (fix go l := match l with [] => true | s :: r => forallb (fun s' => negb (String.prefix s s')) r && go r end) l.

Lemma prefix_iff s : forall s', String.prefix s s' = true <-> exists r, spelled s' = spelled s ++ r.
Proof.
  induction s as [|a s IH]; intros s'; [split; [now exists (spelled s')|now destruct s']|].
  change (spelled (String a s)) with (Ascii.byte_of_ascii a :: spelled s). destruct s' as [|b s']; [split; [discriminate|intros (r & E); discriminate]|].
  change (spelled (String b s')) with (Ascii.byte_of_ascii b :: spelled s'). cbn [String.prefix app]. destruct (Ascii.ascii_dec a b) as [ -> |N].
  - rewrite IH. split; intros (r & E); exists r; [now rewrite E|now injection E].
  - split; [discriminate|]. intros (r & E). exfalso. apply N. injection E as E _.
    rewrite <- (Ascii.ascii_of_byte_of_ascii a), <- (Ascii.ascii_of_byte_of_ascii b). now rewrite E.
Qed.
Lemma spelled_length s : length (spelled s) = String.length s.
Proof. induction s as [|a s IH]; [reflexivity|]. change (spelled (String a s)) with (Ascii.byte_of_ascii a :: spelled s). cbn. now rewrite IH. Qed.
Lemma prefixes_compare (s s' : string) l l' : spelled s ++ l = spelled s' ++ l' -> (String.length s <= String.length s')%nat -> String.prefix s s' = true.
Proof.
  intros E L. apply prefix_iff. rewrite <- !spelled_length in L. exists (skipn (length (spelled s)) (spelled s')).
  rewrite <- (firstn_skipn (length (spelled s)) (spelled s')) at 1. f_equal.
  apply (f_equal (firstn (length (spelled s)))) in E. rewrite !firstn_app, Nat.sub_diag, firstn_all, app_nil_r in E. cbn [firstn] in E.
  replace (length (spelled s) - length (spelled s'))%nat with O in E by lia. cbn [firstn] in E. rewrite !app_nil_r in E. now rewrite <- E.
Qed.

(** The first match is the longest one. *)
Lemma first_prefix_longest {A} (t : list (string * A)) l s a r : longest_first (map fst t) = true -> first_prefix t l = Some (s, a, r) ->
  l = spelled s ++ r /\ In (s, a) t /\ forall s', In s' (map fst t) -> starts_with s' l -> (String.length s' <= String.length s)%nat.
Proof.
  induction t as [|[s0 a0] t IH]; [discriminate|]. cbn [first_prefix map fst]. intros L. cbn in L. apply andb_prop in L as [L1 L2].
  destruct (strip_prefix s0 l) as [r0|] eqn:E.
  - intros [= -> -> ->]. apply strip_prefix_iff in E. split; [exact E|]. split; [now left|]. intros s' [ -> |I] (r' & W); [lia|].
    rewrite forallb_forall in L1. specialize (L1 s' I). destruct (Nat.le_gt_cases (String.length s') (String.length s)) as [|G]; [assumption|exfalso].
    rewrite E in W. assert (P := prefixes_compare s s' _ _ W ltac:(lia)). now rewrite P in L1.
  - intros H. destruct (IH L2 H) as (W & I & K). split; [exact W|]. split; [now right|]. intros s' [<-|I'] S; [|now apply K].
    exfalso. apply strip_prefix_none in E. now apply E.
Qed.
Lemma first_prefix_finds {A} (t : list (string * A)) s a r : longest_first (map fst t) = true -> In (s, a) t ->
  (forall s', In s' (map fst t) -> starts_with s' (spelled s ++ r) -> (String.length s' <= String.length s)%nat) ->
  (exists a', first_prefix t (spelled s ++ r) = Some (s, a', r)).
Proof.
  induction t as [|[s0 a0] t IH]; [intros _ []|]. cbn [first_prefix map fst]. intros L I K. cbn in L. apply andb_prop in L as [L1 L2].
  destruct (strip_prefix s0 (spelled s ++ r)) as [r0|] eqn:E.
  - apply strip_prefix_iff in E. assert (H := K s0 (or_introl eq_refl) (ex_intro _ r0 E)).
    destruct I as [[= -> ->]|I]; [apply app_inv_head in E as <-; now exists a|]. exfalso. rewrite forallb_forall in L1.
    specialize (L1 s (in_map fst _ _ I)). symmetry in E. assert (P := prefixes_compare s0 s _ _ E H). now rewrite P in L1.
  - destruct I as [[= -> ->]|I].
    + exfalso. apply strip_prefix_none in E. apply E. now exists r.
    + apply IH; [exact L2|exact I|]. intros s' I' S. apply K; [now right|exact S].
Qed.
Lemma first_prefix_none {A} (t : list (string * A)) l : first_prefix t l = None <-> forall s, In s (map fst t) -> ~ starts_with s l.
Proof.
  induction t as [|[s0 a0] t IH]; [split; [intros _ s []|reflexivity]|]. cbn [first_prefix map fst]. destruct (strip_prefix s0 l) as [r|] eqn:E.
  - split; [discriminate|]. intros H. exfalso. apply (H s0 (or_introl eq_refl)). exists r. now apply strip_prefix_iff.
  - rewrite IH. apply strip_prefix_none in E. split.
    + intros H s [<-|I]; [exact E|now apply H].
    + intros H s I. apply H. now right.
Qed.
Lemma suffixes_ok : longest_first (map fst suffixes) = true. Proof. reflexivity. Qed.
Lemma operators_ok : longest_first (map fst operators) = true. Proof. reflexivity. Qed.
Lemma within_ok (l l' : list string) : forallb (fun s => existsb (String.eqb s) l') l = true -> forall s, In s l -> In s l'.
Proof.
  intros H s I. rewrite forallb_forall in H. specialize (H s I). apply existsb_exists in H as (s' & I' & E). apply String.eqb_eq in E as ->. exact I'.
Qed.
Lemma signs_ok s : In s signs <-> In s (map fst operators).
Proof. split; apply within_ok; reflexivity. Qed.

(** ** Ends *)

Lemma starts_iff p l : starts p l = false <-> forall c r, l = c :: r -> p c = false.
Proof.
  destruct l as [|c r]; cbn [starts]; [split; [discriminate|reflexivity]|]. split; [now intros E c' r' [= <- <-]|intros H; exact (H c r eq_refl)].
Qed.
Lemma word_over_iff l : starts is_id l = false <-> word_over l.
Proof. rewrite starts_iff. unfold word_over. split; intros H c r E; [rewrite <- further_eq|rewrite further_eq]; eapply H, E. Qed.
Lemma number_over_iff l : number_ends l = true <-> number_over l.
Proof.
  unfold number_ends, number_over. rewrite <- word_over_iff. rewrite negb_true_iff, orb_false_iff. split; intros [A B]; (split; [exact A|]).
  - intros c r ->. cbn [Byte.eqb] in B. rewrite <- decimal_eq. exact B.
  - destruct l as [|c r]; [reflexivity|]. destruct (Byte.eqb c x2e) eqn:E; [|reflexivity]. apply byte_eq_true in E as ->. cbn [andb].
    apply starts_iff. intros d r' ->. rewrite decimal_eq. eapply B; reflexivity.
Qed.
Lemma checked_iff t l t' rest : checked t l = Some (t', rest) <-> t' = t /\ rest = l /\ number_over rest.
Proof.
  unfold checked. rewrite <- number_over_iff. destruct (number_ends l) eqn:E.
  - split; [intros [= <- <-]; now rewrite E|now intros (-> & -> & _)].
  - split; [discriminate|intros (-> & -> & F); congruence].
Qed.

Lemma with_suffix_iff z l tk rest :
  with_suffix z l = Some (tk, rest) <-> exists s t, In (s, t) int_suffixes /\ l = spelled s ++ rest /\ number_over rest /\ tk = TInt z t.
Proof.
  unfold with_suffix. split.
  - destruct (first_prefix suffixes l) as [[[s t] l']|] eqn:E; rewrite checked_iff.
    + intros (-> & -> & N). apply first_prefix_longest in E as (-> & I & _); [|reflexivity]. exists s, (Some t). repeat split; try apply N.
      right. change (In ((fun p => (fst p, Some (snd p))) (s, t)) (map (fun p => (fst p, Some (snd p))) suffixes)). now apply in_map.
    + intros (-> & -> & N). exists ""%string, None. repeat split; try apply N. now left.
  - intros (s & t & I & -> & N & ->). destruct I as [[= <- <-]|I].
    + cbn [spelled app list_byte_of_string list_ascii_of_string map].
      assert (F : first_prefix suffixes rest = None).
      { destruct rest as [|c r]; [reflexivity|]. destruct (Byte.eqb x75 c) eqn:E; [apply byte_eq_true in E as <-; destruct N as [N _]; now specialize (N _ _ eq_refl)|].
        cbn [first_prefix suffixes strip_prefix]. change (Ascii.byte_of_ascii "u"%char) with x75. now rewrite E. }
      change (spelled "") with (@nil byte). cbn [app]. rewrite F. now apply checked_iff.
    + cbn in I. repeat destruct I as [[= <- <-]|I]; try contradiction; cbn; now apply checked_iff.
Qed.

(** ** Numbers in a base *)

Definition in_word (ok : byte -> bool) (c : byte) : bool := ok c || Byte.eqb c x5f.
Lemma in_word_iff ok w : Forall (fun c => in_word ok c = true) w <-> Forall (fun c => ok c = true \/ c = x5f) w.
Proof. unfold in_word. split; apply Forall_impl; intros c; rewrite orb_true_iff, byte_eq_true; tauto. Qed.
Lemma suffix_over ok s t rest : (forall c, ok c = true -> hexadecimal c = true) -> In (s, t) int_suffixes -> number_over rest -> starts (in_word ok) (spelled s ++ rest) = false.
Proof.
  intros K I [N _]. cbn in I. destruct I as [[= <- <-]|I].
  - apply starts_iff. intros c r E. specialize (N c r E). unfold in_word. destruct (ok c) eqn:O; [|destruct (Byte.eqb c x5f) eqn:U; [apply byte_eq_true in U as ->; discriminate|reflexivity]].
    apply K in O. clear - N O. assert (X : negb (hexadecimal c) || further c = true) by now destruct c. rewrite N, O in X. discriminate.
  - assert (G : forall r, starts (in_word ok) (x75 :: r) = false).
    { intros r. cbn. unfold in_word. destruct (ok x75) eqn:O; [apply K in O; discriminate|reflexivity]. }
    repeat destruct I as [[= <- <-]|I]; try contradiction; apply G.
Qed.
Lemma existsb_Exists (p : byte -> bool) l : existsb p l = true <-> Exists (fun c => p c = true) l.
Proof. rewrite existsb_exists, Exists_exists. reflexivity. Qed.

Lemma in_base_iff base ok p l tk rest : (forall c, p c = ok c) -> (forall c, ok c = true -> hexadecimal c = true) ->
  (in_base base p l = Some (tk, rest) <->
   exists w s t, l = w ++ spelled s ++ rest /\ Forall (fun d => ok d = true \/ d = x5f) w /\ Exists (fun d => ok d = true) w /\ In (s, t) int_suffixes /\
     number_over rest /\ tk = TInt (value base w) t).
Proof.
  intros P K. unfold in_base.
  assert (N : forall w, Forall (fun d => ok d = true \/ d = x5f) w -> number base 0 w = value base w).
  { intros w F. apply number_eq. revert F. apply Forall_impl. intros c [H|H]; [left; now apply K|now right]. }
  assert (Q : forall w, Forall (fun c => p c || Byte.eqb c x5f = true)%bool w <-> Forall (fun d => ok d = true \/ d = x5f) w).
  { intros w. rewrite <- in_word_iff. unfold in_word. split; apply Forall_impl; intros c; now rewrite P. }
  assert (X : forall w, existsb p w = true <-> Exists (fun d => ok d = true) w).
  { intros w. rewrite <- existsb_Exists. induction w as [|c w IH]; [reflexivity|]. cbn. rewrite P, !orb_true_iff, IH. reflexivity. }
  split.
  - destruct (span (fun c => p c || Byte.eqb c x5f)%bool l) as [d l'] eqn:E. apply span_spec in E as (-> & F & _).
    destruct (existsb p d) eqn:D; [|discriminate]. rewrite with_suffix_iff. intros (s & t & I & -> & O & ->). exists d, s, t.
    apply Q in F. rewrite N by exact F. apply X in D. auto 8.
  - intros (w & s & t & -> & F & D & I & O & ->). rewrite span_app; [|now apply Q|].
    + apply X in D as ->. apply with_suffix_iff. exists s, t. rewrite N by exact F. auto.
    + assert (H := suffix_over ok s t rest K I O). destruct (spelled s ++ rest) as [|c r]; [reflexivity|]. cbn in *. unfold in_word in H. now rewrite P.
Qed.

(** ** Strings *)

Lemma in_quotes_sound : forall n l w rest, (length l <= n)%nat -> in_quotes l = Some (w, rest) -> l = w ++ x22 :: rest /\ quoted w.
Proof.
  induction n as [|n IH]; intros l w rest L; (destruct l as [|c r]; [discriminate|]); cbn in L; [lia|]. cbn [in_quotes].
  destruct (Byte.eqb c x22) eqn:E; [apply byte_eq_true in E as ->; intros [= <- <-]; split; [reflexivity|constructor]|].
  assert (E' : c <> x22) by (intros ->; discriminate).
  destruct (Byte.eqb c x5c) eqn:F.
  - apply byte_eq_true in F as ->. destruct r as [|c' r']; [discriminate|]. destruct (in_quotes r') as [[w' rest']|] eqn:G; [|discriminate].
    cbn. intros [= <- <-]. cbn in L. apply IH in G as [-> Q]; [|lia]. split; [reflexivity|now constructor].
  - destruct (in_quotes r) as [[w' rest']|] eqn:G; [|discriminate]. cbn. intros [= <- <-]. apply IH in G as [-> Q]; [|lia]. split; [reflexivity|].
    constructor; [exact E'|intros ->; discriminate|exact Q].
Qed.
Lemma in_quotes_complete w rest : quoted w -> in_quotes (w ++ x22 :: rest) = Some (w, rest).
Proof.
  induction 1 as [|c w A B Q IH|c w Q IH]; [reflexivity| |].
  - cbn [app in_quotes]. rewrite IH. destruct (Byte.eqb c x22) eqn:E; [apply byte_eq_true in E; contradiction|].
    destruct (Byte.eqb c x5c) eqn:F; [apply byte_eq_true in F; contradiction|]. reflexivity.
  - cbn [app in_quotes]. rewrite IH. reflexivity.
Qed.

(** ** Comments *)

Lemma starts_two a b s : spelled s = [a; b] -> forall l, starts_with s l <-> exists r, l = a :: b :: r.
Proof. intros E l. unfold starts_with. rewrite E. reflexivity. Qed.
Lemma drop_comment_sound : forall n l d rest, (length l <= n)%nat -> drop_comment d l = Some rest -> exists w, l = w ++ rest /\ comment d w.
Proof.
  induction n as [|n IH]; intros l d rest L; (destruct l as [|c [|c' r]]; try discriminate); cbn in L; [lia|]. cbn [drop_comment].
  destruct (Byte.eqb c x2a && Byte.eqb c' x2f)%bool eqn:E.
  - apply andb_prop in E as [E E']. apply byte_eq_true in E as ->. apply byte_eq_true in E' as ->. destruct d as [|d].
    + intros [= <-]. exists (spelled "*/"). split; [reflexivity|constructor].
    + intros H. apply IH in H as (w & -> & C); [|lia]. exists (spelled "*/" ++ w). split; [reflexivity|now constructor].
  - destruct (Byte.eqb c x2f && Byte.eqb c' x2a)%bool eqn:F.
    + apply andb_prop in F as [F F']. apply byte_eq_true in F as ->. apply byte_eq_true in F' as ->.
      intros H. apply IH in H as (w & -> & C); [|lia]. exists (spelled "/*" ++ w). split; [reflexivity|now constructor].
    + change (drop_comment d (c' :: r) = Some rest -> exists w, c :: c' :: r = w ++ rest /\ comment d w).
      intros H. apply IH in H as (w & W & C); [|cbn; lia]. exists (c :: w). split; [now rewrite W|]. constructor; [| |exact C].
      * rewrite (starts_two x2a x2f) by reflexivity. intros (r' & [= -> ->]). injection W as -> _. discriminate.
      * rewrite (starts_two x2f x2a) by reflexivity. intros (r' & [= -> ->]). injection W as -> _. discriminate.
Qed.
Lemma comment_long d w : comment d w -> (2 <= length w)%nat.
Proof. induction 1; cbn in *; lia. Qed.
Lemma drop_comment_complete d w rest : comment d w -> drop_comment d (w ++ rest) = Some rest.
Proof.
  induction 1 as [|d w C IH|d w C IH|d c w A B C IH]; [reflexivity|exact IH|exact IH|].
  assert (L := comment_long d w C). destruct w as [|c' w]; [cbn in L; lia|]. cbn [app]. cbn [drop_comment].
  change (drop_comment d (c' :: w ++ rest)) with (drop_comment d ((c' :: w) ++ rest)).
  destruct (Byte.eqb c x2a && Byte.eqb c' x2f)%bool eqn:E.
  { exfalso. apply A. rewrite (starts_two x2a x2f) by reflexivity. apply andb_prop in E as [E E']. apply byte_eq_true in E as ->. apply byte_eq_true in E' as ->. now exists w. }
  destruct (Byte.eqb c x2f && Byte.eqb c' x2a)%bool eqn:F; [|exact IH].
  exfalso. apply B. rewrite (starts_two x2f x2a) by reflexivity. apply andb_prop in F as [F F']. apply byte_eq_true in F as ->. apply byte_eq_true in F' as ->. now exists w.
Qed.

(** ** One token *)

Lemma initial_not c : initial c = true -> is_digit c = false /\ Byte.eqb c x27 = false /\ Byte.eqb c x22 = false /\ is_space c = false /\ c <> x2f.
Proof.
  intros H. assert (X : negb (initial c) || negb (is_digit c || Byte.eqb c x27 || Byte.eqb c x22 || is_space c || Byte.eqb c x2f) = true) by now destruct c.
  rewrite H in X. cbn [negb orb] in X. apply negb_true_iff in X. rewrite !orb_false_iff in X. destruct X as [[[[A B] C] D] E]. repeat split; try assumption. now intros ->.
Qed.
Lemma digit_not c : decimal c = true -> is_space c = false /\ c <> x2f.
Proof.
  intros H. assert (X : negb (decimal c) || negb (is_space c || Byte.eqb c x2f) = true) by now destruct c.
  rewrite H in X. cbn [negb orb] in X. apply negb_true_iff in X. rewrite orb_false_iff in X. destruct X as [A B]. split; [exact A|now intros ->].
Qed.
Lemma word_iff w : Forall (fun c => is_id c = true) w <-> Forall (fun c => further c = true) w.
Proof. split; apply Forall_impl; intros c; now rewrite further_eq. Qed.
Lemma sign_not s rest : In s signs -> match spelled s ++ rest with [] => False | c :: _ => is_digit c = false /\ Byte.eqb c x27 = false /\ Byte.eqb c x22 = false /\ is_id_start c = false /\ is_space c = false end.
Proof.
  intros I. cbn in I. repeat destruct I as [<-|I]; try contradiction; cbn; repeat split.
Qed.

Lemma decimal_word c w : decimal c = true -> Forall (fun d => decimal d = true \/ d = x5f) w ->
  Forall (fun c => is_digit c || Byte.eqb c x5f = true)%bool (c :: w).
Proof.
  intros D F. constructor; [now rewrite decimal_eq, D|]. revert F. apply Forall_impl. intros d. now rewrite decimal_eq, orb_true_iff, byte_eq_true.
Qed.
Lemma decimal_word_inv c w : is_digit c = true -> Forall (fun c => is_digit c || Byte.eqb c x5f = true)%bool w ->
  decimal c = true /\ Forall (fun d => decimal d = true \/ d = x5f) w.
Proof.
  intros D F. rewrite decimal_eq in D. split; [exact D|]. revert F. apply Forall_impl. intros d. now rewrite decimal_eq, orb_true_iff, byte_eq_true.
Qed.
Lemma decimal_value c w : decimal c = true -> Forall (fun d => decimal d = true \/ d = x5f) w -> number 10 0 (c :: w) = value 10 (c :: w).
Proof.
  intros D F. apply number_eq. constructor; [left; now apply decimal_hex|]. revert F. apply Forall_impl. intros d [H|H]; [left; now apply decimal_hex|now right].
Qed.

(** The branch of [lex_one] for numbers without a prefix. *)
Definition lex_decimal (l : list byte) : option (tok * list byte) :=
  let (d, l') := span (fun c => is_digit c || Byte.eqb c x5f)%bool l in
  match strip_prefix "f64" l' with
  | Some l'' => checked (TFloat (number 10 0 d)) l''
  | None => with_suffix (number 10 0 d) l'
  end.

Lemma lex_decimal_sound c r tk rest : is_digit c = true -> lex_decimal (c :: r) = Some (tk, rest) -> exists w, c :: r = w ++ rest /\ token w rest tk.
Proof.
  intros D. unfold lex_decimal. destruct (span _ (c :: r)) as [d l'] eqn:S.
  assert (X : exists w, d = c :: w). { cbn [span] in S. rewrite D in S. cbn [orb] in S. destruct (span _ r) as [a b]. injection S as <- <-. now exists a. }
  destruct X as (w & ->). apply span_spec in S as (E & F & _). rewrite E. inversion F as [|? ? _ F']; subst. destruct (decimal_word_inv c w D F') as [D' G].
  rewrite decimal_value by assumption. destruct (strip_prefix "f64" l') as [l''|] eqn:P.
  - apply strip_prefix_iff in P as ->. rewrite checked_iff. intros (-> & -> & N). exists (c :: w ++ spelled "f64"). split; [now rewrite app_assoc|now constructor].
  - rewrite with_suffix_iff. intros (s & t & I & -> & N & ->). exists (c :: w ++ spelled s). split; [now rewrite app_assoc|now constructor].
Qed.

Lemma lex_decimal_branch c r : is_digit c = true -> (forall r', r <> x78 :: r') -> (forall r', r <> x62 :: r') -> lex_one (c :: r) = lex_decimal (c :: r).
Proof.
  intros D A B. unfold lex_one. rewrite D. destruct r as [|c' r']; [reflexivity|]. destruct c'; try reflexivity; exfalso; [now apply (B r')|now apply (A r')].
Qed.
(** What follows the digits of a decimal number is not a prefix of another base. *)
Lemma decimal_follow w s rest x : Forall (fun d => decimal d = true \/ d = x5f) w -> In s (map fst int_suffixes) \/ s = "f64"%string -> number_over rest -> x = x78 \/ x = x62 ->
  forall r', w ++ spelled s ++ rest <> x :: r'.
Proof.
  intros F I [N _] X r' E. destruct F as [|c w [D| ->] F].
  - cbn [app] in E. cbn in I. destruct I as [I| ->].
    + destruct I as [<-|I]; [cbn in E; apply N in E; destruct X as [-> | ->]; discriminate|].
      repeat destruct I as [<-|I]; try contradiction; destruct X as [-> | ->]; discriminate.
    + destruct X as [-> | ->]; discriminate.
  - injection E as -> _. destruct X as [-> | ->]; discriminate.
  - injection E as E _. destruct X as [-> | ->]; discriminate.
Qed.

Lemma lex_one_sound l tk rest : ~ starts_with "//" l -> ~ starts_with "/*" l -> lex_one l = Some (tk, rest) -> exists w, l = w ++ rest /\ token w rest tk.
Proof.
  intros A B. destruct l as [|c r]; [discriminate|]. destruct (is_digit c) eqn:D.
  { assert (X : (exists r', r = x78 :: r') \/ (exists r', r = x62 :: r') \/ (forall r', r <> x78 :: r') /\ (forall r', r <> x62 :: r')).
    { destruct r as [|c' r']; [right; right; now split|]. destruct (Byte.eqb c' x78) eqn:X; [apply byte_eq_true in X as ->; left; now exists r'|].
      destruct (Byte.eqb c' x62) eqn:Y; [apply byte_eq_true in Y as ->; right; left; now exists r'|].
      right; right; split; intros r'' [= -> _]; discriminate. }
    destruct X as [(r' & ->)|[(r' & ->)|[X Y]]].
    - unfold lex_one. rewrite D. destruct (Byte.eqb c x30) eqn:Z; [|discriminate]. apply byte_eq_true in Z as ->.
      rewrite (in_base_iff 16 hexadecimal) by (intros; try apply hex_eq; assumption). intros (w & s & t & -> & F & G & I & N & ->).
      exists (spelled "0x" ++ w ++ spelled s). split; [cbn; now rewrite <- app_assoc|]. apply (token_radix "0x" 16 hexadecimal); [now left|assumption..].
    - unfold lex_one. rewrite D. destruct (Byte.eqb c x30) eqn:Z; [|discriminate]. apply byte_eq_true in Z as ->.
      rewrite (in_base_iff 2 binary) by (intros; try apply binary_eq; now apply binary_hex). intros (w & s & t & -> & F & G & I & N & ->).
      exists (spelled "0b" ++ w ++ spelled s). split; [cbn; now rewrite <- app_assoc|]. apply (token_radix "0b" 2 binary); [now right; left|assumption..].
    - rewrite lex_decimal_branch by assumption. now apply lex_decimal_sound. }
  unfold lex_one. rewrite D. destruct (Byte.eqb c x27) eqn:Q.
  { apply byte_eq_true in Q as ->. destruct r as [|c r]; [discriminate|]. cbn [starts]. destruct (is_id_start c) eqn:S; [|discriminate].
    destruct (span is_id (c :: r)) as [d l'] eqn:E. assert (X : exists w, d = c :: w).
    { cbn [span] in E. replace (is_id c) with true in E by (unfold is_id; now rewrite S). destruct (span is_id r) as [a b]. injection E as <- <-. now exists a. }
    destruct X as (w & ->). apply span_spec in E as (-> & F & O). destruct (starts (Byte.eqb x27) l') eqn:P; [discriminate|]. intros [= <- <-].
    exists (x27 :: c :: w). split; [reflexivity|]. inversion F; subst. constructor; [now rewrite <- initial_eq|now apply word_iff|now apply word_over_iff|].
    intros (r' & ->). discriminate. }
  destruct (Byte.eqb c x22) eqn:Q'.
  { apply byte_eq_true in Q' as ->. destruct (in_quotes r) as [[w rest']|] eqn:E; [|discriminate]. intros [= <- <-].
    apply in_quotes_sound with (n := length r) in E as [-> W]; [|lia]. exists (x22 :: w ++ [x22]). split; [cbn; now rewrite <- app_assoc|now constructor]. }
  destruct (is_id_start c) eqn:S.
  { destruct (span is_id (c :: r)) as [d l'] eqn:E. assert (X : exists w, d = c :: w).
    { cbn [span] in E. replace (is_id c) with true in E by (unfold is_id; now rewrite S). destruct (span is_id r) as [a b]. injection E as <- <-. now exists a. }
    destruct X as (w & ->). apply span_spec in E as (-> & F & O). intros [= <- <-]. exists (c :: w). split; [reflexivity|]. inversion F; subst.
    constructor; [now rewrite <- initial_eq|now apply word_iff|now apply word_over_iff]. }
  destruct (first_prefix operators (c :: r)) as [[[s []] r']|] eqn:E; [|discriminate]. intros [= <- <-].
  apply first_prefix_longest in E as (W & I & K); [|reflexivity]. rewrite W in A, B, K |- *. exists (spelled s). split; [reflexivity|].
  constructor; [apply signs_ok; now apply (in_map fst) in I| |exact A|exact B]. intros s' I' H. apply signs_ok in I'. now apply K.
Qed.

Lemma lex_one_complete w rest tk : token w rest tk -> lex_one (w ++ rest) = Some (tk, rest).
Proof.
  destruct 1 as [c w rest C F O|c w s t rest C F I N|p base ok w s t rest P F G I N|c w rest C F N|c w rest C F O A|w rest Q|s rest I K A B].
  - destruct (initial_not c C) as (X & Y & Z & _). unfold lex_one. cbn [app]. rewrite X, Y, Z, initial_eq, C.
    change (c :: w ++ rest) with ((c :: w) ++ rest). rewrite span_app; [reflexivity| |now apply word_over_iff].
    apply word_iff. constructor; [unfold further; now rewrite C|exact F].
  - cbn [app]. rewrite <- app_assoc. rewrite lex_decimal_branch.
    + unfold lex_decimal. change (c :: w ++ spelled s ++ rest) with ((c :: w) ++ spelled s ++ rest). rewrite span_app; [|now apply decimal_word|].
      2:{ assert (H := suffix_over decimal s t rest decimal_hex I N). destruct (spelled s ++ rest) as [|d r]; [reflexivity|]. cbn in *. now rewrite decimal_eq. }
      rewrite decimal_value by assumption. destruct (strip_prefix "f64" (spelled s ++ rest)) as [l|] eqn:E.
      * exfalso. apply strip_prefix_iff in E. destruct N as [N _]. cbn in I. destruct I as [[= <- <-]|I].
        { cbn in E. apply N in E. discriminate. }
        repeat destruct I as [[= <- <-]|I]; try contradiction; discriminate.
      * apply with_suffix_iff. now exists s, t.
    + now rewrite decimal_eq.
    + apply decimal_follow; [exact F|left; now apply (in_map fst) in I|exact N|now left].
    + apply decimal_follow; [exact F|left; now apply (in_map fst) in I|exact N|now right].
  - rewrite <- !app_assoc. cbn in P. destruct P as [[= <- <- <-]|[[= <- <- <-]|[]]].
    + change (lex_one (spelled "0x" ++ w ++ spelled s ++ rest)) with (in_base 16 is_hex (w ++ spelled s ++ rest)).
      apply (in_base_iff 16 hexadecimal); [apply hex_eq|auto|]. exists w, s, t. auto 8.
    + change (lex_one (spelled "0b" ++ w ++ spelled s ++ rest)) with (in_base 2 (between 48 49) (w ++ spelled s ++ rest)).
      apply (in_base_iff 2 binary); [apply binary_eq|apply binary_hex|]. exists w, s, t. auto 8.
  - cbn [app]. rewrite <- app_assoc. rewrite lex_decimal_branch.
    + unfold lex_decimal. change (c :: w ++ spelled "f64" ++ rest) with ((c :: w) ++ spelled "f64" ++ rest). rewrite span_app; [|now apply decimal_word|reflexivity].
      rewrite decimal_value by assumption. replace (strip_prefix "f64" (spelled "f64" ++ rest)) with (Some rest) by (symmetry; now apply strip_prefix_iff).
      now apply checked_iff.
    + now rewrite decimal_eq.
    + apply decimal_follow; [exact F|now right|exact N|now left].
    + apply decimal_follow; [exact F|now right|exact N|now right].
  - cbn [app]. unfold lex_one. change (is_digit x27) with false. change (Byte.eqb x27 x27) with true. cbn [starts]. rewrite initial_eq, C. cbv iota.
    change (c :: w ++ rest) with ((c :: w) ++ rest). rewrite span_app; [| |now apply word_over_iff].
    + destruct (starts (Byte.eqb x27) rest) eqn:E; [|reflexivity]. exfalso. apply A. destruct rest as [|d r]; [discriminate|]. cbn [starts] in E. apply byte_eq_true in E as <-. now exists r.
    + apply word_iff. constructor; [unfold further; now rewrite C|exact F].
  - cbn [app]. rewrite <- app_assoc. cbn [app]. unfold lex_one. change (is_digit x22) with false. change (Byte.eqb x22 x27) with false. change (Byte.eqb x22 x22) with true. cbv iota.
    rewrite in_quotes_complete by exact Q. reflexivity.
  - assert (H := sign_not s rest I). destruct (first_prefix_finds operators s tt rest operators_ok) as ([] & E).
    + apply signs_ok in I. apply in_map_iff in I as ([s0 []] & <- & J). exact J.
    + intros s' J. apply K. now apply signs_ok.
    + unfold lex_one. destruct (spelled s ++ rest) as [|c r] eqn:W; [contradiction|]. destruct H as (-> & -> & -> & -> & _). rewrite E. reflexivity.
Qed.

(** A token is not empty, and starts neither with a blank nor like a comment. *)
Lemma token_head w rest tk : token w rest tk -> w <> [] /\ (forall c r, w ++ rest = c :: r -> is_space c = false) /\ ~ starts_with "//" (w ++ rest) /\ ~ starts_with "/*" (w ++ rest).
Proof.
  assert (G : forall c l, is_space c = false -> c <> x2f -> c :: l <> [] /\ (forall c' r, (c :: l) ++ rest = c' :: r -> is_space c' = false) /\
    ~ starts_with "//" ((c :: l) ++ rest) /\ ~ starts_with "/*" ((c :: l) ++ rest)).
  { intros c l A B. split; [discriminate|]. split; [now intros c' r [= <- _]|]. split.
    - rewrite (starts_two x2f x2f) by reflexivity. now intros (r & [= E _]).
    - rewrite (starts_two x2f x2a) by reflexivity. now intros (r & [= E _]). }
  destruct 1 as [c w rest C F O|c w s t rest C F I N|p base ok w s t rest P F H I N|c w rest C F N|c w rest C F O A|w rest Q|s rest I K A B].
  - apply G; now apply initial_not.
  - apply G; now apply digit_not.
  - cbn in P. destruct P as [[= <- <- <-]|[[= <- <- <-]|[]]]; apply (G x30); [reflexivity|discriminate|reflexivity|discriminate].
  - apply G; now apply digit_not.
  - apply G; [reflexivity|discriminate].
  - apply G; [reflexivity|discriminate].
  - assert (H := sign_not s rest I). split; [|split; [|split; [exact A|exact B]]].
    + intros E. cbn in I. repeat destruct I as [<-|I]; try contradiction; discriminate.
    + intros c r E. rewrite E in H. apply H.
Qed.

(** ** All tokens *)

Lemma starts_with_head c s c' l : spelled s = c' :: l -> c <> c' -> forall r, ~ starts_with s (c :: r).
Proof. intros E N r (r' & F). rewrite E in F. now injection F. Qed.

Theorem lex_sound n : forall l ts, lex n l = Some ts -> lexes l ts.
Proof.
  induction n as [|n IH]; intros l ts; (destruct l as [|c r]; [intros [= <-]; constructor|]); [discriminate|]. cbn [lex].
  destruct (is_space c) eqn:B.
  { intros H. apply (lexes_ignored [c] r); [constructor; now rewrite <- blank_eq|now apply IH]. }
  destruct (strip_prefix "//" (c :: r)) as [r'|] eqn:L.
  { apply strip_prefix_iff in L as ->. destruct (span (fun c => negb (Byte.eqb c x0a)) r') as [w rest] eqn:S. apply span_spec in S as (-> & F & O). cbn [snd].
    intros H. rewrite app_assoc. apply lexes_ignored; [|now apply IH]. constructor.
    - intros I. rewrite Forall_forall in F. apply F in I. discriminate.
    - destruct rest as [|d rest]; [now left|]. right. cbn [starts] in O. destruct (Byte.eqb d x0a) eqn:E; [|discriminate]. apply byte_eq_true in E as ->. now exists rest. }
  destruct (strip_prefix "/*" (c :: r)) as [r'|] eqn:L'.
  { apply strip_prefix_iff in L' as ->. destruct (drop_comment 0 r') as [rest|] eqn:D; [|discriminate]. intros H.
    apply drop_comment_sound with (n := length r') in D as (w & -> & C); [|lia]. rewrite app_assoc. apply lexes_ignored; [now constructor|now apply IH]. }
  destruct (lex_one (c :: r)) as [[t rest]|] eqn:E; [|discriminate]. destruct (lex n rest) as [ts'|] eqn:R; [|discriminate]. intros [= <-].
  apply strip_prefix_none in L, L'. apply lex_one_sound in E as (w & -> & T); [|assumption..]. apply lexes_token; [exact T|now apply IH].
Qed.

Theorem lex_complete l ts : lexes l ts -> forall n, (length l <= n)%nat -> lex n l = Some ts.
Proof.
  induction 1 as [|w rest l I H IH|w rest t l T H IH]; intros n N; [now destruct n| |].
  - destruct I as [c rest B|w rest A B|w rest C].
    + cbn [app] in N |- *. cbn in N. destruct n as [|n]; [lia|]. cbn [lex]. rewrite blank_eq, B. apply IH. lia.
    + rewrite !app_length in N. cbn [length spelled] in N. destruct n as [|n]; [cbn in N; lia|]. change (lex (S n) ((spelled "//" ++ w) ++ rest)) with (lex n (snd (span (fun c => negb (Byte.eqb c x0a)) (w ++ rest)))).
      rewrite span_app; [apply IH; cbn in N; lia| |].
      * apply Forall_forall. intros c I. destruct (Byte.eqb c x0a) eqn:E; [apply byte_eq_true in E as ->; contradiction|reflexivity].
      * destruct B as [-> |(r & ->)]; reflexivity.
    + rewrite !app_length in N. destruct n as [|n]; [cbn in N; lia|].
      change (lex (S n) ((spelled "/*" ++ w) ++ rest)) with (match drop_comment 0 (w ++ rest) with Some l' => lex n l' | None => None end).
      rewrite drop_comment_complete by exact C. apply IH. cbn in N. lia.
  - destruct (token_head w rest t T) as (A & B & C & D). rewrite app_length in N. apply lex_one_complete in T. apply strip_prefix_none in C, D.
    destruct w as [|c w]; [contradiction|]. destruct n as [|n]; [cbn in N; lia|]. cbn [app] in *. cbn [lex].
    rewrite (B c (w ++ rest) eq_refl), C, D, T, IH by (cbn in N; lia). reflexivity.
Qed.

Theorem tokens_iff s ts : tokens s = Some ts <-> lexes (bytes s) ts.
Proof. unfold tokens. split; [apply lex_sound|]. intros H. now apply lex_complete. Qed.
Theorem lexes_unique l ts ts' : lexes l ts -> lexes l ts' -> ts = ts'.
Proof. intros A B. apply lex_complete with (n := length l) in A, B; [congruence|lia..]. Qed.
