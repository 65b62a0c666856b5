(** * GrammarSound: what the parser returns is derived by the grammar. *)

From Coq Require Import String.
From Verif Require Import Base Rust RustLex RustParse Grammar.
Open Scope string_scope.
Open Scope list_scope.

(** ** Tokens *)

Lemma is_tok_T s t : is_tok s t = true <-> t = T s.
Proof.
  unfold is_tok, T. destruct t; destruct (is_word s); cbn; split; try discriminate; intros H.
  - apply String.eqb_eq in H. now subst.
  - injection H as ->. apply String.eqb_refl.
  - apply String.eqb_eq in H. now subst.
  - injection H as ->. apply String.eqb_refl.
Qed.
Lemma at_opt s ts : at_ s ts = true -> ts = T s :: opt s ts.
Proof. unfold at_, opt, eat. destruct ts as [|t r]; [discriminate|]. intros E. rewrite E. apply is_tok_T in E. now subst. Qed.
Lemma at_T s r : at_ s (T s :: r) = true.
Proof. cbn. now apply is_tok_T. Qed.
Lemma opt_T s r : opt s (T s :: r) = r.
Proof. unfold opt, eat. assert (E : is_tok s (T s) = true) by now apply is_tok_T. now rewrite E. Qed.
Lemma at_not s ts : at_ s ts = false -> opt s ts = ts.
Proof. unfold at_, opt, eat. destruct ts as [|t r]; [reflexivity|]. intros ->. reflexivity. Qed.
Lemma keyword_name x : is_keyword x = false -> is_name x.
Proof.
  unfold is_keyword, is_name. intros E I. assert (X : existsb (String.eqb x) keywords = true); [|congruence].
  apply existsb_exists. exists x. split; [exact I|apply String.eqb_refl].
Qed.

(** ** Two tokens out of one *)

Lemma unglued_refl a : unglued a a.
Proof. induction a; now constructor. Qed.
Lemma unglued_app a b c : unglued b c -> unglued (a ++ b) (a ++ c).
Proof. intros H. induction a; [exact H|now constructor]. Qed.
Lemma unglued_trans a b c : unglued a b -> unglued b c -> unglued a c.
Proof.
  intros H. revert c. induction H as [|t a b H IH|a b H IH]; intros c K.
  - exact K.
  - inversion K; subst; constructor; now apply IH.
  - inversion K as [|t b' c' K'|]; subst. inversion K' as [|t b' c'' K''|]; subst. constructor. now apply IH.
Qed.
Lemma unglued_head s ts r : unglued ts (T s :: r) -> s <> ">" -> at_ s ts = true.
Proof.
  intros H N. remember (T s :: r) as l eqn:E. destruct H as [|t a b H|a b H]; [discriminate| |].
  - injection E as -> _. apply at_T.
  - injection E as E _. exfalso. apply N. unfold T in E. destruct (is_word s) in E; [discriminate E|]. now injection E.
Qed.

(** ** Reading: the tokens taken off make up a construct *)

Definition reads {A} (g : list tok -> A -> Prop) (ts : list tok) (r : parsed A) : Prop :=
  forall x rest, r = Got x rest -> exists a, unglued ts (a ++ rest) /\ g a x.

Lemma reads_got {A} (g : list tok -> A -> Prop) ts x : g [] x -> reads g ts (Got x ts).
Proof. intros H y rest [= <- <-]. exists []. split; [apply unglued_refl|exact H]. Qed.
Lemma reads_fail {A} (g : list tok -> A -> Prop) ts w r : reads g ts (Fail w r).
Proof. intros x rest. discriminate. Qed.
Lemma reads_bind {A B} (g1 : list tok -> A -> Prop) (g : list tok -> B -> Prop) ts e (k : A -> list tok -> parsed B) :
  reads g1 ts e -> (forall a x ts', g1 a x -> reads (fun b y => g (a ++ b) y) ts' (k x ts')) ->
  reads g ts (match e with Got x ts' => k x ts' | Fail w r => Fail w r end).
Proof.
  intros H K. destruct e as [x ts'|w r]; [|apply reads_fail]. intros y rest E.
  destruct (H x ts' eq_refl) as (a & U & G). destruct (K a x ts' G y rest E) as (b & V & G'). exists (a ++ b). split; [|exact G'].
  rewrite <- app_assoc. exact (unglued_trans _ _ _ U (unglued_app a _ _ V)).
Qed.
Lemma reads_more {A} (g g' : list tok -> A -> Prop) ts r : reads g ts r -> (forall a x, g a x -> g' a x) -> reads g' ts r.
Proof. intros H K x rest E. destruct (H x rest E) as (a & U & G). exists a. split; [exact U|now apply K]. Qed.
Lemma reads_glue {A} (g : list tok -> A -> Prop) ts ts' r : unglued ts ts' -> reads g ts' r -> reads g ts r.
Proof. intros U H x rest E. destruct (H x rest E) as (a & V & G). exists a. split; [exact (unglued_trans _ _ _ U V)|exact G]. Qed.
(** one token *)
Lemma reads_cons {A} (g : list tok -> A -> Prop) t ts r : reads (fun b y => g (t :: b) y) ts r -> reads g (t :: ts) r.
Proof. intros H x rest E. destruct (H x rest E) as (a & U & G). exists (t :: a). split; [cbn; now constructor|exact G]. Qed.
Lemma reads_eat {A} (g : list tok -> A -> Prop) s ts r : at_ s ts = true -> reads (fun b y => g (T s :: b) y) (opt s ts) r -> reads g ts r.
Proof. intros E H. rewrite (at_opt s ts E). now apply reads_cons. Qed.
Lemma reads_opt {A} (g : list tok -> A -> Prop) s ts r :
  (forall m, optional (T s) m -> reads (fun b y => g (m ++ b) y) (opt s ts) r) -> reads g ts r.
Proof.
  intros H. destruct (at_ s ts) eqn:E.
  - apply (reads_eat _ s); [exact E|]. exact (H _ (given (T s))).
  - specialize (H _ (left_away (T s))). now rewrite (at_not s ts E) in H.
Qed.
Lemma reads_opt_life {A} (g : list tok -> A -> Prop) ts r :
  (forall m, optional TLife m -> reads (fun b y => g (m ++ b) y) (opt_life ts) r) -> reads g ts r.
Proof.
  intros H. destruct ts as [|[| | | | |] ts]; try exact (H _ (left_away TLife)). apply reads_cons. exact (H _ (given TLife)).
Qed.
Lemma reads_expect s ts : reads (fun a _ => a = [T s]) ts (expect s ts).
Proof.
  unfold expect. intros x rest. destruct (eat s ts) as [[|] r] eqn:E; [|discriminate]. intros [= _ <-]. exists [T s]. split; [|reflexivity].
  unfold eat in E. destruct ts as [|t ts']; [discriminate|]. destruct (is_tok s t) eqn:E'; [|discriminate]. apply is_tok_T in E'. injection E as <-. subst. apply unglued_refl.
Qed.
Lemma reads_name ts : reads (fun a x => a = [TId x] /\ is_name x) ts (name ts).
Proof.
  intros x rest. unfold name. destruct ts as [|[| | | |s|] r]; try discriminate. destruct (is_keyword s) eqn:E; [discriminate|]. intros [= -> ->].
  exists [TId x]. split; [apply unglued_refl|]. split; [reflexivity|now apply keyword_name].
Qed.
(** between two elements: either the end comes, or there is a comma *)
Lemma reads_comma {A} (g : list tok -> A -> Prop) close ts k :
  (at_ close ts = true -> reads g ts (k ts)) -> (forall r, reads (fun b y => g (T "," :: b) y) r (k r)) ->
  reads g ts (match comma close ts with Got _ ts' => k ts' | Fail w r => Fail w r end).
Proof.
  intros H K. unfold comma. destruct (at_ close ts) eqn:E; [now apply H|].
  unfold expect, eat. destruct ts as [|t r]; [apply reads_fail|]. destruct (is_tok "," t) eqn:E'; [|apply reads_fail]. apply is_tok_T in E'. subst t. apply reads_cons, K.
Qed.
Lemma unglued_split ts : unglued ts (split_close ts).
Proof.
  unfold split_close. destruct ts as [|[| | | | |o] r]; try apply unglued_refl. destruct (String.eqb_spec o ">>") as [->|]; [|apply unglued_refl].
  apply unglued_close, unglued_refl.
Qed.

(** A list up to [close], which is taken off as well.  [now]: it is there at once. *)
Definition up_to {A} (g : list tok -> A -> Prop) (close : string) (now : bool) (a : list tok) (l : list A) : Prop :=
  exists b, a = b ++ [T close] /\ listed g b l /\ (now = true -> b = [] /\ l = []).

Lemma up_to_listed {A} (g : list tok -> A -> Prop) close now a l : up_to g close now a l -> exists b, a = b ++ [T close] /\ listed g b l.
Proof. intros (b & E & L & _). now exists b. Qed.
Lemma up_to_nil {A} (g : list tok -> A -> Prop) close now : up_to g close now [T close] [].
Proof. exists []. split; [reflexivity|]. split; [constructor|now split]. Qed.
Lemma up_to_more {A} (g : list tok -> A -> Prop) close (p : list tok -> parsed (list A)) ts a x :
  g a x -> (forall ts, reads (up_to g close (at_ close ts)) ts (p ts)) ->
  reads (fun b l => up_to g close false (a ++ b) l) ts (match comma close ts with Got _ ts' => match p ts' with Got l r => Got (x :: l) r | Fail w r => Fail w r end | Fail w r => Fail w r end).
Proof.
  intros G H. apply (reads_comma _ close ts (fun ts' => match p ts' with Got l r => Got (x :: l) r | Fail w r => Fail w r end)).
  - intros E. eapply reads_bind; [apply H|]. intros b l ts' (b' & -> & _ & K). destruct (K E) as [-> ->]. apply reads_got. rewrite app_nil_r.
    exists a. split; [reflexivity|]. split; [now constructor|discriminate].
  - intros r. eapply reads_bind; [apply H|]. intros b l ts' (b' & -> & L & _). apply reads_got. rewrite app_nil_r.
    exists (a ++ T "," :: b'). split; [now rewrite <- app_assoc|]. split; [now constructor|discriminate].
Qed.

Lemma split_ref_cases ts : (exists r, ts = T "&&" :: r /\ split_ref ts = T "&" :: T "&" :: r) \/ split_ref ts = ts.
Proof.
  unfold split_ref. destruct ts as [|[| | | | |o] r]; try (now right). destruct (String.eqb_spec o "&&") as [->|]; [left; now exists r|now right].
Qed.
Lemma reads_ref {A} (g : list tok -> A -> Prop) r R : (forall a x, g a x -> a <> []) -> reads g (T "&" :: r) R -> reads (fun b y => g (T "&" :: b) y) r R.
Proof.
  intros N H x rest E. destruct (H x rest E) as (a & U & G). destruct a as [|t a]; [now specialize (N _ _ G)|].
  cbn in U. inversion U; subst. now exists a.
Qed.

(** ** The steps of a proof *)

Ltac at_cases :=
  match goal with
  | |- reads _ ?ts (if at_ ?s ?ts then _ else _) =>
      let E := fresh "E" in destruct (at_ s ts) eqn:E; [apply (reads_eat _ s ts _ E)|]
  end.
Ltac at_cases_no s := let E := fresh "E" in match goal with |- reads _ ?ts (if at_ s ?ts then _ else _) => destruct (at_ s ts) eqn:E end.
Ltac bind H := eapply reads_bind; [apply H|cbv beta; intros].
Ltac fin := first [apply reads_fail | apply reads_got; rewrite ?app_nil_r, <- ?app_assoc; cbn [app]].

(** ** Patterns *)

Lemma pat_path_nonempty a x : g_pat_path a x -> a <> [].
Proof. intros []; [discriminate|]. intros E; apply app_eq_nil in E as [_ E]; discriminate. Qed.
Lemma pat_nonempty a p : g_pat a p -> a <> [].
Proof. intros []; try discriminate; [intros E; apply app_eq_nil in E as [_ E]; discriminate|eapply pat_path_nonempty; eassumption]. Qed.

Lemma pat_sound n :
  (forall ts, reads g_pat ts (p_pat n ts)) /\
  (forall first x a ts, g_pat_path a x -> (first = true -> a = [TId x] /\ is_name x) -> reads (fun b p => g_pat (a ++ b) p) ts (p_pat_path n first x ts)) /\
  (forall ts, reads (up_to g_pat ")" (at_ ")" ts)) ts (p_pats n ts)).
Proof.
  induction n as [|n (IH1 & IH2 & IH3)]; [repeat split; intros; apply reads_fail|]. split; [|split].
  - intros ts. cbn [p_pat]. destruct (split_ref_cases ts) as [(r & -> & ->)| ->].
    + rewrite at_T, opt_T. apply reads_cons. eapply reads_more; [apply reads_ref; [apply pat_nonempty|apply IH1]|]. intros a p G. now constructor.
    + at_cases; [eapply reads_more; [apply IH1|]; intros a p G; now constructor|].
      at_cases; [eapply reads_more; [apply IH1|]; intros a p G; now constructor|].
      at_cases; [eapply reads_more; [apply IH1|]; intros a p G; now constructor|].
      at_cases; [bind IH3; fin; apply up_to_listed in H as (b & -> & L); now constructor|].
      bind reads_name. destruct H as [-> N]. apply IH2; [now constructor|now split].
  - intros first x a ts G F. cbn [p_pat_path].
    at_cases.
    { bind reads_name. destruct H as [-> N]. eapply reads_more; [apply IH2 with (a := a ++ [T "::"; TId x0]); [now constructor 2 with (y := x)|discriminate]|].
      intros b p G'. cbv beta in G'. rewrite <- app_assoc in G'. exact G'. }
    at_cases. { bind IH3. fin. apply up_to_listed in H as (b & -> & L). now constructor. }
    destruct (is_upper_name x) eqn:U; [fin; now constructor|]. destruct first; [|fin]. destruct (F eq_refl) as [-> N]. fin. now constructor.
  - intros ts. cbn [p_pats]. destruct (at_ ")" ts) eqn:E; [apply (reads_eat _ _ _ _ E); fin; apply up_to_nil|].
    bind IH1. now apply (up_to_more g_pat ")" (p_pats n)).
Qed.

(** ** What is passed over *)

Lemma until_semi_sound ts : reads (fun a _ => exists b, a = b ++ [T ";"] /\ ~ In (T ";") b) ts (until_semi ts).
Proof.
  induction ts as [|t r IH]; [apply reads_fail|]. cbn [until_semi]. apply reads_cons. destruct (is_tok ";" t) eqn:E.
  - apply is_tok_T in E as ->. fin. exists []. now split.
  - eapply reads_more; [exact IH|]. intros a x (b & -> & N). exists (t :: b). split; [reflexivity|]. intros [->|I]; [|now apply N].
    assert (X : is_tok ";" (T ";") = true) by now apply is_tok_T. congruence.
Qed.

Lemma existsb_is_tok l t : existsb (fun o => is_tok o t) l = true -> exists k, In k l /\ t = T k.
Proof. intros H. apply existsb_exists in H as (k & I & E). apply is_tok_T in E. now exists k. Qed.
Lemma existsb_is_tok_not l t : existsb (fun o => is_tok o t) l = false -> forall k, In k l -> t <> T k.
Proof. intros H k I ->. assert (X : existsb (fun o => is_tok o (T k)) l = true) by (apply existsb_exists; exists k; split; [exact I|now apply is_tok_T]). congruence. Qed.

Definition closing : list string := [")"; "]"; "}"].
Lemma group_sound ts : forall d, reads (fun a x => exists k, a = x ++ [T k] /\ In k closing /\ balanced d x) ts (group ["("; "["; "{"] closing d ts).
Proof.
  induction ts as [|t r IH]; intros d; [apply reads_fail|]. cbn [group]. apply reads_cons.
  destruct (existsb _ ["("; "["; "{"]) eqn:E1.
  { apply existsb_is_tok in E1 as (k & I & ->). bind IH. destruct H as (k' & -> & I' & B). fin. exists k'. split; [reflexivity|]. split; [exact I'|]. now apply balanced_open. }
  destruct (existsb _ closing) eqn:E2.
  { apply existsb_is_tok in E2 as (k & I & ->). destruct d as [|d].
    - fin. exists k. split; [reflexivity|]. split; [exact I|constructor].
    - bind IH. destruct H as (k' & -> & I' & B). fin. exists k'. split; [reflexivity|]. split; [exact I'|]. now apply balanced_close. }
  bind IH. destruct H as (k' & -> & I' & B). fin. exists k'. split; [reflexivity|]. split; [exact I'|]. apply balanced_other; [|exact B].
  intros k I. change (In k (["("; "["; "{"] ++ closing)) in I. apply in_app_or in I as [I|I]; [exact (existsb_is_tok_not _ _ E1 k I)|exact (existsb_is_tok_not _ _ E2 k I)].
Qed.
Lemma bracketed_sound ts : reads (fun a x => exists k, a = x ++ [T k] /\ In k closing /\ balanced 0 x) ts (bracketed ts).
Proof. exact (group_sound ts 0). Qed.

Lemma attributes_sound n : forall ts, reads g_attributes ts (attributes n ts).
Proof.
  induction n as [|n IH]; intros ts; [apply reads_fail|]. cbn [attributes]. at_cases; [|fin; constructor].
  apply reads_opt with (s := "!"). intros m M. bind reads_expect. subst a. bind bracketed_sound. destruct H as (k & -> & I & B).
  bind IH. fin. now apply attributes_more.
Qed.

(** ** What a construct starts with *)

Lemma at_start s ts a rest : unglued ts (a ++ rest) -> s <> ">" -> at_ s ts = false -> forall r, a <> T s :: r.
Proof. intros U N E r ->. apply unglued_head in U; [congruence|exact N]. Qed.
Lemma reads_not_at {A} (g : list tok -> A -> Prop) s ts R : s <> ">" -> at_ s ts = false -> reads g ts R ->
  reads (fun a x => g a x /\ forall r, a <> T s :: r) ts R.
Proof. intros N E H x rest F. destruct (H x rest F) as (a & U & G). exists a. split; [exact U|]. split; [exact G|]. exact (at_start s ts a rest U N E). Qed.
Lemma reads_alone {A} (g : list tok -> A -> Prop) ts R : (forall a x, g a x -> a <> []) -> ends_itself ts = true -> reads g ts R ->
  reads (fun a x => g a x /\ starts_alone a) ts R.
Proof.
  intros N E H x rest F. destruct (H x rest F) as (a & U & G). exists a. split; [exact U|]. split; [exact G|].
  apply existsb_exists in E as (k & I & E). apply at_opt in E. destruct a as [|t a]; [now specialize (N _ _ G)|]. rewrite E in U. exists k, a. split; [exact I|].
  cbn [app] in U. inversion U as [|t' a' b' U'|a' b' U' E1]; subst; [reflexivity|]. exfalso. clear -I E1. cbn in I. intuition (subst; discriminate).
Qed.
Lemma reads_not_alone {A} (g : list tok -> A -> Prop) ts R : ends_itself ts = false -> reads g ts R -> reads (fun a x => g a x /\ ~ starts_alone a) ts R.
Proof.
  intros E H x rest F. destruct (H x rest F) as (a & U & G). exists a. split; [exact U|]. split; [exact G|]. intros (k & r & I & ->).
  assert (X : ends_itself ts = true); [|congruence]. apply existsb_exists. exists k. split; [exact I|]. apply unglued_head in U; [exact U|].
  clear -I. cbn in I. intuition (subst; discriminate).
Qed.

(** ** Operators *)

Lemma find_In {A} (l : list (string * A)) s a : find l s = Some a -> In (s, a) l.
Proof. induction l as [|[t b] r IH]; [discriminate|]. cbn [find]. destruct (String.eqb_spec s t) as [->|N]; [intros [= <-]; now left|intros H; right; now apply IH]. Qed.
Lemma binary_op o j : find binary_ops o = Some j -> TOp o = T o /\ at_level (8 - j) o /\ (j < 9)%nat.
Proof.
  intros H. apply find_In in H. unfold binary_ops in H. cbn [In] in H.
  repeat (destruct H as [[= <- <-]|H]; [split; [reflexivity|split; [eexists; split; [reflexivity|cbn; tauto]|lia]]|]). destruct H.
Qed.
Lemma assign_op o b : find assign_ops o = Some b -> In b compound /\ TOp o = T (b ++ "=").
Proof.
  intros H. apply find_In in H. unfold assign_ops in H. cbn [In] in H.
  repeat (destruct H as [[= <- <-]|H]; [split; [cbn; tauto|reflexivity]|]). destruct H.
Qed.

(** ** Nothing is empty *)

Ltac nonempty := intros E; repeat (apply app_eq_nil in E as [? E]); discriminate.
Lemma type_path_nonempty a p l : g_type_path a p l -> a <> [].
Proof. intros []; nonempty. Qed.
Lemma type_nonempty a t : g_type a t -> a <> [].
Proof. intros []; try discriminate. intros E. apply app_eq_nil in E as [_ E]. apply app_eq_nil in E as [_ E]. now apply type_path_nonempty in H1. Qed.
Lemma path_nonempty a p us : g_path a p us -> a <> [].
Proof. intros []; nonempty. Qed.
Lemma block_nonempty a e : g_block a e -> a <> [].
Proof. intros []; discriminate. Qed.
Lemma if_nonempty a e : g_if a e -> a <> [].
Proof. intros []; discriminate. Qed.
Lemma primary_nonempty ns a e : g_primary ns a e -> a <> [].
Proof.
  intros []; try discriminate; try nonempty; eauto using block_nonempty, if_nonempty, path_nonempty.
Qed.
Lemma postfix_nonempty ns a e : g_postfix ns a e -> a <> [].
Proof. intros []; try nonempty; eauto using primary_nonempty. Qed.
Lemma unary_nonempty ns a e : g_unary ns a e -> a <> [].
Proof. intros []; try discriminate; eauto using postfix_nonempty. Qed.

Lemma path_names : forall a p us, g_path a p us -> p <> [].
Proof. fix IH 4. intros a p us []; [discriminate|now destruct p0|exact (IH _ _ _ H)]. Qed.
Lemma path_single a m : g_path a [m] None -> exists c, a = c ++ [TId m] /\ optional (T "::") c /\ is_name m.
Proof.
  intros H. inversion H as [c x O N|a' p us x G N|]; subst.
  - now exists c.
  - exfalso. apply path_names in G. destruct p as [|y [|z p]]; [now apply G|discriminate|discriminate].
Qed.

(** ** Types and expressions *)

Definition braced {A} (g : list tok -> list A -> Prop) (now : bool) (nothing : list A) (a : list tok) (l : list A) : Prop :=
  exists b, a = b ++ [T "}"] /\ g b l /\ (now = true -> b = [] /\ l = nothing).

Record sound (n : nat) : Prop := {
  s_type : forall ts, reads g_type ts (p_type n ts);
  s_bounds : forall ts, reads (fun a _ => g_bounds a) ts (p_bounds n ts);
  s_path_type : forall a p l ts, g_type_path a p l -> reads (fun b t => exists p' l', g_type_path (a ++ b) p' l' /\ t = path_type p' l') ts (p_path_type n p l ts);
  s_types : forall ts, reads (up_to g_type ")" (at_ ")" ts)) ts (p_types n ts);
  s_type_args : forall ts, reads (fun a l => exists b us, a = b ++ [T ">"] /\ listed g_type_arg b us /\ l = somes us /\ (at_ ">" ts = true -> b = [] /\ us = [])) ts (p_type_args n ts);
  s_type_arg : forall ts, reads g_type_arg ts (p_type_arg n ts);
  s_expr : forall ns ts, reads (g_expr ns) ts (p_expr n ns ts);
  s_range : forall ns ts, reads (g_range ns) ts (p_range n ns ts);
  s_bin : forall k ns ts, (k <= 9)%nat -> reads (g_binary ns (9 - k)) ts (p_bin n k ns ts);
  s_bin_more : forall k ns l a ts, (k < 9)%nat -> g_binary ns (if Nat.eqb k 2 then 6%nat else 9 - k) a l ->
    reads (fun b e => g_binary ns (9 - k) (a ++ b) e) ts (p_bin_more n k ns l ts);
  s_casts : forall ns e a ts, g_cast ns a e -> reads (fun b f => g_cast ns (a ++ b) f) ts (p_casts n e ts);
  s_unary : forall ns ts, reads (g_unary ns) ts (p_unary n ns ts);
  s_postfix : forall ns e a ts, g_postfix ns a e -> reads (fun b f => g_postfix ns (a ++ b) f) ts (p_postfix n e ts);
  s_args : forall close ts, reads (up_to (g_expr false) close (at_ close ts)) ts (p_args n close ts);
  s_primary : forall ns ts, reads (g_primary ns) ts (p_primary n ns ts);
  s_if : forall ns ts, at_ "if" ts = true -> reads g_if ts (p_primary n ns ts);
  s_path : forall ns a p us ts, g_path a p us -> reads (fun b e => g_primary ns (a ++ b) e) ts (p_path n ns p us ts);
  s_fields : forall ts, reads (up_to g_field "}" (at_ "}" ts)) ts (p_fields n ts);
  s_arms : forall ts, reads (braced g_arms (at_ "}" ts) []) ts (p_arms n ts);
  s_block : forall ts, reads g_block ts (p_block n ts);
  s_stmts : forall o ts, reads (braced (g_stmts o) (at_ "}" ts) (if o then [SUnit] else [])) ts (p_stmts n o ts)
}.

Lemma sound_0 : sound 0.
Proof. constructor; intros; apply reads_fail. Qed.

Section step.
Context (n : nat) (IH : sound n).

Lemma step_type ts : reads g_type ts (p_type (S n) ts).
Proof.
  cbn [p_type]. destruct (split_ref_cases ts) as [(r & -> & ->)| ->].
  - rewrite at_T, opt_T. cbn [opt_life]. change (opt "mut" (T "&" :: r)) with (T "&" :: r). apply reads_cons.
    bind (reads_ref g_type r _ type_nonempty (s_type n IH (T "&" :: r))). fin. now apply type_ref_ref.
  - at_cases. { apply reads_opt_life. intros l L. apply reads_opt with (s := "mut"). intros m M. bind (s_type n IH). fin. now apply type_ref. }
    at_cases. { bind (s_types n IH). apply up_to_listed in H as (b & -> & L). destruct x as [|t [|u x]]; fin.
      - inversion L. now apply type_unit.
      - now apply type_tuple. }
    at_cases. { bind (s_type n IH). at_cases.
      - bind (s_expr n IH). bind reads_expect. subst. fin. eapply type_array; eassumption.
      - bind reads_expect. subst. fin. now apply type_slice. }
    at_cases. { bind (s_type n IH). bind (s_bounds n IH). fin. now apply type_impl. }
    apply reads_opt with (s := "dyn"). intros d D. apply reads_opt with (s := "::"). intros c C. bind reads_name. destruct H as [-> N].
    eapply reads_more; [apply (s_path_type n IH) with (a := [TId x]); now constructor|]. cbv beta. intros b t (p & l & G & ->). now apply type_path.
Qed.
Lemma step_bounds ts : reads (fun a _ => g_bounds a) ts (p_bounds (S n) ts).
Proof.
  cbn [p_bounds]. at_cases; [|fin; constructor]. bind (s_type n IH). eapply reads_more; [apply (s_bounds n IH)|]. cbv beta. intros b u G. econstructor; eassumption.
Qed.
Lemma step_path_type a p l ts : g_type_path a p l ->
  reads (fun b t => exists p' l', g_type_path (a ++ b) p' l' /\ t = path_type p' l') ts (p_path_type (S n) p l ts).
Proof.
  intros G. cbn [p_path_type].
  at_cases. { bind reads_name. destruct H as [-> N]. eapply reads_more; [apply (s_path_type n IH) with (a := a ++ [T "::"; TId x]); now constructor|].
    cbv beta. intros b t (p' & l' & G' & ->). rewrite <- app_assoc in G'. now exists p', l'. }
  at_cases. { bind (s_type_args n IH). destruct H as (b & us & -> & L & -> & _).
    eapply reads_more; [apply (s_path_type n IH) with (a := a ++ T "<" :: b ++ [T ">"]); econstructor; eassumption|].
    cbv beta. intros c t (p' & l' & G' & ->). rewrite <- app_assoc in G'. now exists p', l'. }
  fin. now exists p, l.
Qed.
Lemma step_types ts : reads (up_to g_type ")" (at_ ")" ts)) ts (p_types (S n) ts).
Proof.
  cbn [p_types]. destruct (at_ ")" ts) eqn:E; [apply (reads_eat _ _ _ _ E); fin; apply up_to_nil|].
  bind (s_type n IH). apply (up_to_more g_type ")" (p_types n)); [assumption|apply (s_types n IH)].
Qed.
Lemma split_at ts : at_ ">" ts = true -> split_close ts = ts.
Proof. intros E. rewrite (at_opt _ _ E). reflexivity. Qed.
Lemma step_type_args ts :
  reads (fun a l => exists b us, a = b ++ [T ">"] /\ listed g_type_arg b us /\ l = somes us /\ (at_ ">" ts = true -> b = [] /\ us = [])) ts (p_type_args (S n) ts).
Proof.
  cbn [p_type_args]. destruct (at_ ">" ts) eqn:E0.
  { rewrite (split_at ts E0), E0. apply (reads_eat _ _ _ _ E0). fin. exists [], []. repeat split; constructor. }
  apply reads_glue with (1 := unglued_split ts). at_cases. { fin. exists [], []. repeat split; constructor. }
  bind (s_type_arg n IH). apply reads_glue with (1 := unglued_split ts').
  apply (reads_comma _ ">" _ (fun ts' => match p_type_args n ts' with Got l r => Got (match x with Some t => t :: l | None => l end) r | Fail w r => Fail w r end)).
  - intros E1. bind (s_type_args n IH). destruct H0 as (b & us & -> & _ & -> & K). destruct (K E1) as [-> ->]. fin.
    exists a, [x]. split; [reflexivity|]. split; [now constructor|]. split; [now destruct x|discriminate].
  - intros r. bind (s_type_args n IH). destruct H0 as (b & us & -> & L & -> & _). fin. exists (a ++ T "," :: b), (x :: us).
    split; [now rewrite <- app_assoc|]. split; [now constructor|]. split; [now destruct x|discriminate].
Qed.
Lemma step_type_arg ts : reads g_type_arg ts (p_type_arg (S n) ts).
Proof.
  cbn [p_type_arg].
  assert (D : reads g_type_arg ts (match p_type n ts with Got t ts => Got (Some t) ts | Fail w r => Fail w r end)) by (bind (s_type n IH); fin; now constructor).
  destruct ts as [|[| | | |x|] r]; try exact D; [apply reads_cons; fin; constructor|]. cbn [at_life].
  destruct r as [|[| | | | |o] r]; try exact D. destruct (String.eqb_spec o "=") as [->|]; [|exact D]. destruct (is_keyword x) eqn:K; [exact D|]. cbn [andb negb].
  apply reads_cons, reads_cons. bind (s_type n IH). fin. eapply type_arg_binding; [now apply keyword_name|eassumption].
Qed.
Lemma step_expr ns ts : reads (g_expr ns) ts (p_expr (S n) ns ts).
Proof.
  cbn [p_expr]. at_cases. { destruct (_ || _)%bool; [fin; apply expr_return_unit|]. bind (s_expr n IH). fin. now constructor. }
  at_cases. { fin. apply expr_break. }
  at_cases. { bind (proj1 (pat_sound n)). bind reads_expect. bind (s_expr n IH). subst. fin. now apply expr_closure. }
  bind (s_range n IH). destruct ts' as [|[| | | | |o] r]; try (fin; now apply expr_range).
  destruct (String.eqb_spec o "=") as [->|]; [apply reads_cons; bind (s_expr n IH); fin; now apply expr_assign|].
  destruct (find assign_ops o) as [b|] eqn:F; [|fin; now apply expr_range]. apply assign_op in F as [I ->]. apply reads_cons. bind (s_expr n IH). fin. now apply expr_op_assign.
Qed.
Lemma step_range ns ts : reads (g_range ns) ts (p_range (S n) ns ts).
Proof.
  cbn [p_range]. at_cases.
  { destruct (at_ "]" (opt ".." ts)); [fin; constructor|]. bind (s_bin n IH 0%nat ns (opt ".." ts) ltac:(lia)). fin. now constructor. }
  bind (s_bin n IH 0%nat ns ts ltac:(lia)). at_cases; [|fin; now constructor].
  destruct (_ || _)%bool; [fin; now constructor|]. bind (s_bin n IH 0%nat ns (opt ".." ts') ltac:(lia)). fin. now constructor.
Qed.
Lemma step_bin k ns ts : (k <= 9)%nat -> reads (g_binary ns (9 - k)) ts (p_bin (S n) k ns ts).
Proof.
  intros Hk. cbn [p_bin]. unfold tightest. destruct (Nat.eqb_spec k 9) as [->|N].
  - bind (s_unary n IH ns). eapply reads_more; [apply (s_casts n IH ns); constructor; eassumption|]. cbv beta. intros b e G. now constructor.
  - bind (s_bin n IH (S k) ns ts ltac:(lia)). apply (s_bin_more n IH); [lia|]. destruct (Nat.eqb_spec k 2) as [->|]; [exact H|].
    replace (9 - k)%nat with (S (9 - S k)) by lia. now constructor.
Qed.
Lemma step_bin_more k ns l a ts : (k < 9)%nat -> g_binary ns (if Nat.eqb k 2 then 6%nat else 9 - k) a l ->
  reads (fun b e => g_binary ns (9 - k) (a ++ b) e) ts (p_bin_more (S n) k ns l ts).
Proof.
  intros Hk G. cbn [p_bin_more].
  assert (D : reads (fun b e => g_binary ns (9 - k) (a ++ b) e) ts (Got l ts)) by (fin; destruct (Nat.eqb_spec k 2) as [->|]; [now constructor|exact G]).
  destruct ts as [|[| | | | |o] r]; try exact D. destruct (find binary_ops o) as [j|] eqn:F; [|exact D]. apply binary_op in F as (F & L & Hj).
  destruct (Nat.eqb_spec j k) as [->|]; [|exact D]. clear D. rewrite F. apply reads_cons. bind (s_bin n IH (S k) ns r ltac:(lia)). unfold comparison.
  destruct (Nat.eqb_spec k 2) as [->|N]; [fin; now apply binary_compare|]. replace (9 - k)%nat with (S (8 - k)) in * by lia.
  eapply reads_more; [apply (s_bin_more n IH) with (a := a ++ T o :: a0); [exact Hk|]|].
  - destruct (Nat.eqb_spec k 2); [contradiction|]. replace (9 - k)%nat with (S (8 - k)) by lia. apply binary_left; try assumption. lia.
  - cbv beta. intros b e G'. replace (9 - k)%nat with (S (8 - k)) in G' by lia. now rewrite <- app_assoc in G'.
Qed.
Lemma step_casts ns e a ts : g_cast ns a e -> reads (fun b f => g_cast ns (a ++ b) f) ts (p_casts (S n) e ts).
Proof.
  intros G. cbn [p_casts]. at_cases; [|fin; exact G]. bind (s_type n IH).
  eapply reads_more; [apply (s_casts n IH ns) with (a := a ++ T "as" :: a0); now constructor|]. cbv beta. intros b f G'. now rewrite <- app_assoc in G'.
Qed.
Lemma step_unary ns ts : reads (g_unary ns) ts (p_unary (S n) ns ts).
Proof.
  cbn [p_unary]. destruct (split_ref_cases ts) as [(r & -> & ->)| ->].
  - rewrite at_T, opt_T. change (opt "mut" (T "&" :: r)) with (T "&" :: r). apply reads_cons.
    bind (reads_ref (g_unary ns) r _ (unary_nonempty ns) (s_unary n IH ns (T "&" :: r))). fin. now apply unary_ref_ref.
  - at_cases. { apply reads_opt with (s := "mut"). intros m M. bind (s_unary n IH ns). fin. now constructor. }
    at_cases. { bind (s_unary n IH ns). fin. now constructor. }
    at_cases. { bind (s_unary n IH ns). fin. now constructor. }
    bind (s_primary n IH ns). eapply reads_more; [apply (s_postfix n IH ns) with (a := a); now constructor|]. cbv beta. intros b e G. now constructor.
Qed.
Lemma step_postfix ns e a ts : g_postfix ns a e -> reads (fun b f => g_postfix ns (a ++ b) f) ts (p_postfix (S n) e ts).
Proof.
  intros G. cbn [p_postfix]. at_cases.
  { destruct (opt "." ts) as [|[z s| | | |x|] r]; try apply reads_fail.
    - destruct z; try apply reads_fail. destruct s; [apply reads_fail|]. apply reads_cons.
      eapply reads_more; [apply (s_postfix n IH ns) with (a := a ++ [T "."; TInt 0 None]); now constructor|]. cbv beta. intros b f G'. now rewrite <- app_assoc in G'.
    - destruct (is_keyword x) eqn:K; [apply reads_fail|]. apply keyword_name in K. apply reads_cons. at_cases.
      + bind (s_args n IH). apply up_to_listed in H as (b & -> & L).
        eapply reads_more; [apply (s_postfix n IH ns) with (a := a ++ T "." :: TId x :: T "(" :: b ++ [T ")"]); now constructor|].
        cbv beta. intros c f G'. rewrite <- app_assoc in G'. cbn [app] in G' |- *. exact G'.
      + eapply reads_more; [apply (s_postfix n IH ns) with (a := a ++ [T "."; TId x]); now constructor|]. cbv beta. intros b f G'. now rewrite <- app_assoc in G'. }
  at_cases; [|fin; exact G]. bind (s_expr n IH false). bind reads_expect. subst.
  eapply reads_more; [apply (s_postfix n IH ns) with (a := a ++ T "[" :: a0 ++ [T "]"]); now constructor|].
  cbv beta. intros c f G'. rewrite <- app_assoc in G'. cbn [app] in G' |- *. now rewrite <- app_assoc in G'.
Qed.
Lemma step_args close ts : reads (up_to (g_expr false) close (at_ close ts)) ts (p_args (S n) close ts).
Proof.
  cbn [p_args]. destruct (at_ close ts) eqn:E; [apply (reads_eat _ _ _ _ E); fin; apply up_to_nil|].
  bind (s_expr n IH false). apply (up_to_more (g_expr false) close (p_args n close)); [assumption|apply (s_args n IH)].
Qed.
Lemma step_if ns ts : at_ "if" ts = true -> reads g_if ts (p_primary (S n) ns ts).
Proof.
  intros E. rewrite (at_opt _ _ E). generalize (opt "if" ts). clear E ts. intros ts. cbn [p_primary T is_word String.eqb Ascii.eqb Bool.eqb]. apply reads_cons.
  bind (s_expr n IH true). bind (s_block n IH). at_cases; [|fin; now constructor].
  set (ts1 := opt "else" ts'0) in *. clearbody ts1.
  destruct (at_ "if" ts1) eqn:E1.
  - bind (s_if n IH false ts1 E1). fin. now apply if_else_if.
  - bind (s_block n IH). fin. now apply if_else.
Qed.
Lemma step_primary ns ts : reads (g_primary ns) ts (p_primary (S n) ns ts).
Proof.
  destruct (at_ "if" ts) eqn:E0. { eapply reads_more; [now apply step_if|]. intros a e G. now constructor. }
  cbn [p_primary]. destruct ts as [|[z s|z| |s|x|o] r]; try apply reads_fail; try (apply reads_cons; fin; constructor).
  - destruct (String.eqb_spec x "if") as [->|_]; [discriminate E0|].
    destruct (String.eqb_spec x "match") as [->|_].
    { apply reads_cons. bind (s_expr n IH true). bind reads_expect. bind (s_arms n IH). subst. destruct H1 as (b & -> & L & _). fin. rewrite <- ?app_assoc. now apply primary_match. }
    destruct (String.eqb_spec x "for") as [->|_].
    { apply reads_cons. bind (proj1 (pat_sound n)). bind reads_expect. bind (s_expr n IH true). bind (s_block n IH). subst. fin. now apply primary_for. }
    destruct (String.eqb_spec x "loop") as [->|_]. { apply reads_cons. bind (s_block n IH). fin. now constructor. }
    destruct (String.eqb_spec x "true") as [->|_]. { apply reads_cons. fin. constructor. }
    destruct (String.eqb_spec x "false") as [->|_]. { apply reads_cons. fin. constructor. }
    assert (D : reads (g_primary ns) (TId x :: r) (if is_keyword x then Fail "expression" (TId x :: r) else p_path n ns [x] None r)).
    { destruct (is_keyword x) eqn:K; [apply reads_fail|]. apply reads_cons. apply (s_path n IH ns [TId x]). apply (path_name [] x); [constructor|now apply keyword_name]. }
    destruct r as [|[| | |s| |] r]; try exact D. destruct (String.eqb_spec x "b") as [->|_]; [|apply reads_fail]. apply reads_cons, reads_cons. fin. constructor.
  - destruct (String.eqb_spec o "(") as [->|_].
    { apply reads_cons. at_cases; [fin; constructor|]. bind (s_expr n IH false). at_cases; [fin; now constructor|].
      bind reads_expect. bind (s_args n IH). apply up_to_listed in H1 as (b & -> & L). subst. fin. now constructor. }
    destruct (String.eqb_spec o "[") as [->|_].
    { apply reads_cons. at_cases; [fin; apply (primary_array ns []); constructor|]. bind (s_expr n IH false). at_cases.
      - bind (s_expr n IH false). bind reads_expect. subst. fin. now constructor.
      - apply (reads_more (fun b e => exists l, up_to (g_expr false) "]" false (a ++ b) l /\ e = SArray l)).
        + intros y rest. destruct (comma "]" ts') as [u ts1|] eqn:C; [|discriminate]. destruct (p_args n "]" ts1) as [l ts2|] eqn:P; [|discriminate]. intros [= <- <-].
          assert (R := up_to_more (g_expr false) "]" (p_args n "]") ts' a x H (s_args n IH "]")). rewrite C, P in R.
          destruct (R _ _ eq_refl) as (b & U & G). exists b. split; [exact U|]. now exists (x :: l).
        + intros b e (l & (c & Ec & L & _) & ->). rewrite Ec. now constructor. }
    destruct (String.eqb_spec o "{") as [->|_]. { eapply reads_more; [apply (s_block n IH)|]. intros a e G. now constructor. }
    destruct (String.eqb_spec o "::") as [->|_]; [|apply reads_fail]. apply reads_cons. bind reads_name. destruct H as [-> N].
    apply (s_path n IH ns ([T "::"] ++ [TId x])). apply path_name; [constructor|exact N].
Qed.
Lemma step_path ns a p us ts : g_path a p us -> reads (fun b e => g_primary ns (a ++ b) e) ts (p_path (S n) ns p us ts).
Proof.
  intros G. cbn [p_path]. at_cases.
  { at_cases.
    - bind (s_type_args n IH). destruct H as (b & vs & -> & L & -> & _).
      eapply reads_more; [apply (s_path n IH ns) with (a := a ++ T "::" :: T "<" :: b ++ [T ">"]); econstructor; eassumption|].
      cbv beta. intros c e G'. rewrite <- app_assoc in G'. exact G'.
    - bind reads_name. destruct H as [-> N]. eapply reads_more; [apply (s_path n IH ns) with (a := a ++ [T "::"; TId x]); now constructor|].
      cbv beta. intros c e G'. now rewrite <- app_assoc in G'. }
  at_cases.
  { destruct p as [|m [|? ?]]; [apply reads_fail| |destruct us; apply reads_fail]. destruct us as [us|]; [apply reads_fail|].
    apply path_single in G as (c & -> & C & N). destruct (String.eqb_spec m "") as [_|_]; [apply reads_fail|].
    destruct (String.eqb_spec m "vec" ) as [->|_]; cbn [andb].
    - set (ts1 := opt "!" ts) in *. clearbody ts1. at_cases.
      + bind (s_expr n IH false). bind reads_expect. bind (s_expr n IH false). bind reads_expect. subst. fin. rewrite <- ?app_assoc. cbn [app]. now apply primary_vec.
      + bind reads_expect. bind (s_args n IH). apply up_to_listed in H0 as (b & -> & L). subst. fin. rewrite <- ?app_assoc. cbn [app]. now apply primary_macro.
    - bind reads_expect. bind (s_args n IH). apply up_to_listed in H0 as (b & -> & L). subst. fin. rewrite <- ?app_assoc. cbn [app]. now apply primary_macro. }
  at_cases. { bind (s_args n IH). apply up_to_listed in H as (b & -> & L). fin. now apply primary_call. }
  destruct us as [us|]; [apply reads_fail|]. destruct (at_ "{" ts) eqn:E2; [|fin; now apply primary_path]. destruct ns; [fin; now apply primary_path|]. cbn [andb negb].
  destruct (is_upper_name (hd "" p)) eqn:U; [|fin; now apply primary_path].
  apply (reads_eat _ _ _ _ E2). bind (s_fields n IH). apply up_to_listed in H as (b & -> & L). fin. now apply primary_struct.
Qed.
Lemma step_fields ts : reads (up_to g_field "}" (at_ "}" ts)) ts (p_fields (S n) ts).
Proof.
  cbn [p_fields]. destruct (at_ "}" ts) eqn:E; [apply (reads_eat _ _ _ _ E); fin; apply up_to_nil|].
  bind reads_name. destruct H as [-> N].
  eapply (reads_bind (fun a e => g_field (TId x :: a) (x, e))).
  { at_cases; [|fin; now constructor]. eapply reads_more; [apply (s_expr n IH)|]. intros a e G. now constructor. }
  intros b e ts1 G. apply (reads_more (fun c l => up_to g_field "}" false ((TId x :: b) ++ c) l)); [|now intros].
  apply (up_to_more g_field "}" (p_fields n)); [exact G|apply (s_fields n IH)].
Qed.
Lemma step_arms ts : reads (braced g_arms (at_ "}" ts) []) ts (p_arms (S n) ts).
Proof.
  cbn [p_arms]. destruct (at_ "}" ts) eqn:E; [apply (reads_eat _ _ _ _ E); fin; exists []; repeat split; constructor|].
  bind (proj1 (pat_sound n)). bind reads_expect. subst a0. destruct (at_ "{" ts'0) eqn:E1.
  - bind (s_block n IH). apply reads_opt with (s := ","). intros c C. bind (s_arms n IH). destruct H1 as (b & -> & L & _). fin.
    exists (a ++ T "=>" :: a0 ++ c ++ b). split; [now rewrite <- ?app_assoc; cbn [app]; rewrite <- ?app_assoc|]. split; [now constructor|discriminate].
  - bind (reads_not_at (g_expr false) "{" ts'0 _ ltac:(discriminate) E1 (s_expr n IH false ts'0)). destruct H0 as [G N].
    apply (reads_comma _ "}" _ (fun ts' => match p_arms n ts' with Got l r => Got ((x, x1) :: l) r | Fail w r => Fail w r end)).
    + intros E2. bind (s_arms n IH). destruct H0 as (b & -> & L & K). destruct (K E2) as [-> ->]. fin. exists (a ++ T "=>" :: a0).
      split; [now rewrite <- ?app_assoc|]. split; [now apply arms_last|discriminate].
    + intros r. bind (s_arms n IH). destruct H0 as (b & -> & L & K). fin. exists (a ++ T "=>" :: a0 ++ T "," :: b).
      split; [now rewrite <- ?app_assoc; cbn [app]; rewrite <- ?app_assoc|]. split; [now apply arms_more|discriminate].
Qed.
Lemma step_block ts : reads g_block ts (p_block (S n) ts).
Proof. cbn [p_block]. bind reads_expect. subst. bind (s_stmts n IH). destruct H as (b & -> & L & _). fin. now constructor. Qed.

Lemma braced_intro {A} (g : list tok -> list A -> Prop) nothing b l : g b l -> braced g false nothing (b ++ [T "}"]) l.
Proof. intros G. exists b. split; [reflexivity|]. split; [exact G|discriminate]. Qed.
Lemma step_stmts o ts : reads (braced (g_stmts o) (at_ "}" ts) (if o then [SUnit] else [])) ts (p_stmts (S n) o ts).
Proof.
  cbn [p_stmts]. destruct (at_ "}" ts) eqn:E; [apply (reads_eat _ _ _ _ E); fin; exists []; repeat split; destruct o; constructor|].
  at_cases. { eapply reads_more; [apply (s_stmts n IH)|]. intros a l (b & -> & G & _). apply (braced_intro _ _ (T ";" :: b)). now constructor. }
  at_cases_no "#". { bind (attributes_sound n). eapply reads_more; [apply (s_stmts n IH)|]. cbv beta. intros c l (b & -> & G & _). rewrite app_assoc. apply braced_intro. econstructor; eassumption. }
  at_cases.
  { bind (proj1 (pat_sound n)). eapply (reads_bind g_annotation).
    { at_cases; [|fin; constructor]. bind (s_type n IH). fin. now constructor. }
    intros c t ts1 C. bind reads_expect. bind (s_expr n IH false). bind reads_expect. bind (s_stmts n IH). destruct H3 as (b & -> & G & _). subst. fin.
    eexists (_ :: a ++ c ++ _ :: a1 ++ _ :: b). split; [rewrite <- ?app_assoc; cbn [app]; rewrite <- ?app_assoc; cbn [app]; rewrite <- ?app_assoc; cbn [app]; rewrite <- ?app_assoc; reflexivity|].
    split; [now constructor|discriminate]. }
  at_cases_no "use".
  { rewrite (at_opt _ _ E3). generalize (opt "use" ts). intros r. change (until_semi (T "use" :: r)) with (until_semi r). apply reads_cons.
    bind until_semi_sound. destruct H as (b & -> & N). eapply reads_more; [apply (s_stmts n IH)|]. cbv beta. intros c l (d & -> & G & _).
    exists (T "use" :: b ++ T ";" :: d). split; [cbn [app]; now rewrite <- ?app_assoc|]. split; [now constructor|discriminate]. }
  at_cases.
  { bind reads_name. destruct H as [-> N]. bind reads_expect. bind (s_type n IH). bind reads_expect. bind (s_expr n IH false). bind reads_expect. bind (s_stmts n IH).
    destruct H4 as (b & -> & G & _). subst. fin.
    eexists (_ :: _ :: _ :: a0 ++ _ :: a2 ++ _ :: b). split; [cbn [app]; rewrite <- ?app_assoc; cbn [app]; rewrite <- ?app_assoc; reflexivity|].
    split; [now constructor|discriminate]. }
  eapply (reads_bind (fun a e => if ends_itself ts then starts_alone a /\ g_primary false a e else g_statement a e)).
  { destruct (ends_itself ts) eqn:A.
    - eapply reads_more; [apply reads_alone; [apply (primary_nonempty false)|exact A|apply (s_primary n IH)]|]. intros a e [G S]. now split.
    - eapply reads_more; [apply reads_not_alone; [exact A|apply (s_expr n IH)]|]. intros a e [G S]. now apply statement_expr. }
  intros a e ts1 G. assert (G' : g_statement a e) by (destruct (ends_itself ts); [destruct G; now apply statement_alone|exact G]).
  at_cases. { bind (s_stmts n IH). destruct H as (b & -> & L & _). fin. exists (a ++ T ";" :: b). split; [now rewrite <- app_assoc|]. split; [now constructor|discriminate]. }
  at_cases_no "}".
  { bind (s_stmts n IH). rewrite E6 in H. destruct H as (b & -> & L & K). destruct (K eq_refl) as [-> ->]. fin. apply braced_intro. now apply stmts_value. }
  destruct (ends_itself ts); [|apply reads_fail]. destruct G as [S G].
  bind (reads_not_at _ "}" _ _ ltac:(discriminate) E6 (reads_not_at _ ";" _ _ ltac:(discriminate) E5 (s_stmts n IH true ts1))).
  destruct H as (((b & -> & L & _) & N1) & N2). fin. destruct b as [|t b]; [now specialize (N2 [])|].
  exists (a ++ t :: b). split; [now rewrite <- app_assoc|]. split; [|discriminate]. apply stmts_alone; try assumption. intros ->. now apply (N1 (b ++ [T "}"])).
Qed.
End step.

Theorem parser_sound n : sound n.
Proof.
  induction n as [|n IH]; [exact sound_0|]. constructor.
  - apply (step_type n IH).
  - apply (step_bounds n IH).
  - apply (step_path_type n IH).
  - apply (step_types n IH).
  - apply (step_type_args n IH).
  - apply (step_type_arg n IH).
  - apply (step_expr n IH).
  - apply (step_range n IH).
  - apply (step_bin n IH).
  - apply (step_bin_more n IH).
  - apply (step_casts n IH).
  - apply (step_unary n IH).
  - apply (step_postfix n IH).
  - apply (step_args n IH).
  - apply (step_primary n IH).
  - apply (step_if n IH).
  - apply (step_path n IH).
  - apply (step_fields n IH).
  - apply (step_arms n IH).
  - apply (step_block n IH).
  - apply (step_stmts n IH).
Qed.

(** ** Items *)

Lemma is_tok_not s t : is_tok s t = false -> t <> T s.
Proof. intros E ->. assert (X : is_tok s (T s) = true) by now apply is_tok_T. congruence. Qed.

Lemma bound_sound ts : forall d, reads (fun a _ => angles d a) ts (bound d ts).
Proof.
  remember (length ts) as m eqn:Em. assert (Hm : (length ts <= m)%nat) by lia. clear Em. revert ts Hm. induction m as [|m IH]; intros ts Hm d.
  { destruct ts; [apply reads_fail|cbn in Hm; lia]. }
  destruct ts as [|t r]; [apply reads_fail|]. cbn in Hm. assert (IHr : forall d, reads (fun a _ => angles d a) r (bound d r)) by (apply IH; lia).
  assert (D : forall d, t <> T "<" -> t <> T ">" -> (d = O -> t <> T ",") -> reads (fun a _ => angles d a) (t :: r) (bound d r)).
  { intros e N1 N2 N3. apply reads_cons. eapply reads_more; [apply IHr|]. cbv beta. intros a _ G. now apply angles_other. }
  cbn [bound]. destruct t as [| | | | |o]; try (apply D; intros; discriminate).
  destruct (String.eqb_spec o "<") as [->|N1]. { apply reads_cons. eapply reads_more; [apply IHr|]. cbv beta. intros a _ G. now apply angles_open. }
  destruct (String.eqb_spec o ">") as [->|N2].
  { destruct d as [|d]; [fin; constructor|]. apply reads_cons. eapply reads_more; [apply IHr|]. cbv beta. intros a _ G. now apply angles_close. }
  destruct (String.eqb_spec o ">>") as [->|N3].
  { apply reads_glue with (T ">" :: T ">" :: r). { apply unglued_close, unglued_refl. }
    destruct d as [|[|d]]; [apply reads_fail| |].
    - apply reads_cons. fin. now apply angles_close, angles_nil.
    - apply reads_cons, reads_cons. eapply reads_more; [apply IHr|]. cbv beta. intros a _ G. now apply angles_close, angles_close. }
  destruct (String.eqb_spec o ",") as [->|N4].
  - destruct (Nat.eqb_spec d 0) as [->|N5]; [fin; constructor|]. apply D; [discriminate|discriminate|intros ->; contradiction].
  - apply D; [intros [= ->]; contradiction|intros [= ->]; contradiction|intros _ [= ->]; contradiction].
Qed.

Lemma generics_sound n ts : reads g_generics ts (generics n ts).
Proof.
  unfold generics. at_cases; [|fin; constructor].
  assert (S : forall n ts, reads (fun a l => exists b ls, a = b ++ [T ">"] /\ listed g_generic b ls /\ l = concat ls /\ (at_ ">" ts = true -> b = [] /\ ls = [])) ts (p_generics n ts)).
  { clear. induction n as [|n IH]; intros ts; [apply reads_fail|]. cbn [p_generics].
    destruct (at_ ">" ts) eqn:E0. { apply (reads_eat _ _ _ _ E0). fin. exists [], []. repeat split; constructor. }
    eapply (reads_bind (fun a l => (a = [TLife] /\ l = []) \/ (exists x, a = [TId x] /\ l = [x] /\ is_name x))).
    { destruct (at_life ts) eqn:L.
      - destruct ts as [|[| | | | |] ts]; try discriminate L. cbn [opt_life]. apply reads_cons. fin. now left.
      - bind reads_name. destruct H as [-> N]. fin. right. now exists x. }
    intros a l ts1 A. eapply (reads_bind (fun b _ => g_generic (a ++ b) l)).
    { at_cases.
      - eapply reads_more; [apply bound_sound|]. cbv beta. intros b _ B. destruct A as [[-> ->]|(x & -> & -> & N)]; now constructor.
      - fin. destruct A as [[-> ->]|(x & -> & -> & N)]; now constructor. }
    intros b _ ts2 G.
    apply (reads_comma _ ">" _ (fun ts' => match p_generics n ts' with Got l' r => Got (l ++ l') r | Fail w r => Fail w r end)).
    - intros E1. bind IH. destruct H as (c & ls & -> & _ & -> & K). destruct (K E1) as [-> ->]. fin. exists (a ++ b), [l].
      split; [now rewrite <- app_assoc|]. split; [now constructor|]. split; [cbn; now rewrite app_nil_r|discriminate].
    - intros r. bind IH. destruct H as (c & ls & -> & L & -> & _). fin. exists ((a ++ b) ++ T "," :: c), (l :: ls).
      split; [now rewrite <- ?app_assoc; cbn [app]; rewrite <- ?app_assoc|]. split; [now constructor|]. split; [reflexivity|discriminate]. }
  eapply reads_more; [apply S|]. cbv beta. intros a l (b & ls & -> & L & -> & _). now constructor.
Qed.

Lemma until_body_sound ts : reads (fun a _ => ~ In (T "{") a /\ ~ In (T ";") a) ts (until_body ts).
Proof.
  induction ts as [|t r IH]; [apply reads_fail|]. cbn [until_body]. destruct (is_tok "{" t) eqn:E1; [fin; now split|]. destruct (is_tok ";" t) eqn:E2; [fin; now split|].
  cbn [orb]. apply reads_cons. eapply reads_more; [exact IH|]. cbv beta. apply is_tok_not in E1, E2. intros a _ [N1 N2]. split; intros [F|F]; auto.
Qed.
Lemma where_sound ts : reads (fun a _ => g_where a) ts (p_where ts).
Proof.
  unfold p_where. at_cases_no "where"; [|fin; constructor]. rewrite (at_opt _ _ E). generalize (opt "where" ts). intros r.
  change (until_body (T "where" :: r)) with (until_body r). apply reads_cons. eapply reads_more; [apply until_body_sound|]. cbv beta. intros a _ [N1 N2]. now constructor.
Qed.
Lemma pub_sound ts : reads (fun a _ => g_pub a) ts (p_pub ts).
Proof.
  unfold p_pub. at_cases; [|fin; constructor]. at_cases; [|fin; constructor]. bind bracketed_sound. destruct H as (k & -> & I & B). fin. now constructor.
Qed.
Lemma param_type_sound n ts p a self : g_pat a p -> reads (fun b r => g_param self (a ++ T ":" :: b) (p, fst r, snd r)) ts (p_param_type n ts).
Proof.
  intros G. unfold p_param_type. destruct (at_ "&" ts) eqn:E.
  - apply (reads_eat _ _ _ _ E). apply reads_opt_life. intros l L. at_cases.
    + bind (s_type n (parser_sound n)). fin. now apply param_mut.
    + bind (s_type n (parser_sound n)). fin. now apply param_ref.
  - bind (reads_not_at g_type "&" ts _ ltac:(discriminate) E (s_type n (parser_sound n) ts)). destruct H as [H N]. fin. now apply param_value.
Qed.
Lemma self_sound self ts b m r : p_self ts = Some (b, m, r) -> exists a, ts = a ++ r /\ g_param self a (PVar "self", (if b then TyRef self else self), m).
Proof.
  unfold p_self. destruct (at_ "self" ts) eqn:E. { intros [= <- <- <-]. exists [T "self"]. split; [exact (at_opt _ _ E)|constructor]. }
  destruct (eat "&" ts) as [[|] ts1] eqn:E1; [|discriminate].
  assert (H : ts = T "&" :: ts1).
  { unfold eat in E1. destruct ts as [|t ts']; [discriminate|]. destruct (is_tok "&" t) eqn:E2; [|discriminate]. apply is_tok_T in E2. now injection E1 as <-; subst. }
  destruct (at_ "self" ts1) eqn:E2. { intros [= <- <- <-]. exists [T "&"; T "self"]. split; [rewrite H; cbn [app]; now rewrite <- (at_opt _ _ E2)|constructor]. }
  destruct (at_ "mut" ts1) eqn:E3; [|discriminate]. destruct (at_ "self" (opt "mut" ts1)) eqn:E4; [|discriminate]. intros [= <- <- <-].
  exists [T "&"; T "mut"; T "self"]. split; [|constructor]. rewrite H. cbn [app]. now rewrite <- (at_opt _ _ E4), <- (at_opt _ _ E3).
Qed.
Lemma params_sound self n : forall ts, reads (up_to (g_param self) ")" (at_ ")" ts)) ts (p_params n self ts).
Proof.
  induction n as [|n IH]; intros ts; [apply reads_fail|]. cbn [p_params]. destruct (at_ ")" ts) eqn:E; [apply (reads_eat _ _ _ _ E); fin; apply up_to_nil|].
  destruct (p_self ts) as [[[b m] r]|] eqn:Q.
  - destruct (self_sound self _ _ _ _ Q) as (a & -> & G). clear Q E.
    assert (R := up_to_more (g_param self) ")" (p_params n self) r a _ G IH). intros x rest F. destruct (R x rest F) as (c & U & G'). exists (a ++ c).
    split; [rewrite <- app_assoc; now apply unglued_app|exact G'].
  - bind (proj1 (pat_sound (S n))). bind reads_expect. subst a0. bind (param_type_sound (S n) ts'0 x a self H). destruct x1 as [t m]. cbn [fst snd] in H0.
    apply (reads_more (fun c l => up_to (g_param self) ")" false ((a ++ T ":" :: a0) ++ c) l)).
    + apply (up_to_more (g_param self) ")" (p_params n self)); [exact H0|exact IH].
    + intros c l G. rewrite <- app_assoc in G. exact G.
Qed.

Ltac norm := repeat (rewrite <- ?app_assoc; cbn [app]).
Lemma fn_sound n impl assoc gs ts : reads (fun a f => g_fn impl assoc gs (T "fn" :: a) f) ts (p_fn n impl assoc gs ts).
Proof.
  unfold p_fn. bind reads_name. destruct H as [-> N]. bind generics_sound. bind reads_expect. subst a0. bind params_sound. apply up_to_listed in H0 as (b & -> & L).
  eapply (reads_bind g_result). { at_cases; [|fin; constructor]. eapply reads_more; [apply (s_type n (parser_sound n))|]. intros c t G. now constructor. }
  intros c t ts1 C. bind where_sound. at_cases.
  - fin. norm. eapply fn_declared; eassumption.
  - bind (s_block n (parser_sound n)). fin. norm. now apply fn_defined.
Qed.

Lemma struct_fields_sound n : forall ts, reads (up_to g_struct_field "}" (at_ "}" ts)) ts (p_struct_fields n ts).
Proof.
  induction n as [|n IH]; intros ts; [apply reads_fail|]. cbn [p_struct_fields]. destruct (at_ "}" ts) eqn:E; [apply (reads_eat _ _ _ _ E); fin; apply up_to_nil|].
  bind (attributes_sound (S n)). bind pub_sound. bind reads_name. destruct H1 as [-> N]. bind reads_expect. subst a1. bind (s_type (S n) (parser_sound (S n))).
  apply (reads_more (fun c l => up_to g_struct_field "}" false ((a ++ a0 ++ TId x1 :: T ":" :: a1) ++ c) l)).
  - apply (up_to_more g_struct_field "}" (p_struct_fields n)); [econstructor; eassumption|exact IH].
  - intros c l G. norm. repeat (rewrite <- app_assoc in G; cbn [app] in G). exact G.
Qed.

Lemma type_bound_sound n ts : reads (fun a _ => g_type_bound a) ts (if at_ ":" ts then p_type n (opt ":" ts) else Got TyUnit ts).
Proof. at_cases; [|fin; constructor]. eapply reads_more; [apply (s_type n (parser_sound n))|]. cbv beta. intros a t G. econstructor; eassumption. Qed.

Definition in_braces {A} (g : list tok -> A -> Prop) (a : list tok) (x : A) : Prop := exists b, a = b ++ [T "}"] /\ g b x.
Lemma members_sound impl gs n : forall assoc ts, reads (in_braces (g_members impl gs assoc)) ts (p_members n impl assoc gs ts).
Proof.
  induction n as [|n IH]; intros assoc ts; [apply reads_fail|]. cbn [p_members]. at_cases; [fin; exists []; split; [reflexivity|constructor]|].
  at_cases_no "#". { bind attributes_sound. eapply reads_more; [apply IH|]. cbv beta. intros b l (c & -> & G). exists (a ++ c). split; [now rewrite app_assoc|]. econstructor; eassumption. }
  bind pub_sound. at_cases.
  { bind reads_name. destruct H0 as [-> N]. bind (type_bound_sound (S n)). at_cases.
    - bind (s_type (S n) (parser_sound (S n))). bind reads_expect. subst. eapply reads_more; [apply IH|]. cbv beta. intros b l (c & -> & G).
      eexists (a ++ T "type" :: TId x0 :: a0 ++ T "=" :: a1 ++ T ";" :: c). split; [now norm|]. now apply members_type with (t := x2).
    - bind reads_expect. subst. eapply reads_more; [apply IH|]. cbv beta. intros b l (c & -> & G).
      eexists (a ++ T "type" :: TId x0 :: a0 ++ T ";" :: c). split; [now norm|]. now apply members_type_declared. }
  at_cases_no "fn"; [|apply reads_fail].
  change (match impl with (Some (TyStruct t), _, _) => String.eqb t "Debug" | _ => false end) with (match impl with (Some (TyStruct t), _, _) => String.eqb t "Debug" | _ => false end).
  assert (D : match impl with (Some (TyStruct t), _, _) => String.eqb t "Debug" | _ => false end = is_debug impl).
  { destruct impl as [[[[]|] ?] ?]; try reflexivity. unfold is_debug. destruct (String.eqb_spec n0 "Debug") as [->|X]; [reflexivity|].
    repeat (match goal with |- context [match ?x with _ => _ end] => destruct x; try reflexivity end). now exfalso. }
  rewrite D. destruct (is_debug impl) eqn:Db.
  - rewrite (at_opt _ _ E2). generalize (opt "fn" ts'). intros r. change (until_body (T "fn" :: r)) with (until_body r). apply reads_cons.
    bind until_body_sound. destruct H0 as [N1 N2]. bind reads_expect. subst a1. bind bracketed_sound. destruct H0 as (k & -> & I & B). eapply reads_more; [apply IH|].
    cbv beta. intros b l (c & -> & G). eexists (a ++ T "fn" :: a0 ++ T "{" :: x2 ++ T k :: c). split; [now norm|]. now apply members_debug.
  - apply (reads_eat _ _ _ _ E2). eapply reads_bind; [apply fn_sound|]. cbv beta. intros b f ts1 F. bind IH. destruct H0 as (c & -> & G). fin.
    exists (a ++ (T "fn" :: b) ++ c). split; [now norm|]. destruct f; now apply members_fn with (f := Some s) || now apply members_fn with (f := None).
Qed.

Lemma derives_default_same attrs : derives "Default" attrs = derives_default attrs.
Proof.
  assert (W : forall s a, is_word s = true -> existsb (is_tok s) a = has_word s a).
  { intros s a Hs. unfold has_word. induction a as [|t a IHa]; [reflexivity|]. cbn [existsb]. rewrite IHa. f_equal. unfold is_tok. rewrite Hs. now destruct t. }
  unfold derives, derives_default. induction attrs as [|a r IHr]; [reflexivity|]. cbn [existsb]. now rewrite IHr, !W.
Qed.
Lemma parameters_same gs t l : match t with TyStruct x => if mem gs x then IParam x :: l else l | _ => l end = parameters_in gs t ++ l.
Proof. destruct t; try reflexivity. cbn. unfold mem. now destruct (existsb (String.eqb n) gs). Qed.

Lemma item_sound n attrs ts : reads (g_item attrs) ts (p_item n attrs ts).
Proof.
  unfold p_item. bind pub_sound. at_cases_no "use".
  { rewrite (at_opt _ _ E). generalize (opt "use" ts'). intros r. change (until_semi (T "use" :: r)) with (until_semi r). apply reads_cons.
    bind until_semi_sound. destruct H0 as (b & -> & N). fin. now constructor. }
  destruct (at_ "const" ts' || at_ "static" ts')%bool eqn:E1.
  { assert (K : exists k, (k = "const" \/ k = "static") /\ ts' = T k :: (if at_ "const" ts' then opt "const" ts' else opt "static" ts')).
    { destruct (at_ "const" ts') eqn:E2; [exists "const"|exists "static"]; (split; [auto|now apply at_opt]). }
    destruct K as (k & K & Eq). rewrite Eq at 1. clear Eq E E1. apply reads_cons.
    bind reads_name. destruct H0 as [-> N]. bind reads_expect. bind (s_type n (parser_sound n)). bind reads_expect. bind (s_expr n (parser_sound n) false). bind reads_expect.
    subst. fin. now constructor. }
  at_cases. { bind reads_name. destruct H0 as [-> N]. bind generics_sound. bind reads_expect. subst a1. bind struct_fields_sound. apply up_to_listed in H1 as (b & -> & L). fin. norm.
    rewrite derives_default_same. now constructor. }
  at_cases. { bind reads_name. destruct H0 as [-> N]. at_cases; [fin; now apply item_mod|]. bind reads_expect. subst a0. bind bracketed_sound. destruct H0 as (k & -> & I & B). fin.
    now apply item_mod_body with (v := a). }
  at_cases.
  { bind generics_sound. bind (s_type n (parser_sound n)).
    eapply (reads_bind (fun b r => (b = [] /\ r = (None, x1)) \/ exists c t, b = T "for" :: c /\ g_type c t /\ r = (Some x1, t))).
    { at_cases; [|fin; now left]. bind (s_type n (parser_sound n)). fin. right. now exists a2, x2. }
    intros b [tr t] ts1 B. bind where_sound. bind reads_expect. subst a3. bind (members_sound (tr, t, false) x0 n []). destruct H3 as (c & -> & G). fin. norm.
    rewrite parameters_same. destruct B as [[-> [= -> ->]]|(d & t' & -> & G' & [= -> ->])]; cbn [app]; [now apply item_impl|eapply item_impl_trait; eassumption]. }
  at_cases.
  { bind reads_name. destruct H0 as [-> N]. bind generics_sound. bind (type_bound_sound n). bind where_sound. bind reads_expect. subst a3.
    eapply reads_more; [apply members_sound|]. cbv beta. intros b l (c & -> & G). norm. now apply item_trait with (gs := x1). }
  at_cases. { bind fn_sound. fin. destruct x0; now apply item_fn with (f := Some s) || now apply item_fn with (f := None). }
  at_cases; [|apply reads_fail]. fin. now apply item_empty.
Qed.

Lemma items_sound n : forall k ts, reads g_items ts (p_items k n ts).
Proof.
  induction k as [|k IH]; intros ts.
  - destruct ts; cbn; [|apply reads_fail]. fin. apply items_end with (la := []). constructor.
  - cbn [p_items]. destruct ts as [|t r]; [fin; apply items_end with (la := []); constructor|].
    bind attributes_sound. destruct ts' as [|t' r']; [fin; now apply items_end with (la := x)|].
    bind item_sound. bind IH. fin. eapply items_more; eassumption.
Qed.

Theorem parse_file_sound s ts l : tokens s = Some ts -> parse s = Got l [] -> is_file ts l.
Proof.
  intros E. unfold parse. rewrite E. generalize depth. intros d H. destruct (items_sound d d ts l [] H) as (a & U & G). rewrite app_nil_r in U. now exists a.
Qed.
