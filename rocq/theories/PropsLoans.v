(** * PropsLoans: C86, where the files say [&mut]. *)

From Coq Require Import String.
From Verif Require Import Base Rust RustLex RustParse RustSource RustFiles RustTests SeedTests.
Open Scope list_scope.
Open Scope string_scope.

(** [a] is what comes before [&mut] in a file and [b] what comes after it.  It is in the type of a parameter (a state, a formatter or a generator), or the
    argument is a variable or a field of one. *)
Inductive fields : list tok -> Prop :=
| fields_none : fields []
| fields_more : forall y p, fields p -> fields (TOp "." :: TId y :: p).
Definition in_type (a b : list tok) : Prop :=
  (exists a', a = (a' ++ [TOp ":"])%list) /\ exists x b', b = x :: b' /\ In x [TId "Self"; TId "fmt"; TOp "::"; TId "G"].
Definition as_argument (a b : list tok) : Prop :=
  (exists a' p, a = (a' ++ [TOp p])%list /\ In p ["("; ","]) /\ exists x p q b', b = (TId x :: p ++ TOp q :: b')%list /\ fields p /\ In q [")"; ","].
(** The same for every [&mut] of a file; and there is no other way to get such a reference: no [&'a mut], no [ref mut]. *)
Definition lends (ts : list tok) : Prop :=
  (forall a b, ts = (a ++ TOp "&" :: TId "mut" :: b)%list -> in_type a b \/ as_argument a b) /\
  (forall a b, ts <> (a ++ TOp "&" :: TLife :: TId "mut" :: b)%list) /\
  (forall a b, ts <> (a ++ TId "ref" :: TId "mut" :: b)%list).

(** ** Checked by computation *)

Definition among (l : list string) (t : tok) : bool := match t with TOp s => existsb (String.eqb s) l | _ => false end.
Definition typed (b : list tok) : bool :=
  match b with TId x :: _ => existsb (String.eqb x) ["Self"; "fmt"; "G"] | TOp x :: _ => String.eqb x "::" | _ => false end.
Fixpoint field_end (b : list tok) : bool :=
  match b with
  | TOp "." :: TId _ :: r => field_end r
  | q :: _ => among [")"; ","] q
  | [] => false
  end.
Definition variable (b : list tok) : bool := match b with TId _ :: r => field_end r | _ => false end.
Definition lent_at (p : option tok) (ts : list tok) : bool :=
  match ts with
  | TOp "&" :: TId "mut" :: b => match p with Some t => (among [":"] t && typed b) || (among ["("; ","] t && variable b) | None => false end
  | TOp "&" :: TLife :: TId "mut" :: _ => false
  | TId "ref" :: TId "mut" :: _ => false
  | _ => true
  end%bool.
Fixpoint lent_all (p : option tok) (ts : list tok) : bool := (lent_at p ts && match ts with [] => true | t :: r => lent_all (Some t) r end)%bool.

Lemma among_In l t : among l t = true -> exists s, t = TOp s /\ In s l.
Proof. destruct t; try discriminate. cbn [among]. intros H. apply existsb_exists in H as (x & H & E). apply String.eqb_eq in E as ->. now exists x. Qed.
Lemma typed_In b : typed b = true -> exists x b', b = x :: b' /\ In x [TId "Self"; TId "fmt"; TOp "::"; TId "G"].
Proof.
  destruct b as [|[z i|z| |s|x|x] b]; try discriminate; cbn [typed]; intros H; eexists; exists b; (split; [reflexivity|]).
  - apply existsb_exists in H as (y & H & E). apply String.eqb_eq in E as ->. cbn [In] in *. intuition congruence.
  - apply String.eqb_eq in H as ->. cbn [In]. tauto.
Qed.
Lemma field_end_In : forall k b, (length b <= k)%nat -> field_end b = true -> exists p q b', b = (p ++ TOp q :: b')%list /\ fields p /\ In q [")"; ","].
Proof.
  induction k as [|k IH]; intros b Hk H; [destruct b; [discriminate|cbn in Hk; lia]|].
  assert (D : (exists y r, b = TOp "." :: TId y :: r /\ field_end r = true) \/ exists q r, b = q :: r /\ among [")"; ","] q = true).
  { destruct b as [|q r]; [discriminate|]. destruct q as [z i|z| |s|x|x]; try (right; eexists; eexists; split; [reflexivity|exact H]).
    destruct (String.eqb_spec x ".") as [->|N].
    - destruct r as [|t r]; [discriminate|]. destruct t as [z i|z| |s|y|y]; try discriminate. left. exists y, r. split; [reflexivity|exact H].
    - right. exists (TOp x), r. split; [reflexivity|]. revert H N. clear.
      destruct x as [|[[|] [|] [|] [|] [|] [|] [|] [|]] [|c x]]; cbn [field_end]; intros H N; try exact H. now destruct N. }
  destruct D as [(y & r & -> & F)|(q & r & -> & A)].
  - destruct (IH r ltac:(cbn in Hk; lia) F) as (p & q & b' & -> & P & Q). exists (TOp "." :: TId y :: p), q, b'. split; [reflexivity|]. split; [now constructor|exact Q].
  - apply among_In in A as (s & -> & A). exists [], s, r. split; [reflexivity|]. split; [constructor|exact A].
Qed.
Lemma variable_In b : variable b = true -> exists x p q b', b = (TId x :: p ++ TOp q :: b')%list /\ fields p /\ In q [")"; ","].
Proof.
  destruct b as [|[z i|z| |s|x|x] r]; try discriminate. cbn [variable]. intros H.
  apply (field_end_In (length r)) in H as (p & q & b' & -> & P & Q); [|lia]. now exists x, p, q, b'.
Qed.

(** The token before the place that [a] leads to. *)
Definition before (p : option tok) (a : list tok) : option tok := match rev a with t :: _ => Some t | [] => p end.
Lemma lent_all_at : forall a p b, lent_all p (a ++ b) = true -> lent_at (before p a) b = true.
Proof.
  induction a as [|t a IH]; intros p b H.
  - unfold before. cbn [rev]. cbn [app] in H. destruct b; cbn [lent_all] in H; now apply andb_prop in H as [H _].
  - cbn [app lent_all] in H. apply andb_prop in H as [_ H]. apply IH in H. unfold before in *. cbn [rev]. destruct (rev a); exact H.
Qed.
Lemma before_last a s : before None a = Some s -> exists a', a = (a' ++ [s])%list.
Proof.
  unfold before. destruct (rev a) as [|t r] eqn:E; [discriminate|]. intros [= ->]. exists (rev r).
  rewrite <- (rev_involutive a), E. reflexivity.
Qed.
Lemma lent_all_lends ts : lent_all None ts = true -> lends ts.
Proof.
  intros H. repeat apply conj; intros a b E; subst ts; apply lent_all_at in H; cbn [lent_at] in H; [|discriminate|discriminate].
  destruct (before None a) as [t|] eqn:B; [|discriminate]. apply before_last in B as [a' ->].
  apply orb_prop in H as [H|H]; apply andb_prop in H as [A V]; apply among_In in A as (s & -> & A).
  - left. destruct A as [<-|[]]. split; [now exists a'|now apply typed_In].
  - right. split; [now exists a', s|now apply variable_In].
Qed.

(** ** C86 *)
Theorem C86_lends : Forall (fun f => exists ts, tokens f = Some ts /\ lends ts) (crate_files ++ [tests_cuts_rs; tests_cuts_qc_rs; tests_qc_bup_rs]).
Proof.
  apply Forall_forall. intros f Hf.
  assert (H : forallb (fun f => match tokens f with Some ts => lent_all None ts | None => false end) (crate_files ++ [tests_cuts_rs; tests_cuts_qc_rs; tests_qc_bup_rs]) = true)
    by (vm_compute; reflexivity).
  rewrite forallb_forall in H. specialize (H f Hf). destruct (tokens f) as [ts|]; [|discriminate]. exists ts. split; [reflexivity|now apply lent_all_lends].
Qed.
Print Assumptions C86_lends.

(** In tests/fastcdc.rs it holds of what is read (C85), and does not hold of the file: [arbitrary] lends a slice. *)
Theorem C86_fastcdc : exists ts, tokens tests_fastcdc_rs = Some ts /\ lends (plain ts) /\ ~ lends ts.
Proof.
  assert (H : match tokens tests_fastcdc_rs with Some ts => lent_all None (plain ts) | None => false end = true) by (vm_compute; reflexivity).
  assert (K : match tokens tests_fastcdc_rs with Some ts => firstn 4 (skipn 106 ts) = [TOp "&"; TId "mut"; TId "d"; TOp "["] | None => False end) by (vm_compute; reflexivity).
  destruct (tokens tests_fastcdc_rs) as [ts|]; [|discriminate]. exists ts. apply conj; [reflexivity|]. apply conj; [now apply lent_all_lends|].
  intros [L _]. destruct (L (firstn 106 ts) (TId "d" :: TOp "[" :: skipn 4 (skipn 106 ts))) as [[_ (x & b & [= <- <-] & I)]|[_ (x & p & q & b & [= <- E] & P & Q)]].
  - change (TOp "&" :: TId "mut" :: TId "d" :: TOp "[" :: skipn 4 (skipn 106 ts))%list with ([TOp "&"; TId "mut"; TId "d"; TOp "["] ++ skipn 4 (skipn 106 ts))%list.
    rewrite <- K, !firstn_skipn. reflexivity.
  - cbn [In] in I. intuition congruence.
  - destruct P as [|y p P]; [|discriminate]. injection E as <- _. cbn [In] in Q. intuition congruence.
Qed.
Print Assumptions C86_fastcdc.

(** ** Receivers and moves

    What a method is called on is lent without [&mut] being written.  If it is an element or a slice, the method is one of three: [iter] and
    [into_boxed_slice] do not write, and [copy_from_slice] has a term of its own in [Rust.v], which does.  And no parameter that is such a
    reference is given another name. *)
Definition called_on (ts : list tok) : Prop := forall a m b, ts = (a ++ TOp "]" :: TOp "." :: m :: b)%list -> In m (map TId ["iter"; "into_boxed_slice"; "copy_from_slice"]).
Definition named_once (ts : list tok) : Prop :=
  (forall a x b, ts = (a ++ TId x :: TOp ":" :: TOp "&" :: TId "mut" :: b)%list -> In x ["state"; "f"; "fmt"; "g"]) /\
  forall a x b, In x ["self"; "state"; "f"; "fmt"; "g"] -> ts <> (a ++ TOp "=" :: TId x :: TOp ";" :: b)%list.

Definition word (l : list string) (t : tok) : bool := match t with TId s => existsb (String.eqb s) l | _ => false end.
Definition called_at (ts : list tok) : bool :=
  match ts with TOp "]" :: TOp "." :: m :: _ => word ["iter"; "into_boxed_slice"; "copy_from_slice"] m | _ => true end.
Definition named_at (ts : list tok) : bool :=
  match ts with
  | TId x :: TOp ":" :: TOp "&" :: TId "mut" :: _ => word ["state"; "f"; "fmt"; "g"] (TId x)
  | TOp "=" :: TId x :: TOp ";" :: _ => negb (word ["self"; "state"; "f"; "fmt"; "g"] (TId x))
  | _ => true
  end.
Fixpoint everywhere (p : list tok -> bool) (ts : list tok) : bool := (p ts && match ts with [] => true | _ :: r => everywhere p r end)%bool.
Lemma everywhere_at p : forall a b, everywhere p (a ++ b) = true -> p b = true.
Proof.
  induction a as [|t a IH]; intros b H.
  - destruct b; cbn [app everywhere] in H; now apply andb_prop in H as [H _].
  - cbn [app everywhere] in H. apply andb_prop in H as [_ H]. now apply IH.
Qed.
Lemma word_In l t : word l t = true -> In t (map TId l).
Proof. destruct t; try discriminate. cbn [word]. intros H. apply existsb_exists in H as (x & H & E). apply String.eqb_eq in E as ->. now apply in_map. Qed.
Lemma everywhere_called ts : everywhere called_at ts = true -> called_on ts.
Proof. intros H a m b ->. apply everywhere_at in H. cbn [called_at] in H. now apply word_In. Qed.
Lemma everywhere_named ts : everywhere named_at ts = true -> named_once ts.
Proof.
  intros H. split; [intros a x b ->|intros a x b I ->]; apply everywhere_at in H; cbn [named_at] in H.
  - apply word_In in H. apply in_map_iff in H as (y & [= ->] & H). exact H.
  - apply negb_true_iff in H. cbn [word] in H. apply Bool.not_true_iff_false in H. apply H. apply existsb_exists. exists x. split; [exact I|apply String.eqb_refl].
Qed.
Theorem C86_receivers : Forall (fun f => exists ts, tokens f = Some ts /\ called_on ts /\ named_once ts) (crate_files ++ [tests_cuts_rs; tests_cuts_qc_rs; tests_qc_bup_rs; tests_fastcdc_rs]).
Proof.
  apply Forall_forall. intros f Hf.
  assert (H : forallb (fun f => match tokens f with Some ts => everywhere called_at ts && everywhere named_at ts | None => false end)%bool
    (crate_files ++ [tests_cuts_rs; tests_cuts_qc_rs; tests_qc_bup_rs; tests_fastcdc_rs]) = true) by (vm_compute; reflexivity).
  rewrite forallb_forall in H. specialize (H f Hf). destruct (tokens f) as [ts|]; [|discriminate]. apply andb_prop in H as [A B].
  exists ts. split; [reflexivity|]. split; [now apply everywhere_called|now apply everywhere_named].
Qed.
Print Assumptions C86_receivers.

(** What is ruled out: a reference that is kept, returned, or made from part of something. *)
Example C86_case : map (fun f => option_map (lent_all None) (tokens f))
  ["let x = &mut a;"; "fn f(&mut self) -> &mut T"; "f(&mut a[..])"; "f(&mut a.b[1])"; "struct S<'a> { x: &'a mut T }"; "Some(ref mut x)"; "f(&mut a.b, &mut b); g(&a[..])"]%source =
  [Some false; Some false; Some false; Some false; Some false; Some false; Some true].
Proof. vm_compute. reflexivity. Qed.
Example C86_case_receivers : map (fun f => option_map (fun ts => (everywhere called_at ts, everywhere named_at ts)) (tokens f))
  ["a[..].sort();"; "a[1].b.f();"; "a.b[c..].iter()"; "fn f(state: &mut T) { let x = state; }"; "fn f(state: &mut T) { g(state); }"; "fn f(s: &mut T)"]%source =
  map Some [(false, true); (false, true); (true, true); (true, false); (true, true); (true, false)].
Proof. vm_compute. reflexivity. Qed.
