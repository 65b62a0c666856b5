(** * Cap: two rules of which one has a size cap as well. *)

From Verif Require Import Base Api Tables Spec Lists Contract CutFacts BuzHash BuzProofs Builtin BuiltinProofs.

Section Cap.
  Variables r1 r2 : list byte -> list byte -> Prop.
  Variable P : nat -> Prop.
  Hypothesis Pd : forall m n, (m <= n)%nat -> P n -> P m.
  Hypothesis I21 : forall h c, r2 h c -> r1 h c.
  Hypothesis I12 : forall h c, P (length c) -> r1 h c -> r2 h c.

  Lemma cap_first : forall h d n, P n -> ends_at r2 h d n -> ends_at r1 h d n.
  Proof.
    intros h d n Hn (L & R & N). split; [exact L|]. split; [now apply I21|]. intros m Hm X. apply (N m Hm). apply I12; [|exact X].
    apply (Pd _ n); [|exact Hn]. rewrite firstn_length. lia.
  Qed.

  Lemma cap_none : forall h d n, P (length d) -> ends_at r1 h d n -> exists m, ends_at r2 h d m.
  Proof.
    intros h d n Hd (L & R & N). exists n. split; [exact L|]. split.
    - apply I12; [|exact R]. apply (Pd _ (length d)); [|exact Hd]. rewrite firstn_length. lia.
    - intros m Hm X. apply (N m Hm). now apply I21.
  Qed.

  (** Up to the first chunk of the second rule that is too large the cuts are the same. *)
  Lemma cap_prefix : forall pre rest h d, cuts_of (ends_at r2) h d (pre ++ rest) -> forall cs1, cuts_of (ends_at r1) h d cs1 ->
    Forall P (sizes (length h) pre) -> exists rest1, cs1 = pre ++ rest1.
  Proof.
    induction pre as [|p pre IH]; intros rest h d H2 cs1 H1 F; [exists cs1; reflexivity|].
    cbn [app sizes] in H2, F. inversion F as [|? ? F1 F2]; subst. inversion H2 as [|? ? n cs Hn H2']; subst.
    replace (length h + n - length h)%nat with n in F1 by lia.
    assert (X := cap_first _ _ _ F1 Hn). destruct Hn as (L & _).
    assert (Lh : length (h ++ firstn n d) = (length h + n)%nat) by (rewrite app_length, firstn_length; lia).
    inversion H1 as [? ? N|? ? n' cs' Hn' H1']; subst; [now destruct (N n)|].
    assert (n' = n) by (apply (fl_fun _ (ends_at_laws r1) h d); assumption). subst n'.
    destruct (IH rest _ _ H2' _ H1') as (rest1 & ->).
    - rewrite Lh. exact F2.
    - exists rest1. reflexivity.
  Qed.

  (** If the undecided tail is not too large either, all cuts are the same. *)
  Lemma cap_all : forall cs2 h d, cuts_of (ends_at r2) h d cs2 -> forall cs1, cuts_of (ends_at r1) h d cs1 ->
    Forall P (sizes (length h) (cs2 ++ [length h + length d]%nat)) -> cs1 = cs2.
  Proof.
    induction cs2 as [|p cs2 IH]; intros h d H2 cs1 H1 F; cbn [app sizes] in F; inversion F as [|? ? F1 F2]; subst.
    - replace (length h + length d - length h)%nat with (length d) in F1 by lia.
      inversion H2 as [? ? N|]; subst. inversion H1 as [|? ? n cs Hn _]; subst; [reflexivity|].
      destruct (cap_none _ _ _ F1 Hn) as (m & Hm). now destruct (N m).
    - inversion H2 as [|? ? n cs Hn H2']; subst. replace (length h + n - length h)%nat with n in F1 by lia.
      assert (X := cap_first _ _ _ F1 Hn). destruct Hn as (L & _).
      assert (Lh : length (h ++ firstn n d) = (length h + n)%nat) by (rewrite app_length, firstn_length; lia).
      inversion H1 as [? ? N|? ? n' cs' Hn' H1']; subst; [now destruct (N n)|].
      assert (n' = n) by (apply (fl_fun _ (ends_at_laws r1) h d); assumption). subst n'. f_equal.
      apply (IH _ _ H2' _ H1'). rewrite Lh, skipn_length. replace (length h + n + (length d - n))%nat with (length h + length d)%nat by lia. exact F2.
  Qed.
End Cap.

Section Buz.
  Variables (k : nat) (mask max : Z) (h : BuzHashHash).
  Variables (CI : Incr) (CC : Chunk).
  Let c := CfgBuzHash k mask h max.
  Hypothesis T : typed c.
  Hypothesis EI : incr_of c = Ok CI.
  Hypothesis EC : chunk_of c = Ok CC.

  Let P (n : nat) : Prop := Z.of_nat n <= max.

  Lemma buz_runs : forall sh data sched1 sched2 a1 a2, stream_len (length data) ->
    run_incr 0 CI data (sched1 ++ drain data) = Ok a1 -> run_chunk sh CC data (sched2 ++ drain data) = Ok a2 ->
    cuts_of (ends_at (per_chunk (buz_incr_rule (value_of h) k mask max))) [] data (r_cuts a1) /\
    cuts_of (ends_at (per_chunk (buz_rule (value_of h) k mask))) [] data (r_cuts a2).
  Proof.
    intros sh data sched1 sched2 a1 a2 Hl E1 E2. split.
    - exact (incr_final _ _ _ _ (incr_all c CI T EI I) data sched1 a1 Hl E1).
    - exact (chunk_final _ _ _ _ _ (chunk_all c CC _ sh T EC I eq_refl) data sched2 a2 Hl E2).
  Qed.

  Theorem buz_cap_prefix : forall sh data sched1 sched2 a1 a2 pre rest, stream_len (length data) ->
    run_incr 0 CI data (sched1 ++ drain data) = Ok a1 -> run_chunk sh CC data (sched2 ++ drain data) = Ok a2 ->
    r_cuts a2 = pre ++ rest -> Forall (fun n => Z.of_nat n <= max) (sizes 0 pre) -> exists rest1, r_cuts a1 = pre ++ rest1.
  Proof.
    intros sh data sched1 sched2 a1 a2 pre rest Hl E1 E2 Ep F. destruct (buz_runs _ _ _ _ _ _ Hl E1 E2) as [H1 H2]. rewrite Ep in H2.
    apply (cap_prefix (per_chunk (buz_incr_rule (value_of h) k mask max)) (per_chunk (buz_rule (value_of h) k mask)) P) with (rest := rest) (h := []) (d := data); auto.
    - unfold P. intros; lia.
    - intros h' x X. now left.
    - intros h' x X [Y|Y]; [exact Y|]. unfold P in X. lia.
  Qed.

  Theorem buz_cap_all : forall sh data sched1 sched2 a1 a2, stream_len (length data) ->
    run_incr 0 CI data (sched1 ++ drain data) = Ok a1 -> run_chunk sh CC data (sched2 ++ drain data) = Ok a2 ->
    Forall (fun n => Z.of_nat n <= max) (sizes 0 (r_cuts a2 ++ [length data])) -> r_cuts a1 = r_cuts a2.
  Proof.
    intros sh data sched1 sched2 a1 a2 Hl E1 E2 F. destruct (buz_runs _ _ _ _ _ _ Hl E1 E2) as [H1 H2].
    apply (cap_all (per_chunk (buz_incr_rule (value_of h) k mask max)) (per_chunk (buz_rule (value_of h) k mask)) P) with (h := []) (d := data); auto.
    - unfold P. intros; lia.
    - intros h' x X. now left.
    - intros h' x X [Y|Y]; [exact Y|]. unfold P in X. lia.
  Qed.
End Buz.
