(** * Stable: appending bytes does not move cuts. *)

From Verif Require Import Base Api Spec Lists Contract CutFacts Builtin BuiltinProofs CutProps.

Section Stable.
  Variable first : first_rel.
  Hypothesis L : first_laws first.

  Lemma cuts_append : forall h d cs, cuts_of first h d cs -> forall e cs', cuts_of first h (d ++ e) cs' ->
    exists later, cs' = cs ++ later /\ forall p, In p later -> (length h + length d <= p)%nat.
  Proof.
    induction 1 as [h d N|h d n cs F H IH]; intros e cs' H'.
    - exists cs'. split; [reflexivity|]. intros p Hp. exact (cuts_of_later first L h d e cs' p N H' Hp).
    - assert (Q := fl_len _ L _ _ _ F). assert (F' := fl_ext _ L h d e n F).
      inversion H' as [h1 d1 N1|h1 d1 n1 cs1 F1 H1]; subst; [exfalso; exact (N1 n F')|].
      assert (n1 = n) as -> by exact (fl_fun _ L _ _ _ _ F1 F').
      rewrite firstn_app, skipn_app in H1. replace (n - length d)%nat with 0%nat in H1 by lia.
      rewrite firstn_O, app_nil_r, skipn_O in H1. destruct (IH e cs1 H1) as (later & -> & Hl).
      exists later. split; [reflexivity|]. intros p Hp. specialize (Hl p Hp). rewrite app_length, firstn_length, skipn_length in Hl. lia.
  Qed.

  (** Where the decision needs nothing beyond the chunk, a cut at the very end is seen already. *)
  Lemma cuts_append_local : local_first first -> progressive first -> forall h d cs, cuts_of first h d cs -> forall e cs', cuts_of first h (d ++ e) cs' ->
    exists later, cs' = cs ++ later /\ forall p, In p later -> (length h + length d < p)%nat.
  Proof.
    intros Lo Pr. induction 1 as [h d N|h d n cs F H IH]; intros e cs' H'.
    - exists cs'. split; [reflexivity|]. inversion H' as [h1 d1 N1|h1 d1 n cs1 F1 H1]; subst; [easy|].
      assert (Hn : (length d < n)%nat).
      { destruct (Nat.le_gt_cases n (length d)) as [G|G]; [|exact G]. exfalso. destruct (Nat.eq_dec n (length d)) as [->|Q].
        - apply Lo in F1. rewrite firstn_app, Nat.sub_diag, firstn_O, app_nil_r, firstn_all in F1. exact (N _ F1).
        - exact (N n (fl_mono _ L h d e n F1 ltac:(lia))). }
      intros p [<-|Hp]; [lia|]. assert (P := cuts_of_ge _ _ _ _ H1 p Hp). rewrite app_length, firstn_length in P.
      assert (Q := fl_len _ L _ _ _ F1). lia.
    - assert (Q := fl_len _ L _ _ _ F). assert (F' := fl_ext _ L h d e n F).
      inversion H' as [h1 d1 N1|h1 d1 n1 cs1 F1 H1]; subst; [exfalso; exact (N1 n F')|].
      assert (n1 = n) as -> by exact (fl_fun _ L _ _ _ _ F1 F').
      rewrite firstn_app, skipn_app in H1. replace (n - length d)%nat with 0%nat in H1 by lia.
      rewrite firstn_O, app_nil_r, skipn_O in H1. destruct (IH e cs1 H1) as (later & -> & Hl).
      exists later. split; [reflexivity|]. intros p Hp. specialize (Hl p Hp). rewrite app_length, firstn_length, skipn_length in Hl. lia.
  Qed.
End Stable.

