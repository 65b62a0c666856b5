(** * Cases: reading off the outcome of concrete runs, for the examples and counterexamples beside the theorems. *)

From Verif Require Import Base Api Tables Builtin.

Definition cuts_seen {St} (x : res (run St)) : option (list nat) := match x with Ok r => Some (r_cuts r) | _ => None end.
Definition slices_seen {I} (x : res (list (list byte) * I)) : option (list (list byte)) := match x with Ok (out, _) => Some out | _ => None end.

Lemma cuts_seen_inv : forall St (x : res (run St)) cs, cuts_seen x = Some cs -> exists r, x = Ok r /\ r_cuts r = cs.
Proof. intros St x cs E. destruct x as [r| |]; cbn in E; try discriminate. inversion E. eauto. Qed.

Lemma slices_seen_inv : forall I (x : res (list (list byte) * I)) out, slices_seen x = Some out -> exists it, x = Ok (out, it).
Proof. intros I x out E. destruct x as [[o it]| |]; cbn in E; try discriminate. inversion E; subst. eauto. Qed.

(** [Panic], decided. *)
Definition panics {A} (x : res A) : bool := match x with Panic => true | _ => false end.
Lemma panics_inv : forall A (x : res A), panics x = true -> x = Panic.
Proof. intros A x E. destruct x; cbn in E; congruence. Qed.

(** FastCdc with the crate's own table. *)
Lemma typed_gear64 : forall min normal max, is_u64 min -> is_u64 normal -> is_u64 max -> typed (CfgFastCdc GEAR_64 min normal max).
Proof.
  intros min normal max H1 H2 H3. cbn [typed]. split; [reflexivity|]. split; [|auto].
  assert (H : forallb (fun x => (0 <=? x) && (x <? 2 ^ 64)) GEAR_64 = true) by (vm_compute; reflexivity).
  rewrite forallb_forall in H. intros x Hx. specialize (H x Hx). unfold is_u64. lia.
Qed.
