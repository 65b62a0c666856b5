(** * Count: how many byte strings of a given length satisfy a test. *)

From Coq Require Import FinFun.
From Verif Require Import Base Lists.

(** ** Definitions *)

(** All byte strings of length [n]. *)
Fixpoint strings (n : nat) : list (list byte) :=
  match n with
  | O => [[]]
  | S m => flat_map (fun b => map (cons b) (strings m)) all_bytes
  end.

(** How many of them pass the test [P]; the sum of [f] over them. *)
Definition count (n : nat) (P : list byte -> bool) : Z := Z.of_nat (length (filter P (strings n))).
Definition total (n : nat) (f : list byte -> Z) : Z := fold_right Z.add 0 (map f (strings n)).

(** ** Facts *)
Lemma strings_complete : forall n l, In l (strings n) <-> length l = n.
Proof.
  induction n as [|n IH]; intros l; cbn [strings].
  - split; [intros [<-|[]]; reflexivity|]. destruct l; [now left|discriminate].
  - rewrite in_flat_map. split.
    + intros (b & _ & H). apply in_map_iff in H. destruct H as (t & <- & H). apply IH in H. cbn. lia.
    + destruct l as [|b t]; [discriminate|]. cbn [length]. intros E. exists b. split; [apply all_bytes_complete|].
      apply in_map. apply IH. lia.
Qed.

Lemma all_bytes_nodup : NoDup all_bytes.
Proof.
  assert (E : map b2z all_bytes = map Z.of_nat (seq 0 256)) by (vm_compute; reflexivity).
  apply (NoDup_map_inv b2z). rewrite E. apply FinFun.Injective_map_NoDup; [intros x y; lia|apply seq_NoDup].
Qed.

Lemma strings_nodup : forall n, NoDup (strings n).
Proof.
  induction n as [|n IH]; cbn [strings]; [constructor; [easy|constructor]|].
  assert (N := all_bytes_nodup). induction all_bytes as [|b bs IHb]; cbn [flat_map]; [constructor|]. inversion N as [|? ? N1 N2]; subst.
  assert (A : NoDup (map (cons b) (strings n))) by (apply FinFun.Injective_map_NoDup; [intros x y H; now injection H|exact IH]).
  assert (D : forall l, In l (map (cons b) (strings n)) -> ~ In l (flat_map (fun b => map (cons b) (strings n)) bs)).
  { intros l H1 H2. apply in_map_iff in H1. destruct H1 as (t & <- & _). apply in_flat_map in H2. destruct H2 as (b2 & H3 & H4).
    apply in_map_iff in H4. destruct H4 as (t2 & E & _). injection E as -> _. contradiction. }
  revert A D. generalize (map (cons b) (strings n)) (IHb N2). intros l1 A2 A1 D. induction l1 as [|x l1 IHl]; [exact A2|].
  inversion A1 as [|? ? B1 B2]; subst. cbn [app]. constructor.
  - rewrite in_app_iff. intros [H|H]; [contradiction|]. apply (D x); [now left|exact H].
  - apply IHl; [exact B2|]. intros l Hl. apply D. now right.
Qed.

(** Sums over bytes. *)
Definition bsum (f : byte -> Z) : Z := fold_right Z.add 0 (map f all_bytes).

Lemma sum_app : forall l1 l2, fold_right Z.add 0 (l1 ++ l2) = fold_right Z.add 0 l1 + fold_right Z.add 0 l2.
Proof. induction l1 as [|x l1 IH]; intros l2; cbn [app fold_right]; [reflexivity|]. rewrite IH. ring. Qed.

Lemma total_0 : forall f, total 0 f = f [].
Proof. intros f. unfold total. cbn. ring. Qed.

Lemma total_S : forall n f, total (S n) f = bsum (fun b => total n (fun l => f (b :: l))).
Proof.
  intros n f. unfold total, bsum. cbn [strings]. induction all_bytes as [|b bs IH]; [reflexivity|].
  cbn [flat_map map fold_right]. rewrite map_app, sum_app, IH, map_map. reflexivity.
Qed.

Lemma count_total : forall n P, count n P = total n (fun l => if P l then 1 else 0).
Proof.
  intros n P. unfold count, total. induction (strings n) as [|l ls IH]; [reflexivity|]. cbn [filter map fold_right].
  destruct (P l); cbn [length]; lia.
Qed.

Lemma bsum_ext : forall f g, (forall b, f b = g b) -> bsum f = bsum g.
Proof. intros f g H. unfold bsum. now rewrite (map_ext _ _ H). Qed.
Lemma bsum_add : forall f g, bsum (fun b => f b + g b) = bsum f + bsum g.
Proof. intros f g. unfold bsum. induction all_bytes as [|b bs IH]; cbn [map fold_right]; [reflexivity|]. rewrite IH. ring. Qed.
Lemma bsum_mul : forall k f, bsum (fun b => k * f b) = k * bsum f.
Proof. intros k f. unfold bsum. induction all_bytes as [|b bs IH]; cbn [map fold_right]; [ring|]. rewrite IH. ring. Qed.
Lemma bsum_const : forall k, bsum (fun _ => k) = 256 * k.
Proof.
  intros k. unfold bsum. assert (H : forall bs : list byte, fold_right Z.add 0 (map (fun _ => k) bs) = Z.of_nat (length bs) * k).
  { induction bs as [|b bs IH]; cbn [map fold_right length]; [ring|]. rewrite IH. lia. }
  rewrite H. reflexivity.
Qed.

Lemma total_ext : forall n f g, (forall l, length l = n -> f l = g l) -> total n f = total n g.
Proof.
  intros n f g H. unfold total. f_equal. apply map_ext_in. intros l Hl. apply H. now apply strings_complete.
Qed.
Lemma total_add : forall n f g, total n (fun l => f l + g l) = total n f + total n g.
Proof.
  induction n as [|n IH]; intros f g; [now rewrite !total_0|]. rewrite !total_S, <- bsum_add. apply bsum_ext. intros b. apply IH.
Qed.
Lemma total_mul : forall n k f, total n (fun l => k * f l) = k * total n f.
Proof.
  induction n as [|n IH]; intros k f; [now rewrite !total_0|]. rewrite !total_S, <- bsum_mul. apply bsum_ext. intros b. apply IH.
Qed.
Lemma total_const : forall n k, total n (fun _ => k) = 256 ^ Z.of_nat n * k.
Proof.
  induction n as [|n IH]; intros k; [rewrite total_0; change (256 ^ Z.of_nat 0) with 1; ring|]. rewrite total_S, (bsum_ext _ (fun _ => 256 ^ Z.of_nat n * k)) by (intros b; apply IH).
  rewrite bsum_const, Nat2Z.inj_succ, Z.pow_succ_r by lia. ring.
Qed.

Lemma total_app : forall a b f, total (a + b) f = total a (fun u => total b (fun v => f (u ++ v))).
Proof.
  induction a as [|a IH]; intros b f; [now rewrite total_0|]. cbn [Nat.add]. rewrite !total_S. apply bsum_ext. intros x. apply IH.
Qed.

Lemma bsum_total : forall n (f : byte -> list byte -> Z), bsum (fun b => total n (f b)) = total n (fun l => bsum (fun b => f b l)).
Proof.
  intros n f. unfold bsum. induction all_bytes as [|b bs IH]; cbn [map fold_right]; [rewrite total_const; ring|].
  rewrite IH, <- total_add. reflexivity.
Qed.

(** One byte in the last place. *)
Lemma total_snoc : forall n f, total (S n) f = total n (fun l => bsum (fun b => f (l ++ [b]))).
Proof.
  intros n f. replace (S n) with (n + 1)%nat by lia. rewrite total_app. apply total_ext. intros l _. rewrite total_S. apply bsum_ext. intros b. apply total_0.
Qed.

(** ** Counting residues *)
Lemma bsum_as_seq : forall f : Z -> Z, bsum (fun b => f (b2z b)) = fold_right Z.add 0 (map (fun i => f (Z.of_nat i)) (seq 0 256)).
Proof.
  intros f. assert (E : map b2z all_bytes = map Z.of_nat (seq 0 256)) by (vm_compute; reflexivity).
  unfold bsum. now rewrite <- (map_map b2z f), <- (map_map Z.of_nat f), E.
Qed.

Lemma seq_one : forall n a k, (a <= k < a + n)%nat -> fold_right Z.add 0 (map (fun i => if Nat.eqb i k then 1 else 0) (seq a n)) = 1.
Proof.
  induction n as [|n IH]; intros a k H; [lia|]. cbn [seq map fold_right]. destruct (Nat.eqb_spec a k) as [->|G].
  - assert (Z0 : forall m b, (k < b)%nat -> fold_right Z.add 0 (map (fun i => if Nat.eqb i k then 1 else 0) (seq b m)) = 0).
    { induction m as [|m IHm]; intros b Hb; [reflexivity|]. cbn [seq map fold_right]. rewrite (IHm (S b)) by lia.
      destruct (Nat.eqb_spec b k); lia. }
    rewrite Z0 by lia. reflexivity.
  - rewrite IH by lia. reflexivity.
Qed.

(** Exactly one byte has a given value. *)
Lemma bsum_one : forall v, 0 <= v < 256 -> bsum (fun b => if b2z b =? v then 1 else 0) = 1.
Proof.
  intros v Hv. rewrite (bsum_as_seq (fun z => if z =? v then 1 else 0)).
  etransitivity; [|apply (seq_one 256 0 (Z.to_nat v)); lia]. f_equal. apply map_ext. intros i.
  destruct (Z.eqb_spec (Z.of_nat i) v), (Nat.eqb_spec i (Z.to_nat v)); lia.
Qed.

(** Bytes in a residue class modulo a divisor [m] of 256. *)
Lemma bsum_mod : forall m j v, 256 = m * j -> 0 < m -> 0 <= v < m -> bsum (fun b => if b2z b mod m =? v then 1 else 0) = j.
Proof.
  intros m j v E Hm Hv. rewrite (bsum_as_seq (fun z => if z mod m =? v then 1 else 0)).
  assert (H : forall t, fold_right Z.add 0 (map (fun i => if Z.of_nat i mod m =? v then 1 else 0) (seq 0 (t * Z.to_nat m))) = Z.of_nat t).
  { induction t as [|t IH]; [reflexivity|]. cbn [Nat.mul]. rewrite Nat.add_comm, seq_app, map_app, sum_app, IH. cbn [Nat.add].
    rewrite (map_ext_in _ (fun i => if Nat.eqb i (t * Z.to_nat m + Z.to_nat v) then 1 else 0)); [rewrite seq_one; lia|].
    intros i Hi. apply in_seq in Hi.
    assert (X : Z.of_nat i mod m = Z.of_nat i - Z.of_nat t * m).
    { symmetry. apply Z.mod_unique with (Z.of_nat t); [left; nia|ring]. }
    rewrite X. destruct (Z.eqb_spec (Z.of_nat i - Z.of_nat t * m) v), (Nat.eqb_spec i (t * Z.to_nat m + Z.to_nat v)); nia. }
  assert (Hj : 0 <= j) by nia. specialize (H (Z.to_nat j)). replace (Z.to_nat j * Z.to_nat m)%nat with 256%nat in H by nia. rewrite H. lia.
Qed.
