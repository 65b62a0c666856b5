(** * Ring: a ring buffer holds the last bytes. *)

From Verif Require Import Base Api Spec Lists.

(** Read from the write position on, wrapping around, the buffer is [v] (oldest first). *)
Definition ring_ok {A} (win : list A) (o : nat) (v : list A) : Prop :=
  (o < length win)%nat /\ skipn o win ++ firstn o win = v.

Lemma set_nth_mid : forall A (a : list A) x b y, set_nth (a ++ x :: b) (length a) y = a ++ y :: b.
Proof. induction a as [|z a IH]; intros x b y; [reflexivity|]. simpl. now rewrite IH. Qed.

Lemma store_mid : forall A (a : list A) x b y, store (a ++ x :: b) (length a) y = Ok (a ++ y :: b).
Proof.
  intros A a x b y. unfold store. replace (Nat.ltb _ _) with true.
  - now rewrite set_nth_mid.
  - symmetry. apply Nat.ltb_lt. rewrite app_length. cbn [length]. lia.
Qed.

Lemma nth_error_mid : forall A (a : list A) x b, nth_error (a ++ x :: b) (length a) = Some x.
Proof. intros A a x b. rewrite nth_error_app2, Nat.sub_diag by lia. reflexivity. Qed.

Lemma split_nth : forall A (l : list A) i, (i < length l)%nat -> exists a x b, l = a ++ x :: b /\ length a = i.
Proof.
  intros A l i H. destruct (nth_error l i) as [x|] eqn:E; [|apply nth_error_None in E; lia].
  destruct (nth_error_split l i E) as (a & b & E1 & E2). now exists a, x, b.
Qed.

Lemma ring_length : forall A (win : list A) o v, ring_ok win o v -> length v = length win.
Proof.
  intros A win o v [Ho <-]. rewrite app_length, skipn_length, firstn_length. lia.
Qed.

(** Replacing the oldest entry and advancing. *)
Lemma ring_step : forall A (win : list A) o v b, ring_ok win o v -> exists x t win',
  v = x :: t /\ index win o = Ok x /\ store win o b = Ok win' /\ length win' = length win /\
  ring_ok win' (if Nat.eqb (o + 1) (length win) then 0%nat else (o + 1)%nat) (t ++ [b]).
Proof.
  intros A win o v b [Ho E]. destruct (split_nth _ win o Ho) as (a & x & c & -> & La). subst o.
  rewrite skipn_app_ge, firstn_app_le, Nat.sub_diag, firstn_all in E by lia. cbn [skipn app] in E.
  exists x, (c ++ a), (a ++ b :: c). split; [now symmetry|].
  split; [apply index_ok, nth_error_mid|]. split; [apply store_mid|].
  rewrite !app_length. cbn [length]. split; [reflexivity|].
  destruct (Nat.eqb_spec (length a + 1) (length a + S (length c))) as [G|G].
  - destruct c; [|cbn [length] in G; lia]. unfold ring_ok. rewrite app_length. cbn [length skipn firstn app].
    split; [lia|]. now rewrite app_nil_r.
  - unfold ring_ok. rewrite app_length. cbn [length]. split; [lia|].
    replace (a ++ b :: c) with ((a ++ [b]) ++ c) by (now rewrite <- app_assoc).
    assert (L : (length a + 1)%nat = length (a ++ [b])) by (rewrite app_length; reflexivity).
    rewrite L, skipn_app_ge, firstn_app_le, Nat.sub_diag, firstn_all by lia. cbn [skipn].
    now rewrite <- app_assoc.
Qed.

Lemma next_mod : forall o n, (o < n)%nat -> ((o + 1) mod n = if Nat.eqb (o + 1) n then 0 else o + 1)%nat.
Proof.
  intros o n H. destruct (Nat.eqb_spec (o + 1) n) as [G|G].
  - rewrite G. apply Nat.mod_same. lia.
  - apply Nat.mod_small. lia.
Qed.
