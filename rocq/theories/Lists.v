(** * Lists: lemmas about lists used everywhere. *)

From Coq Require Import NArith Nnat.
From Verif Require Import Base Spec.

Lemma firstn_app_le : forall A (n : nat) (a b : list A), (n <= length a)%nat -> firstn n (a ++ b) = firstn n a.
Proof.
  intros A n a b Hn. rewrite firstn_app. replace (n - length a)%nat with 0%nat by lia.
  simpl. now rewrite app_nil_r.
Qed.

Lemma skipn_app_le : forall A (n : nat) (a b : list A), (n <= length a)%nat -> skipn n (a ++ b) = skipn n a ++ b.
Proof. intros A n a b Hn. rewrite skipn_app. replace (n - length a)%nat with 0%nat by lia. reflexivity. Qed.

Lemma firstn_app_ge : forall A (n : nat) (a b : list A), (length a <= n)%nat ->
  firstn n (a ++ b) = a ++ firstn (n - length a) b.
Proof. intros A n a b Hn. rewrite firstn_app. now rewrite firstn_all2 by lia. Qed.

Lemma skipn_app_ge : forall A (n : nat) (a b : list A), (length a <= n)%nat ->
  skipn n (a ++ b) = skipn (n - length a) b.
Proof. intros A n a b Hn. rewrite skipn_app. now rewrite skipn_all2 by lia. Qed.

Lemma skipn_skipn' : forall A (n m : nat) (l : list A), skipn n (skipn m l) = skipn (m + n) l.
Proof.
  intros A n m. revert n. induction m as [|m IH]; intros n l; [reflexivity|].
  destruct l; simpl; [apply skipn_nil|apply IH].
Qed.

Lemma skipn_firstn_split : forall A (n m : nat) (l : list A), (n <= m)%nat ->
  firstn m l = firstn n l ++ firstn (m - n) (skipn n l).
Proof.
  intros A n m l H. rewrite <- (firstn_skipn n (firstn m l)) at 1.
  rewrite firstn_firstn, Nat.min_l by lia. now rewrite skipn_firstn_comm.
Qed.

Lemma firstn_S_snoc : forall A (n : nat) (l : list A) b, nth_error l n = Some b -> firstn (S n) l = firstn n l ++ [b].
Proof.
  intros A n. induction n as [|n IH]; intros [|x l] b H; simpl in *; try discriminate.
  - now inversion H.
  - now rewrite (IH l b H).
Qed.

Lemma app_snoc_inv : forall A (a b : list A) x y, a ++ [x] = b ++ [y] -> a = b /\ x = y.
Proof. intros A a b x y H. now apply app_inj_tail in H. Qed.

Lemma nth_error_snoc : forall A (l : list A) b, nth_error (l ++ [b]) (length l) = Some b.
Proof. intros A l b. rewrite nth_error_app2, Nat.sub_diag by lia. reflexivity. Qed.

Lemma lastn_length : forall A k (l : list A), length (lastn k l) = Nat.min k (length l).
Proof. intros A k l. unfold lastn. rewrite skipn_length. lia. Qed.

Lemma lastn_all : forall A k (l : list A), (length l <= k)%nat -> lastn k l = l.
Proof. intros A k l H. unfold lastn. now replace (length l - k)%nat with 0%nat by lia. Qed.

Lemma lastn_app : forall A k (a b : list A), (k <= length b)%nat -> lastn k (a ++ b) = lastn k b.
Proof.
  intros A k a b H. unfold lastn. rewrite skipn_app, app_length.
  rewrite skipn_all2 by lia. simpl. f_equal. lia.
Qed.

Lemma rev_lastn : forall A k (l : list A), rev (lastn k l) = firstn k (rev l).
Proof.
  intros A k l. unfold lastn.
  assert (E : rev l = rev (skipn (length l - k) l) ++ rev (firstn (length l - k) l))
    by (now rewrite <- rev_app_distr, firstn_skipn).
  rewrite E. clear E. destruct (Nat.le_gt_cases (length l) k) as [H|H].
  - replace (length l - k)%nat with 0%nat by lia. simpl. rewrite app_nil_r.
    rewrite firstn_all2; [reflexivity|]. rewrite rev_length. lia.
  - rewrite firstn_app_le by (rewrite rev_length, skipn_length; lia).
    rewrite firstn_all2; [reflexivity|]. rewrite rev_length, skipn_length. lia.
Qed.

Lemma lastn_lastn : forall A j k (l : list A), (j <= k)%nat -> lastn j (lastn k l) = lastn j l.
Proof.
  intros A j k l H. unfold lastn at 1 3. rewrite lastn_length. unfold lastn.
  rewrite skipn_skipn'. f_equal. lia.
Qed.

(** Appending one byte to a full window drops the oldest. *)
Lemma lastn_snoc_full : forall A W (c : list A) b, (1 <= W <= length c)%nat ->
  exists o, nth_error c (length c - W) = Some o /\ lastn W c = o :: lastn (W - 1) c /\
            lastn W (c ++ [b]) = lastn (W - 1) c ++ [b].
Proof.
  intros A W c b H. destruct (nth_error c (length c - W)) as [o|] eqn:E.
  2:{ apply nth_error_None in E. lia. }
  exists o. split; [reflexivity|]. split.
  - unfold lastn. replace (length c - (W - 1))%nat with (S (length c - W)) by lia.
    clear - E. revert E. generalize (length c - W)%nat as m. intros m. revert c.
    induction m as [|m IH]; intros [|x c] E; simpl in *; try discriminate; [now inversion E|]. now apply IH.
  - unfold lastn. rewrite app_length. simpl. replace (length c + 1 - W)%nat with (length c - (W - 1))%nat by lia.
    now rewrite skipn_app_le by lia.
Qed.

Lemma lastn_snoc_short : forall A W (c : list A) b, (length c < W)%nat -> lastn W (c ++ [b]) = c ++ [b] /\ lastn W c = c.
Proof. intros A W c b H. rewrite !lastn_all; [auto| |rewrite app_length; simpl]; lia. Qed.

(** ** [res] *)
Lemma bind_ok : forall A B (m : res A) (f : A -> res B) a, m = Ok a -> bind m f = f a.
Proof. intros A B m f a ->. reflexivity. Qed.

Lemma bind_inv : forall A B (m : res A) (f : A -> res B) b, bind m f = Ok b -> exists a, m = Ok a /\ f a = Ok b.
Proof. intros A B [a| |] f b H; try discriminate. now exists a. Qed.

Lemma index_ok : forall A (l : list A) i a, nth_error l i = Some a -> index l i = Ok a.
Proof. intros A l i a H. unfold index. now rewrite H. Qed.

Lemma index_lt : forall A (l : list A) i, (i < length l)%nat -> exists a, nth_error l i = Some a /\ index l i = Ok a.
Proof.
  intros A l i H. unfold index. destruct (nth_error l i) as [a|] eqn:E; [now exists a|].
  apply nth_error_None in E. lia.
Qed.

(** ** Bytes *)
Lemma b2z_range : forall b, 0 <= b2z b < 256.
Proof. intros b. unfold b2z. destruct b; vm_compute; split; congruence || reflexivity. Qed.

Lemma b2z_inj : forall a b, b2z a = b2z b -> a = b.
Proof.
  intros a b H. unfold b2z in H. apply N2Z.inj in H.
  assert (E : Some a = Some b); [|now inversion E].
  rewrite <- (Byte.of_to_N a), <- (Byte.of_to_N b). now rewrite H.
Qed.

Lemma byte_eqb_spec : forall a b, reflect (a = b) (byte_eqb a b).
Proof.
  intros a b. unfold byte_eqb. destruct (Byte.eqb a b) eqn:E; constructor.
  - now apply Byte.byte_dec_bl.
  - intros ->. rewrite (Byte.byte_dec_lb (eq_refl b)) in E. discriminate.
Qed.

(** Every byte is in the list of all 256 bytes: turns a finite sweep into a statement about all bytes. *)
Definition all_bytes : list byte :=
  flat_map (fun n => match Byte.of_N (N.of_nat n) with Some b => [b] | None => [] end) (seq 0 256).

Lemma all_bytes_complete : forall b, In b all_bytes.
Proof.
  intros b. apply in_flat_map. exists (N.to_nat (Byte.to_N b)). split.
  - apply in_seq. assert (H : (Byte.to_N b <= 255)%N) by (destruct b; vm_compute; congruence). lia.
  - rewrite N2Nat.id, Byte.of_to_N. now left.
Qed.

Lemma forall_bytes : forall f : byte -> bool, forallb f all_bytes = true -> forall b, f b = true.
Proof. intros f H b. rewrite forallb_forall in H. apply H, all_bytes_complete. Qed.

Lemma nth_error_skipn' : forall A n m (l : list A), nth_error (skipn n l) m = nth_error l (n + m).
Proof.
  intros A n m. induction n as [|n IH]; intros l; [reflexivity|]. destruct l as [|x l]; cbn [skipn].
  - simpl. now destruct m.
  - apply IH.
Qed.
