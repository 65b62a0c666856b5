(** * IterProofs: the slice iterators of src/lib.rs. *)

From Verif Require Import Base Api Spec Lists Contract Step.

(** ** For any chunker *)
Lemma split_at_inv : forall A (l : list A) n v rn, split_at l n = Ok (v, rn) -> l = v ++ rn /\ length v = n.
Proof.
  intros A l n v rn H. unfold split_at in H. destruct (Nat.leb_spec n (length l)); [|discriminate].
  inversion H; subst. split; [symmetry; apply firstn_skipn|rewrite firstn_length; lia].
Qed.

Lemma iter_next_inv : forall C (it it' : SliceIter C) o, iter_slices_next it = Ok (it', o) ->
  match o with
  | Some v => it_rem it = v ++ it_rem it' /\ it_rem it <> []
  | None => it_rem it = [] /\ it' = it
  end.
Proof.
  intros C it it' o H. unfold iter_slices_next in H. destruct (it_rem it) as [|b rem] eqn:Er.
  - inversion H; subst. now split.
  - apply bind_inv in H. destruct H as ((st & r) & _ & H). destruct r as [l|].
    + apply bind_inv in H. destruct H as ((v & rn) & Es & H). inversion H; subst. cbn [it_rem].
      apply split_at_inv in Es. split; [exact (proj1 Es)|discriminate].
    + inversion H; subst. cbn [it_rem]. rewrite app_nil_r. split; [reflexivity|discriminate].
Qed.

Lemma strict_next_inv : forall C (it it' : SliceIter C) o, iter_slices_strict_next it = Ok (it', o) ->
  match o with
  | Some v => it_rem it = v ++ it_rem it' /\ incr_push C (it_chunker it) (it_rem it) = Ok (it_chunker it', Some (length v))
  | None => it_rem it' = it_rem it /\ incr_push C (it_chunker it) (it_rem it) = Ok (it_chunker it', None)
  end.
Proof.
  intros C it it' o H. unfold iter_slices_strict_next in H.
  apply bind_inv in H. destruct H as ((st & r) & Ep & H). destruct r as [l|].
  - apply bind_inv in H. destruct H as ((v & rn) & Es & H). inversion H; subst. cbn [it_rem it_chunker].
    apply split_at_inv in Es. destruct Es as [E1 E2]. split; [exact E1|]. now rewrite E2.
  - inversion H; subst. cbn [it_rem it_chunker]. now split.
Qed.

Lemma take_next_concat : forall C next, (forall (it it' : SliceIter C) o, next it = Ok (it', o) ->
    match o with Some v => it_rem it = v ++ it_rem it' | None => it_rem it' = it_rem it end) ->
  forall n it out it', take_next next n it = Ok (out, it') -> concat out ++ it_rem it' = it_rem it.
Proof.
  intros C next Hn n. induction n as [|n IH]; intros it out it' H; cbn [take_next] in H.
  - now inversion H; subst.
  - apply bind_inv in H. destruct H as ((it1 & o) & E1 & H). apply bind_inv in H. destruct H as ((rest & it2) & E2 & H).
    apply Hn in E1. apply IH in E2. inversion H; subst. destruct o as [v|].
    + cbn [concat]. now rewrite <- app_assoc, E2.
    + now rewrite E2.
Qed.

Lemma collect_concat : forall C fuel (it it' : SliceIter C) out, collect iter_slices_next fuel it = Ok (out, it') ->
  concat out = it_rem it /\ it_rem it' = [].
Proof.
  intros C fuel. induction fuel as [|fuel IH]; intros it it' out H; cbn [collect] in H; [discriminate|].
  apply bind_inv in H. destruct H as ((it1 & o) & E1 & H). apply iter_next_inv in E1. destruct o as [v|].
  - apply bind_inv in H. destruct H as ((rest & it2) & E2 & H). inversion H; subst. apply IH in E2. destruct E2 as [E2 E3].
    cbn [concat]. rewrite E2. split; [symmetry; exact (proj1 E1)|exact E3].
  - inversion H; subst. destruct E1 as [E1 ->]. split; [now rewrite E1|exact E1].
Qed.

Lemma take_next_out : forall C n (it : SliceIter C), it_rem it = [] -> take_next iter_slices_next n it = Ok ([], it).
Proof.
  intros C n. induction n as [|n IH]; intros it H; [reflexivity|]. cbn [take_next].
  unfold iter_slices_next at 1. rewrite H. cbn [bind]. now rewrite IH.
Qed.

Lemma collect_S : forall I T (next : I -> res (I * option T)) fuel it, collect next (S fuel) it =
  ('(it', o) <- next it ;;
   match o with
   | None => Ok ([], it')
   | Some v => '(rest, it'') <- collect next fuel it' ;; Ok (v :: rest, it'')
   end).
Proof. reflexivity. Qed.

(** ** The built-in chunkers: the slices are the pieces between the cuts *)
Lemma collect_pieces : forall C first lim R, first_laws first -> progressive first -> down_closed lim ->
  push_ok 0 (incr_push C) first lim R ->
  forall n s h rem, R s h [] -> lim (length (h ++ rem)) -> (length rem < n)%nat ->
  exists cs it, cuts_of first h rem cs /\
    collect iter_slices_next (S n) {| it_rem := rem; it_chunker := s |} = Ok (pieces (length h) cs rem, it).
Proof.
  intros C first lim R L P D K. induction n as [|n IH]; intros s h rem HR Hl Hn; [lia|].
  rewrite collect_S. unfold iter_slices_next at 1. cbn [it_rem]. destruct rem as [|b rem].
  - cbn [bind]. exists [], {| it_rem := []; it_chunker := s |}. split; [|reflexivity]. constructor. apply (fl_nil _ L).
  - destruct (K s h [] (b :: rem) HR (fl_nil _ L h) Hl) as [(m & k & s' & F & Em & E & HR')|(s' & N & E & HR')];
      cbn [it_chunker]; rewrite E; cbn [bind].
    + cbn [app length] in *. assert (m = k) as -> by lia. assert (Hk := fl_len _ L _ _ _ F). assert (Hp := P _ _ _ F).
      unfold split_at. replace (Nat.leb k (length (b :: rem))) with true by (symmetry; apply Nat.leb_le; exact Hk).
      cbn [bind].
      assert (Hh' : length (h ++ firstn k (b :: rem)) = (length h + k)%nat) by (rewrite app_length, firstn_length; lia).
      destruct (IH s' (h ++ firstn k (b :: rem)) (skipn k (b :: rem)) HR') as (cs & it & Hc & Ec).
      { rewrite <- app_assoc, firstn_skipn. exact Hl. }
      { rewrite skipn_length. cbn [length] in *. lia. }
      exists ((length h + k)%nat :: cs), it. split; [econstructor; eauto|].
      rewrite Ec. cbn [bind pieces]. rewrite Hh'. replace (length h + k - length h)%nat with k by lia. reflexivity.
    + exists [], {| it_rem := []; it_chunker := s' |}. split; [now constructor|].
      destruct n as [|n]; [cbn [length] in Hn; lia|]. reflexivity.
Qed.

Theorem iter_slices_pieces : forall C first lim R, first_laws first -> progressive first -> down_closed lim ->
  push_ok 0 (incr_push C) first lim R -> R (incr_new C) [] [] ->
  forall data, lim (length data) -> exists cs it, cuts_of first [] data cs /\
    collect iter_slices_next (2 + length data) (iter_slices C (incr_new C) data) = Ok (pieces 0 cs data, it).
Proof.
  intros C first lim R L P D K R0 data Hl.
  destruct (collect_pieces C first lim R L P D K (S (length data)) (incr_new C) [] data) as (cs & it & Hc & Ec); auto.
  exists cs, it. auto.
Qed.

(** More fuel changes nothing. *)
Lemma collect_more : forall I T (next : I -> res (I * option T)) fuel it x, collect next fuel it = Ok x ->
  forall fuel', (fuel <= fuel')%nat -> collect next fuel' it = Ok x.
Proof.
  intros I T next fuel. induction fuel as [|fuel IH]; intros it x H fuel' Hf; [discriminate|].
  destruct fuel' as [|fuel']; [lia|]. cbn [collect] in *. destruct (next it) as [[it1 o]| |]; try discriminate.
  cbn [bind] in *. destruct o as [v|]; [|exact H].
  destruct (collect next fuel it1) as [[rest it2]| |] eqn:E; try discriminate. now rewrite (IH it1 _ E fuel' ltac:(lia)).
Qed.

(** ** A chunker whose state and remainder do not move never ends *)
Lemma collect_stuck : forall I T (next : I -> res (I * option T)) it v, next it = Ok (it, Some v) ->
  forall fuel, collect next fuel it = Diverge.
Proof.
  intros I T next it v H fuel. induction fuel as [|fuel IH]; [reflexivity|]. cbn [collect]. rewrite H. cbn [bind].
  now rewrite IH.
Qed.

(** ** [drive_push] with the whole rest each time, and the iterator *)
Lemma pieces_concat : forall cs base data, concat (pieces base cs data) = data.
Proof.
  induction cs as [|p cs IH]; intros base data; cbn [pieces].
  - destruct data; [reflexivity|]. cbn [concat]. apply app_nil_r.
  - cbn [concat]. rewrite IH. apply firstn_skipn.
Qed.
