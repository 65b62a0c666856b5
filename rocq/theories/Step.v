(** * Step: from the effect of one loop iteration to the contract of a whole call. *)

From Verif Require Import Base Api Spec Lists Contract.

(** No chunk end inside [c]. *)
Lemma ends_at_none : forall r h c, (forall n, ~ ends_at r h c n) ->
  (forall m, (1 <= m <= length c)%nat -> ~ r h (firstn m c)).
Proof.
  intros r h c H m. induction m as [m IH] using lt_wf_ind. intros Hm Hr.
  apply (H m). split; [exact Hm|]. split; [exact Hr|]. intros j Hj. apply IH; lia.
Qed.

Lemma ends_before_none : forall r h c, (forall n, ~ ends_before r h c n) -> (forall n, ~ ends_at r h c n).
Proof.
  intros r h c H n E. destruct n as [|n]; [destruct E; lia|]. apply (H n). now apply ends_before_at.
Qed.

Lemma no_ends_before : forall r h c, (forall n, ~ ends_at r h c n) -> (forall n, ~ ends_before r h c n).
Proof. intros r h c H n E. apply (H (S n)). now apply ends_before_at. Qed.

(** Every chunk end in [c ++ b :: d] is past [c] when there is none in [c]. *)
Lemma ends_at_snoc : forall r h c b, (forall n, ~ ends_at r h c n) -> r h (c ++ [b]) -> ends_at r h (c ++ [b]) (S (length c)).
Proof.
  intros r h c b N Hr. split; [rewrite app_length; simpl; lia|]. split.
  - rewrite firstn_all2; [exact Hr|]. rewrite app_length. simpl. lia.
  - intros m Hm. rewrite firstn_app_le by lia. apply ends_at_none; [exact N|lia].
Qed.

Lemma no_ends_at_snoc : forall r h c b, (forall n, ~ ends_at r h c n) -> ~ r h (c ++ [b]) ->
  forall n, ~ ends_at r h (c ++ [b]) n.
Proof.
  intros r h c b N Hr n E. destruct (Nat.le_gt_cases n (length c)) as [G|G].
  - apply (N n). eapply ends_at_mono; eauto.
  - destruct E as (Hn & R & _). rewrite firstn_all2 in R; [exact (Hr R)|]. rewrite app_length in *. simpl in *. lia.
Qed.

(** ** [for (i, b) in data.iter().enumerate()] *)
Section Scan.
  Context {St : Type}.
  Variable body : St -> nat -> byte -> res (ctl St nat).
  Variable delta : nat.
  Variable rule : list byte -> list byte -> Prop.
  Variable lim : nat -> Prop.
  (** [R i s h c]: about to process index [i]; [Q s h c]: the state returned at a cut, [c] ending with the deciding byte. *)
  Variable R : nat -> St -> list byte -> list byte -> Prop.
  Variable Q : St -> list byte -> list byte -> Prop.

  Definition step_ok : Prop := forall i s h c b, R i s h c -> lim (length (h ++ c ++ [b])) ->
    (rule h (c ++ [b]) /\ exists s', body s i b = Ok (Return s' (i + delta)%nat) /\ Q s' h (c ++ [b])) \/
    (~ rule h (c ++ [b]) /\ exists s', body s i b = Ok (Next s') /\ R (S i) s' h (c ++ [b])).

  Hypothesis K : step_ok.
  Hypothesis D : down_closed lim.

  Lemma for_enum_scan : forall d i s h c, R i s h c -> (forall n, ~ ends_at rule h c n) -> lim (length (h ++ c ++ d)) ->
    (exists n j s', ends_at rule h (c ++ d) n /\ n = (length c + j + 1)%nat /\
       for_enum body i d s = Ok (Return s' (i + j + delta)%nat) /\ Q s' h (firstn n (c ++ d))) \/
    ((forall n, ~ ends_at rule h (c ++ d) n) /\
     exists s', for_enum body i d s = Ok (Next s') /\ R (i + length d)%nat s' h (c ++ d)).
  Proof.
    induction d as [|b d IH]; intros i s h c HR HN Hlim.
    - right. rewrite app_nil_r. split; [exact HN|]. exists s. simpl. now rewrite Nat.add_0_r.
    - cbn [for_enum].
      assert (Hlim1 : lim (length (h ++ c ++ [b]))).
      { eapply D; [|exact Hlim]. rewrite !app_length. simpl. lia. }
      assert (E : c ++ b :: d = (c ++ [b]) ++ d) by (now rewrite <- app_assoc).
      destruct (K i s h c b HR Hlim1) as [(Hr & s' & Eb & HQ)|(Hr & s' & Eb & HR')]; rewrite Eb; cbn [bind].
      + left. exists (S (length c)), 0%nat, s'. assert (F := ends_at_snoc rule h c b HN Hr).
        split; [|split; [lia|split]].
        * rewrite E. now apply (fl_ext _ (ends_at_laws rule)).
        * now rewrite Nat.add_0_r.
        * rewrite E, firstn_app_le by (rewrite app_length; simpl; lia).
          rewrite firstn_all2 by (rewrite app_length; simpl; lia). exact HQ.
      + assert (HN' := no_ends_at_snoc rule h c b HN Hr).
        rewrite E in *. destruct (IH (S i) s' h (c ++ [b]) HR' HN' Hlim)
          as [(n & j & s2 & F & En & Ef & HQ)|(N2 & s2 & Ef & HR2)].
        * left. exists n, (S j), s2. rewrite app_length in En. simpl in En.
          split; [exact F|]. split; [lia|]. split; [|exact HQ]. rewrite Ef. do 2 f_equal. lia.
        * right. split; [exact N2|]. exists s2. split; [exact Ef|]. simpl length.
          replace (i + S (length d))%nat with (S i + length d)%nat by lia. exact HR2.
  Qed.
End Scan.

(** ** [for i in lo..data.len()] *)
Section ScanRange.
  Context {St : Type}.
  Variable body : St -> nat -> res (ctl St nat).
  Variable rule : list byte -> list byte -> Prop.
  Variable lim : nat -> Prop.
  Variable buf : list byte.
  Variable R : nat -> St -> list byte -> list byte -> Prop.
  Variable Q : St -> list byte -> list byte -> Prop.

  Definition range_step_ok : Prop := forall i s h c b, R i s h c -> nth_error buf i = Some b -> lim (length (h ++ c ++ [b])) ->
    (rule h (c ++ [b]) /\ exists s', body s i = Ok (Return s' (i + 1)%nat) /\ Q s' h (c ++ [b])) \/
    (~ rule h (c ++ [b]) /\ exists s', body s i = Ok (Next s') /\ R (S i) s' h (c ++ [b])).

  Hypothesis K : range_step_ok.
  Hypothesis D : down_closed lim.

  Lemma for_range_scan : forall d pre s h c, buf = pre ++ d -> R (length pre) s h c -> (forall n, ~ ends_at rule h c n) ->
    lim (length (h ++ c ++ d)) ->
    (exists n j s', ends_at rule h (c ++ d) n /\ n = (length c + j + 1)%nat /\
       for_range body (length pre) (length d) s = Ok (Return s' (length pre + j + 1)%nat) /\ Q s' h (firstn n (c ++ d))) \/
    ((forall n, ~ ends_at rule h (c ++ d) n) /\
     exists s', for_range body (length pre) (length d) s = Ok (Next s') /\ R (length buf) s' h (c ++ d)).
  Proof.
    induction d as [|b d IH]; intros pre s h c Eb HR HN Hlim.
    - right. rewrite app_nil_r. split; [exact HN|]. exists s. simpl. split; [reflexivity|].
      rewrite Eb, app_nil_r. exact HR.
    - cbn [for_range length].
      assert (Hlim1 : lim (length (h ++ c ++ [b]))).
      { eapply D; [|exact Hlim]. rewrite !app_length. simpl. lia. }
      assert (Hb : nth_error buf (length pre) = Some b).
      { rewrite Eb, nth_error_app2, Nat.sub_diag by lia. reflexivity. }
      assert (E : c ++ b :: d = (c ++ [b]) ++ d) by (now rewrite <- app_assoc).
      destruct (K (length pre) s h c b HR Hb Hlim1) as [(Hr & s' & Ebd & HQ)|(Hr & s' & Ebd & HR')]; rewrite Ebd; cbn [bind].
      + left. exists (S (length c)), 0%nat, s'. assert (F := ends_at_snoc rule h c b HN Hr).
        split; [|split; [lia|split]].
        * rewrite E. now apply (fl_ext _ (ends_at_laws rule)).
        * now rewrite Nat.add_0_r.
        * rewrite E, firstn_app_le by (rewrite app_length; simpl; lia).
          rewrite firstn_all2 by (rewrite app_length; simpl; lia). exact HQ.
      + assert (HN' := no_ends_at_snoc rule h c b HN Hr).
        assert (Epre : length (pre ++ [b]) = S (length pre)) by (rewrite app_length; simpl; lia).
        rewrite E in *. destruct (IH (pre ++ [b]) s' h (c ++ [b])) as [(n & j & s2 & F & En & Ef & HQ)|(N2 & s2 & Ef & HR2)]; auto.
        * now rewrite Eb, <- app_assoc.
        * now rewrite Epre.
        * left. exists n, (S j), s2. rewrite app_length in En. simpl in En.
          split; [exact F|]. split; [lia|]. split; [|exact HQ]. rewrite Epre in Ef. rewrite Ef. do 2 f_equal. lia.
        * right. split; [exact N2|]. exists s2. rewrite Epre in Ef. split; [exact Ef|exact HR2].
  Qed.
End ScanRange.

(** ** The common shape of [push]: scan, return the index, forget the chunk *)
Definition scan_push {St} (body : St -> nat -> byte -> res (ctl St nat)) (s : St) (d : list byte) : res (St * option nat) :=
  r <- for_enum body 0 d s ;;
  match r with
  | Return s' k => Ok (s', Some k)
  | Next s' | Break s' => Ok (s', None)
  end.

Lemma scan_push_at : forall St (body : St -> nat -> byte -> res (ctl St nat)) delta rule lim R,
  (delta <= 1)%nat -> down_closed lim ->
  step_ok body delta rule lim (fun _ => R) (fun s h c => R s (h ++ c) []) ->
  push_ok (1 - delta) (scan_push body) (ends_at rule) lim R.
Proof.
  intros St body delta rule lim R Hd D K s h c d HR HN Hlim. unfold scan_push.
  destruct (for_enum_scan body delta rule lim _ _ K D d 0 s h c HR HN Hlim)
    as [(n & j & s' & F & En & Ef & HQ)|(N & s' & Ef & HR')]; rewrite Ef; cbn [bind].
  - left. exists n, (0 + j + delta)%nat, s'. split; [exact F|]. split; [lia|]. split; [reflexivity|exact HQ].
  - right. exists s'. auto.
Qed.

Lemma scan_push_before : forall St (body : St -> nat -> byte -> res (ctl St nat)) rule lim R,
  down_closed lim ->
  step_ok body 0 rule lim (fun _ => R) (fun s h c => R s (h ++ removelast c) []) ->
  push_ok 0 (scan_push body) (ends_before rule) lim R.
Proof.
  intros St body rule lim R D K s h c d HR HN Hlim. unfold scan_push.
  destruct (for_enum_scan body 0 rule lim _ _ K D d 0 s h c HR (ends_before_none _ _ _ HN) Hlim)
    as [(n & j & s' & F & En & Ef & HQ)|(N & s' & Ef & HR')]; rewrite Ef; cbn [bind].
  - left. exists (length c + j)%nat, (0 + j + 0)%nat, s'.
    split; [|split; [lia|split; [reflexivity|]]].
    + apply ends_before_at. now replace (S (length c + j)) with n by lia.
    + assert (X : removelast (firstn n (c ++ d)) = firstn (length c + j) (c ++ d)).
      { destruct F as [Hn _]. replace n with (S (length c + j)) by lia. apply removelast_firstn. lia. }
      rewrite X in HQ. exact HQ.
  - right. exists s'. split; [|auto]. now apply no_ends_before.
Qed.

(** ** The common shape of [find_chunk_edge] without look-back: scan everything, discard everything *)
Definition scan_find {St} (body : St -> nat -> byte -> res (ctl St nat)) (s : St) (d : list byte)
  : res (St * (option nat * nat)) :=
  r <- for_enum body 0 d s ;;
  match r with
  | Return s' k => Ok (s', (Some k, k))
  | Next s' | Break s' => Ok (s', (None, length d))
  end.

Definition no_lookback {St} (R : St -> list byte -> list byte -> Prop) (s : St) (h c : list byte) (k : nat) : Prop :=
  R s h c /\ k = 0%nat.

Lemma lastn_0 : forall A (c : list A), lastn 0 c = [].
Proof. intros A c. unfold lastn. rewrite Nat.sub_0_r. apply skipn_all. Qed.

Lemma scan_find_ok : forall St (body : St -> nat -> byte -> res (ctl St nat)) rule lim R,
  down_closed lim -> step_ok body 1 rule lim (fun _ => R) (fun s h c => R s (h ++ c) []) ->
  find_ok (scan_find body) (ends_at rule) lim 0 (no_lookback R).
Proof.
  intros St body rule lim R D K s h c k d [HR ->] _ HN Hlim. rewrite lastn_0. cbn [app]. unfold scan_find.
  destruct (for_enum_scan body 1 rule lim _ _ K D d 0 s h c HR HN Hlim)
    as [(n & j & s' & F & En & Ef & HQ)|(N & s' & Ef & HR')]; rewrite Ef; cbn [bind].
  - left. exists n, (0 + j + 1)%nat, s'. assert (Hn := fl_len _ (ends_at_laws _) _ _ _ F). rewrite app_length in Hn.
    split; [exact F|]. split; [lia|]. split; [lia|]. split; [reflexivity|]. now split.
  - right. exists s', (length d). rewrite Nat.sub_diag.
    split; [exact N|]. split; [lia|]. split; [lia|]. split; [reflexivity|]. now split.
Qed.

(** [find_chunk_edge] written on top of a [push] that returns the index of the deciding byte. *)
Lemma push_find_ok : forall St (push : St -> list byte -> res (St * option nat)) find rule lim R,
  push_ok 1 push (ends_at rule) lim R ->
  (forall s d, find s d = ('(s', r) <- push s d ;;
                           match r with
                           | Some i => Ok (s', (Some (i + 1)%nat, (i + 1)%nat))
                           | None => Ok (s', (None, length d))
                           end)) ->
  find_ok find (ends_at rule) lim 0 (no_lookback R).
Proof.
  intros St push find rule lim R K Ef s h c k d [HR ->] _ HN Hlim. rewrite lastn_0. cbn [app]. rewrite Ef.
  destruct (K s h c d HR HN Hlim) as [(n & j & s' & F & En & Ep & HQ)|(s' & N & Ep & HR')]; rewrite Ep; cbn [bind].
  - left. exists n, (j + 1)%nat, s'. assert (Hn := fl_len _ (ends_at_laws _) _ _ _ F). rewrite app_length in Hn.
    split; [exact F|]. split; [lia|]. split; [lia|]. split; [reflexivity|]. now split.
  - right. exists s', (length d). rewrite Nat.sub_diag.
    split; [exact N|]. split; [lia|]. split; [lia|]. split; [reflexivity|]. now split.
Qed.
