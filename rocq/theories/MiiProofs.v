(** * MiiProofs *)

From Verif Require Import Base Api Spec Lists Contract Step Mii.

(** Number of increments at the end of the stream, on the reversed (newest first) list. *)
Fixpoint incs (l : list byte) : nat :=
  match l with
  | b :: t => match t with
              | a :: _ => if b2z a <? b2z b then S (incs t) else 0%nat
              | [] => 0%nat
              end
  | [] => 0%nat
  end.

Lemma incs_bound : forall l a t, l = a :: t -> Z.of_nat (incs l) <= b2z a.
Proof.
  induction l as [|x l IH]; intros a t E; inversion E; subst. destruct t as [|y t].
  - simpl. assert (H := b2z_range a). lia.
  - change (incs (a :: y :: t)) with (if b2z y <? b2z a then S (incs (y :: t)) else 0%nat).
    destruct (Z.ltb_spec (b2z y) (b2z a)) as [H|H].
    + specialize (IH y t eq_refl). lia.
    + assert (X := b2z_range a). lia.
Qed.

Lemma increasing_snoc : forall l a b, increasing (l ++ [a; b]) <-> increasing (l ++ [a]) /\ b2z a < b2z b.
Proof.
  intros l a b. split.
  - intros H. split.
    + intros i x y Hx Hy. apply (H i x y).
      * replace (l ++ [a; b]) with ((l ++ [a]) ++ [b]) by (now rewrite <- app_assoc).
        rewrite nth_error_app1; [exact Hx|]. apply nth_error_Some. congruence.
      * replace (l ++ [a; b]) with ((l ++ [a]) ++ [b]) by (now rewrite <- app_assoc).
        rewrite nth_error_app1; [exact Hy|]. apply nth_error_Some. congruence.
    + apply (H (length l)).
      * rewrite nth_error_app2, Nat.sub_diag by lia. reflexivity.
      * rewrite nth_error_app2 by lia. now replace (S (length l) - length l)%nat with 1%nat by lia.
  - intros [H Hab] i x y Hx Hy.
    replace (l ++ [a; b]) with ((l ++ [a]) ++ [b]) in * by (now rewrite <- app_assoc).
    destruct (Nat.lt_trichotomy (S i) (length (l ++ [a]))) as [G|[G|G]].
    + rewrite nth_error_app1 in Hx, Hy by lia. eapply H; eauto.
    + rewrite nth_error_app1 in Hx by lia. rewrite nth_error_app2, G, Nat.sub_diag in Hy by lia.
      inversion Hy; subst. rewrite app_length in G. simpl in G.
      replace i with (length l) in Hx by lia. rewrite nth_error_snoc in Hx. now inversion Hx; subst.
    + assert (Hl : (S i < length ((l ++ [a]) ++ [b]))%nat) by (apply nth_error_Some; congruence).
      rewrite app_length in Hl. simpl in Hl. lia.
Qed.

Lemma increasing_single : forall a, increasing [a].
Proof. intros a i x y Hx Hy. destruct i as [|[|i]]; simpl in *; discriminate. Qed.

(** [l] newest first has at least [k] final increments iff its last [k + 1] bytes increase. *)
Lemma incs_spec : forall k l, (k <= incs l)%nat /\ l <> [] <->
  exists pre tail, rev l = pre ++ tail /\ length tail = S k /\ increasing tail.
Proof.
  induction k as [|k IH]; intros l.
  - split.
    + intros [_ Hl]. destruct l as [|a t]; [congruence|]. exists (rev t), [a].
      split; [reflexivity|]. split; [reflexivity|apply increasing_single].
    + intros (pre & tail & E & L & _). split; [lia|]. intros ->. simpl in E.
      destruct pre; destruct tail; simpl in *; discriminate.
  - destruct l as [|b [|a t]].
    + split; [intros [_ H]; congruence|]. intros (pre & tail & E & L & _). simpl in E.
      destruct pre; destruct tail; simpl in *; discriminate.
    + split; [intros [H _]; simpl in H; lia|]. intros (pre & tail & E & L & _).
      apply (f_equal (@length byte)) in E. rewrite app_length in E. simpl in E. lia.
    + change (incs (b :: a :: t)) with (if b2z a <? b2z b then S (incs (a :: t)) else 0%nat). split.
      * intros [H _]. destruct (Z.ltb_spec (b2z a) (b2z b)) as [G|G]; [|lia].
        destruct (proj1 (IH (a :: t))) as (pre & tail & E & L & I). { split; [lia|discriminate]. }
        assert (Ht : exists tl, tail = tl ++ [a]).
        { destruct (exists_last (l := tail)) as (tl & x & ->); [intros ->; discriminate|].
          simpl in E. rewrite app_assoc in E. apply app_snoc_inv in E. destruct E as [_ ->]. now exists tl. }
        destruct Ht as [tl ->]. exists pre, (tl ++ [a; b]). simpl. simpl in E. rewrite E.
        split; [now rewrite <- !app_assoc|]. split.
        { rewrite app_length in *. simpl in *. lia. }
        now apply increasing_snoc.
      * intros (pre & tail & E & L & I). split; [|discriminate].
        destruct (exists_last (l := tail)) as (tl & x & ->); [intros ->; discriminate|].
        rewrite app_length in L. simpl in L.
        destruct (exists_last (l := tl)) as (tl2 & y & ->); [intros ->; simpl in L; lia|].
        cbn [rev] in E. rewrite !app_assoc in E. apply app_snoc_inv in E. destruct E as [E ->].
        apply app_snoc_inv in E. destruct E as [E ->]. rewrite <- app_assoc in I. simpl in I.
        apply increasing_snoc in I. destruct I as [I G].
        destruct (Z.ltb_spec (b2z y) (b2z x)) as [_|G']; [|lia].
        assert (X : (k <= incs (y :: t))%nat /\ y :: t <> []).
        { apply IH. exists pre, (tl2 ++ [y]). cbn [rev]. rewrite app_length in *. simpl in *.
          split; [now rewrite E, <- app_assoc|]. split; [lia|exact I]. }
        lia.
Qed.

Lemma mii_rule_incs : forall w v, mii_rule w v <-> 1 <= w /\ w <= Z.of_nat (incs (rev v)).
Proof.
  intros w v. unfold mii_rule. split.
  - intros [Hw (pre & tail & E & L & I)]. split; [exact Hw|].
    assert (X : (Z.to_nat w <= incs (rev v))%nat /\ rev v <> []).
    { apply incs_spec. exists pre, tail. rewrite rev_involutive. split; [exact E|]. split; [lia|exact I]. }
    lia.
  - intros [Hw H]. split; [exact Hw|].
    destruct (proj1 (incs_spec (Z.to_nat w) (rev v))) as (pre & tail & E & L & I).
    { split; [lia|]. intros E. rewrite E in H. simpl in H. lia. }
    exists pre, tail. rewrite rev_involutive in E. split; [exact E|]. split; [lia|exact I].
Qed.

(** The state after the (virtual) bytes [v] of a chunk. *)
Definition mii_rel (w : Z) (s : MiiIncr) (v : list byte) : Prop :=
  mii_w s = w /\ mii_prev s = hd xff (rev v) /\ mii_increment s = Z.of_nat (incs (rev v)) /\ ~ mii_rule w v.

Lemma mii_step : forall w s v b i, mii_rel w s v ->
  (mii_rule w (v ++ [b]) /\ exists s', mii_push_body s i b = Ok (Return s' (i + 1)%nat) /\
     mii_w s' = w /\ mii_prev s' = x00 /\ mii_increment s' = 0) \/
  (~ mii_rule w (v ++ [b]) /\ exists s', mii_push_body s i b = Ok (Next s') /\ mii_rel w s' (v ++ [b])).
Proof.
  intros w s v b i (Ew & Ep & Ei & HN). unfold mii_push_body.
  rewrite mii_rule_incs in HN.
  assert (Er : rev (v ++ [b]) = b :: rev v) by (now rewrite rev_app_distr).
  assert (Hrule : mii_rule w (v ++ [b]) <-> 1 <= w /\ w <= Z.of_nat (incs (b :: rev v)))
    by (rewrite mii_rule_incs, Er; reflexivity).
  destruct (rev v) as [|a t] eqn:Ev.
  - (* no previous byte: 0xff, never exceeded *)
    simpl in Ep. rewrite Ep. unfold byte_gtb. replace (b2z xff) with 255 by reflexivity.
    assert (X := b2z_range b). replace (255 <? b2z b) with false by (symmetry; apply Z.ltb_ge; lia).
    right. simpl in Hrule. split; [rewrite Hrule; lia|].
    eexists. split; [reflexivity|]. unfold mii_rel. simpl. rewrite Er. simpl.
    split; [exact Ew|]. split; [reflexivity|]. split; [reflexivity|]. rewrite Hrule. lia.
  - simpl in Ep. rewrite Ep. unfold byte_gtb.
    assert (Ei2 : incs (b :: a :: t) = if b2z a <? b2z b then S (incs (a :: t)) else 0%nat) by reflexivity.
    rewrite Ei2 in Hrule. clear Ei2.
    destruct (Z.ltb_spec (b2z a) (b2z b)) as [G|G].
    + assert (Bd := incs_bound (a :: t) a t eq_refl). assert (X := b2z_range a).
      unfold add_u64. rewrite Ei.
      replace (Z.of_nat (incs (a :: t)) + 1 <? two64) with true by (symmetry; apply Z.ltb_lt; unfold two64; lia).
      cbn [bind]. rewrite Ew.
      destruct (Z.eqb_spec (Z.of_nat (incs (a :: t)) + 1) w) as [E|E].
      * left. split; [rewrite Hrule; lia|]. eexists. split; [reflexivity|]. simpl. auto.
      * right. assert (HN' : ~ mii_rule w (v ++ [b])) by (rewrite Hrule; lia). split; [exact HN'|].
        eexists. split; [reflexivity|]. unfold mii_rel. cbn [mii_w mii_prev mii_increment]. rewrite Er.
        split; [reflexivity|]. split; [reflexivity|]. split; [|exact HN'].
        change (incs (b :: a :: t)) with (if b2z a <? b2z b then S (incs (a :: t)) else 0%nat).
        destruct (Z.ltb_spec (b2z a) (b2z b)) as [_|G']; lia.
    + right. assert (HN' : ~ mii_rule w (v ++ [b])) by (rewrite Hrule; lia). split; [exact HN'|].
      eexists. split; [reflexivity|]. unfold mii_rel. cbn [mii_w mii_prev mii_increment]. rewrite Er.
      split; [exact Ew|]. split; [reflexivity|]. split; [|exact HN'].
      change (incs (b :: a :: t)) with (if b2z a <? b2z b then S (incs (a :: t)) else 0%nat).
      destruct (Z.ltb_spec (b2z a) (b2z b)) as [G'|_]; lia.
Qed.

Lemma mii_rule_nil : forall w, ~ mii_rule w [].
Proof. intros w. rewrite mii_rule_incs. simpl. lia. Qed.
Lemma mii_rule_single : forall w b, ~ mii_rule w [b].
Proof. intros w b. rewrite mii_rule_incs. simpl. lia. Qed.

(** ** Incremental *)
Definition mii_virtual (h c : list byte) : list byte := match h with [] => c | _ => x00 :: c end.

Lemma mii_incr_rule_virtual : forall w h c, mii_incr_rule w h c = mii_rule w (mii_virtual h c).
Proof. intros w [|x h] c; reflexivity. Qed.

Lemma mii_virtual_snoc : forall h c b, mii_virtual h (c ++ [b]) = mii_virtual h c ++ [b].
Proof. intros [|x h] c b; reflexivity. Qed.

Lemma mii_push_ok : forall w, push_ok 0 mii_push (ends_at (mii_incr_rule w)) any_length
  (fun s h c => mii_rel w s (mii_virtual h c)).
Proof.
  intros w. apply (scan_push_at _ mii_push_body 1); [lia|apply any_length_down|].
  intros i s h c b HR _. rewrite mii_incr_rule_virtual, mii_virtual_snoc.
  destruct (mii_step w s _ b i HR) as [(Hr & s' & E & E1 & E2 & E3)|(Hr & s' & E & HR')].
  - left. split; [exact Hr|]. exists s'. split; [exact E|].
    assert (Ev : mii_virtual (h ++ c ++ [b]) [] = [x00]) by (destruct h; destruct c; reflexivity).
    rewrite Ev. split; [exact E1|]. split; [now rewrite E2|]. split; [now rewrite E3|]. apply mii_rule_single.
  - right. split; [exact Hr|]. exists s'. auto.
Qed.

Lemma mii_new_rel : forall w, mii_rel w (mii_incr_new w) [].
Proof. intros w. split; [reflexivity|]. split; [reflexivity|]. split; [reflexivity|]. apply mii_rule_nil. Qed.

Lemma mii_incr_conforms : forall w, incr_conforms 0 (mii_incr w) (ends_at (mii_incr_rule w)) any_length.
Proof.
  intros w. eapply incr_conforms_of; eauto using ends_at_laws, ends_at_progressive, any_length_down, mii_push_ok.
  apply mii_new_rel.
Qed.

Lemma mii_incr_prompt : forall w, incr_prompt 0 (mii_incr w) (ends_at (mii_incr_rule w)) any_length.
Proof.
  intros w. eapply incr_prompt_of; eauto using ends_at_laws, ends_at_local, any_length_down, mii_push_ok.
  apply mii_new_rel.
Qed.

(** ** All at once *)
Lemma mii_find_ok : forall w, find_ok mii_find_chunk_edge (ends_at (per_chunk (mii_rule w))) any_length 0
  (no_lookback (fun s h c => mii_rel w s c)).
Proof.
  intros w s h c k d [HR ->] _ HN Hlim. rewrite lastn_0. cbn [app]. unfold mii_find_chunk_edge, mii_push.
  assert (K : step_ok mii_push_body 1 (per_chunk (mii_rule w)) any_length (fun _ s h c => mii_rel w s c)
                (fun s h c => mii_w s = w)).
  { intros i s0 h0 c0 b HR0 _. unfold per_chunk.
    destruct (mii_step w s0 c0 b i HR0) as [(Hr & s' & E & E1 & E2 & E3)|(Hr & s' & E & HR')]; [left|right]; eauto. }
  destruct (for_enum_scan mii_push_body 1 _ any_length _ _ K any_length_down d 0 s h c HR HN Hlim)
    as [(n & j & s' & F & En & Ef & HQ)|(N & s' & Ef & HR')]; rewrite Ef; cbn [bind].
  - left. exists n, (0 + j + 1)%nat, (mii_reset s'). assert (Hn := fl_len _ (ends_at_laws _) _ _ _ F). rewrite app_length in Hn.
    split; [exact F|]. split; [lia|]. split; [lia|]. split; [reflexivity|]. split; [|reflexivity].
    split; [exact HQ|]. split; [reflexivity|]. split; [reflexivity|]. apply mii_rule_nil.
  - right. exists s', (length d). rewrite Nat.sub_diag.
    split; [exact N|]. split; [lia|]. split; [lia|]. split; [reflexivity|]. now split.
Qed.

Lemma mii_chunk_conforms : forall w shrink,
  chunk_conforms shrink (mii_chunk w) (ends_at (per_chunk (mii_rule w))) any_length 0.
Proof.
  intros w shrink.
  eapply chunk_conforms_of; eauto using ends_at_laws, ends_at_progressive, ends_at_local, any_length_down, mii_find_ok.
  split; [apply mii_new_rel|reflexivity].
Qed.

(** ** Parameters that never split *)
Lemma mii_never : forall w v, w <= 0 \/ 256 <= w -> ~ mii_rule w v.
Proof.
  intros w v Hw H. apply mii_rule_incs in H. destruct (rev v) as [|a t] eqn:E; [simpl in H; lia|].
  assert (X := incs_bound (a :: t) a t eq_refl). assert (Y := b2z_range a). lia.
Qed.

(** The counter stays below 256 in every reachable state. *)
Lemma mii_counter : forall w s v, mii_rel w s v -> 0 <= mii_increment s <= 255.
Proof.
  intros w s v (_ & _ & -> & _). destruct (rev v) as [|a t] eqn:E; [simpl; lia|].
  assert (X := incs_bound (a :: t) a t eq_refl). assert (Y := b2z_range a). lia.
Qed.
