(** * Window: [find_chunk_edge] with look-back into the caller's buffer.

    The common shape of GzipRsyncable, RollSum and BuzHash: scan from a remembered offset, look back [W] bytes in the
    buffer, keep the last [W] bytes. *)

From Verif Require Import Base Api Spec Lists Contract Step.

Definition window_find {St} (body : list byte -> St -> nat -> res (ctl St nat)) (offset : St -> nat)
  (set_offset : nat -> St -> St) (W : nat) (s : St) (buf : list byte) : res (St * (option nat * nat)) :=
  r <- for_range (body buf) (offset s) (length buf - offset s) s ;;
  match r with
  | Return s' k => Ok (s', (Some k, k))
  | Next s' | Break s' =>
      let discard := (length buf - W)%nat in
      Ok (set_offset (length buf - discard)%nat s', (None, discard))
  end.

Section WindowFind.
  Context {St : Type}.
  Variable body : list byte -> St -> nat -> res (ctl St nat).
  Variable offset : St -> nat.
  Variable set_offset : nat -> St -> St.
  Variable W : nat.
  Variable rule : list byte -> list byte -> Prop.
  Variable lim : nat -> Prop.
  Variable Rs : St -> list byte -> list byte -> Prop.

  Definition window_step_ok : Prop := forall buf i s h c b, Rs s h c -> nth_error buf i = Some b ->
    lim (length (h ++ c ++ [b])) ->
    ((W <= i)%nat <-> (W <= length c)%nat) ->
    ((W <= i)%nat -> nth_error buf (i - W) = nth_error (c ++ [b]) (length c - W)) ->
    (rule h (c ++ [b]) /\ exists s', body buf s i = Ok (Return s' (i + 1)%nat) /\ Rs s' (h ++ c ++ [b]) [] /\ offset s' = 0%nat) \/
    (~ rule h (c ++ [b]) /\ exists s', body buf s i = Ok (Next s') /\ Rs s' h (c ++ [b])).

  Hypothesis K : window_step_ok.
  Hypothesis D : down_closed lim.
  Hypothesis Hoff : forall n s, offset (set_offset n s) = n.
  Hypothesis Hset : forall n s h c, Rs s h c -> Rs (set_offset n s) h c.

  Definition window_rel (s : St) (h c : list byte) (k : nat) : Prop :=
    Rs s h c /\ offset s = k /\ k = Nat.min (length c) W.

  Lemma window_find_ok : find_ok (window_find body offset set_offset W) (ends_at rule) lim W window_rel.
  Proof.
    intros s h c k d (HR & Ho & Hk) Hkc HN Hlim buf.
    assert (Lk : length (lastn k c) = k) by (rewrite lastn_length; lia).
    assert (Lb : length buf = (k + length d)%nat) by (unfold buf; rewrite app_length; lia).
    (* inside the loop, the chunk ends with the first [i] bytes of the buffer *)
    set (RL := fun (i : nat) (s : St) (h c : list byte) =>
                 Rs s h c /\ firstn i buf = lastn i c /\ (Nat.min W (length c) <= i <= length c)%nat).
    assert (KL : range_step_ok (body buf) rule lim buf RL (fun s' h c => Rs s' (h ++ c) [] /\ offset s' = 0%nat)).
    { intros i s0 h0 c0 b (R0 & E0 & L0) Hb Hl.
      assert (Hi : (i < length buf)%nat) by (apply nth_error_Some; congruence).
      assert (E1 : firstn (S i) buf = lastn (S i) (c0 ++ [b])).
      { rewrite (firstn_S_snoc _ _ _ _ Hb), E0. unfold lastn. rewrite app_length. cbn [length].
        replace (length c0 + 1 - S i)%nat with (length c0 - i)%nat by lia. rewrite skipn_app_le by lia. reflexivity. }
      destruct (K buf i s0 h0 c0 b R0 Hb Hl) as [(Hr & s' & Es & R' & O')|(Hr & s' & Es & R')].
      - lia.
      - intros G. apply (f_equal (fun l => nth_error l (i - W))) in E1.
        unfold lastn in E1. rewrite app_length in E1. cbn [length] in E1.
        rewrite <- (firstn_skipn (S i) buf) at 1. rewrite nth_error_app1 by (rewrite firstn_length; lia).
        rewrite E1, nth_error_skipn'. f_equal. lia.
      - left. split; [exact Hr|]. exists s'. auto.
      - right. split; [exact Hr|]. exists s'. split; [exact Es|]. split; [exact R'|]. split; [exact E1|].
        rewrite app_length. cbn [length]. lia. }
    assert (R0 : RL (length (lastn k c)) s h c).
    { split; [exact HR|]. rewrite Lk. unfold buf. split; [|lia].
      rewrite firstn_app_le by lia. rewrite <- Lk at 1. apply firstn_all. }
    unfold window_find.
    replace (offset s) with (length (lastn k c)) by lia.
    replace (length buf - length (lastn k c))%nat with (length d) by lia.
    destruct (for_range_scan (body buf) rule lim buf RL _ KL D d (lastn k c) s h c eq_refl R0 HN Hlim)
      as [(n & j & s' & F & En & Ef & (HQ & O'))|(N & s' & Ef & (R' & E' & L'))]; rewrite Ef; cbn [bind].
    - left. exists n, (length (lastn k c) + j + 1)%nat, s'.
      assert (Hn := fl_len _ (ends_at_laws _) _ _ _ F). rewrite app_length in Hn.
      split; [exact F|]. split; [lia|]. split; [lia|]. split; [reflexivity|].
      split; [exact HQ|]. split; [exact O'|]. reflexivity.
    - right. eexists _, (length buf - W)%nat. split; [exact N|]. split; [lia|]. split; [lia|]. split; [reflexivity|].
      split; [now apply Hset|]. split; [apply Hoff|]. rewrite app_length. lia.
  Qed.

End WindowFind.
