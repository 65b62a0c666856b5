(** * ZpaqProofs *)

From Verif Require Import Base Api Range Spec Lists Contract Step Words Ring Zpaq.

(** ** Ranges *)
Lemma under_min_spec : forall r n, reflect (below_range r n) (under_min r n).
Proof.
  intros [lo hi] n. unfold below_range, under_min. cbn [start_bound fst].
  destruct lo as [z|z|]; [apply Z.ltb_spec0|apply Z.leb_spec0|constructor; auto].
Qed.
Lemma exceeds_max_spec : forall r n, reflect (above_range r n) (exceeds_max r n).
Proof.
  intros [lo hi] n. unfold above_range, exceeds_max. cbn [end_bound snd].
  destruct hi as [z|z|]; [apply Z.ltb_spec0|apply Z.leb_spec0|constructor; auto].
Qed.
Lemma in_range_spec : forall r n, in_range r n <-> ~ below_range r n /\ ~ above_range r n.
Proof.
  intros [lo hi] n. unfold in_range, below_range, above_range. cbn [start_bound end_bound fst snd].
  destruct lo; destruct hi; lia.
Qed.
Lemma range_contains_spec : forall r n, reflect (in_range r n) (range_contains r n).
Proof.
  intros r n. unfold range_contains.
  destruct (under_min_spec r n) as [U|U]; [constructor; rewrite in_range_spec; tauto|].
  destruct (exceeds_max_spec r n) as [E|E]; constructor; rewrite in_range_spec; tauto.
Qed.
Lemma into_tuple_id : forall r, into_tuple r = r.
Proof. intros [[| |] [| |]]; reflexivity. Qed.

(** ** The predictor *)
Lemma set_nth_length : forall A (l : list A) i v, length (set_nth l i v) = length l.
Proof. induction l as [|x l IH]; intros [|i] v; cbn [set_nth length]; auto. Qed.

Lemma nth_error_set_nth : forall A (l : list A) i j v, (i < length l)%nat ->
  nth_error (set_nth l i v) j = if Nat.eqb i j then Some v else nth_error l j.
Proof.
  induction l as [|x l IH]; intros [|i] [|j] v H; cbn [set_nth nth_error Nat.eqb length] in *; try lia; auto.
  apply IH. lia.
Qed.

Lemma b2n_inj : forall a b, Z.to_nat (b2z a) = Z.to_nat (b2z b) -> a = b.
Proof. intros a b H. assert (A := b2z_range a). assert (B := b2z_range b). apply b2z_inj. lia. Qed.

(** [pred] holds for every byte [q] the follower of its last occurrence. *)
Definition zpaq_hash_rel (s : ZpaqHash) (c : list byte) : Prop :=
  zh_hash s = zpaq_hash c /\ length (zh_predicted_byte s) = 256%nat /\
  exists older, rev c ++ [x00] = zh_last_byte s :: older /\
    forall q, nth_error (zh_predicted_byte s) (Z.to_nat (b2z q)) = Some (follower q (zh_last_byte s) older).

Lemma zpaq_hash_feed_spec : forall s c b, zpaq_hash_rel s c ->
  exists s', zpaq_hash_feed s b = Ok s' /\ zpaq_hash_rel s' (c ++ [b]).
Proof.
  intros s c b (Eh & Lp & older & El & Hp). unfold zpaq_hash_feed.
  rewrite (index_ok _ _ _ _ (Hp (zh_last_byte s))). cbn [bind].
  unfold store. rewrite Lp.
  replace (Nat.ltb _ 256) with true by (symmetry; apply Nat.ltb_lt, b2n_lt). cbn [bind].
  eexists. split; [reflexivity|]. unfold zpaq_hash_rel. cbn [zh_hash zh_last_byte zh_predicted_byte].
  split; [|split].
  - unfold zpaq_hash. rewrite rev_app_distr. cbn [rev app zpaq_hash_rev].
    unfold prediction. rewrite El. unfold byte_eqb. rewrite Eh. unfold zpaq_hash.
    destruct (Byte.eqb b (follower (zh_last_byte s) (zh_last_byte s) older)); unfold wrap32, two32; solve_mod.
  - now rewrite set_nth_length.
  - exists (zh_last_byte s :: older). split.
    + rewrite rev_app_distr. cbn [rev app]. now rewrite El.
    + intros q. rewrite nth_error_set_nth by (rewrite Lp; apply b2n_lt). cbn [follower].
      destruct (byte_eqb_spec (zh_last_byte s) q) as [E|E].
      * unfold byte_eqb. subst q. rewrite Nat.eqb_refl. now rewrite (Byte.byte_dec_lb (eq_refl (zh_last_byte s))).
      * destruct (Nat.eqb_spec (Z.to_nat (b2z (zh_last_byte s))) (Z.to_nat (b2z q))) as [E2|E2].
        { apply b2n_inj in E2. contradiction. }
        destruct (Byte.eqb (zh_last_byte s) q) eqn:E3; [|apply Hp].
        apply Byte.byte_dec_bl in E3. contradiction.
Qed.

Lemma zpaq_hash_default_rel : zpaq_hash_rel zpaq_hash_default [].
Proof.
  split; [reflexivity|]. split; [reflexivity|]. exists []. split; [reflexivity|].
  intros q. cbn [follower zpaq_hash_default zh_predicted_byte].
  assert (H := b2n_lt q). destruct (nth_error (repeat x00 256) (Z.to_nat (b2z q))) as [x|] eqn:E.
  - apply nth_error_In, repeat_spec in E. now subst.
  - apply nth_error_None in E. rewrite repeat_length in E. lia.
Qed.

(** ** One step *)
Definition zpaq_rel (s : ZpaqState) (h c : list byte) : Prop :=
  zs_idx s = Z.of_nat (length c) /\ zpaq_hash_rel (zs_state s) c.

Lemma zpaq_default_rel : forall h, zpaq_rel zpaq_state_default h [].
Proof. intros h. split; [reflexivity|apply zpaq_hash_default_rel]. Qed.

Lemma zpaq_feed_spec : forall s h c b, zpaq_rel s h c -> Z.of_nat (length c) + 1 < 2 ^ 64 ->
  exists s', zpaq_feed s b = Ok s' /\ zpaq_rel s' h (c ++ [b]).
Proof.
  intros s h c b (Ei & Hs) Hlim. unfold zpaq_feed, add_u64. rewrite Ei.
  replace (Z.of_nat (length c) + 1 <? two64) with true by (symmetry; apply Z.ltb_lt; exact Hlim). cbn [bind].
  destruct (zpaq_hash_feed_spec _ _ b Hs) as (st & -> & Hs'). cbn [bind].
  eexists. split; [reflexivity|]. split; [|exact Hs']. cbn [zs_idx]. rewrite app_length. cbn [length]. lia.
Qed.

Lemma split_here_spec : forall p c extra,
  reflect (zpaq_rule (zq_range p) (zq_max_hash p) extra c)
          (zpaq_split_here p (zpaq_hash c) (Z.of_nat (length c) + extra)).
Proof.
  intros p c extra. unfold zpaq_rule, zpaq_split_here. cbv zeta.
  destruct (Z.ltb_spec0 (zpaq_hash c) (zq_max_hash p)) as [L|L];
  destruct (under_min_spec (zq_range p) (Z.of_nat (length c) + extra)) as [U|U];
  destruct (exceeds_max_spec (zq_range p) (Z.of_nat (length c) + extra)) as [E|E]; cbn; constructor; tauto.
Qed.

Lemma zpaq_push_step : forall p, step_ok (zpaq_push_body p) 1 (per_chunk (zpaq_rule (zq_range p) (zq_max_hash p) 0))
  below_2_64 (fun _ => zpaq_rel) (fun s h c => zpaq_rel s (h ++ c) []).
Proof.
  intros p i s h c b HR Hlim. unfold per_chunk, zpaq_push_body.
  unfold below_2_64 in Hlim. rewrite !app_length in Hlim. cbn [length] in Hlim.
  destruct (zpaq_feed_spec s h c b HR ltac:(lia)) as (s' & -> & HR'). cbn [bind].
  assert (E := HR'). destruct E as (Ei & Eh & _). rewrite Ei, Eh.
  replace (Z.of_nat (length (c ++ [b]))) with (Z.of_nat (length (c ++ [b])) + 0) by lia.
  destruct (split_here_spec p (c ++ [b]) 0) as [G|G].
  - left. split; [exact G|]. eexists. split; [reflexivity|]. apply zpaq_default_rel.
  - right. split; [exact G|]. eexists. split; [reflexivity|]. exact HR'.
Qed.

Definition below_2_64_1 (n : nat) : Prop := Z.of_nat n + 1 < 2 ^ 64.
Lemma below1_down : down_closed below_2_64_1.
Proof. intros a b H. unfold below_2_64_1. lia. Qed.

Lemma zpaq_fce_step : forall p, step_ok (zpaq_fce_body p) 1 (per_chunk (zpaq_rule (zq_range p) (zq_max_hash p) 1))
  below_2_64_1 (fun _ => zpaq_rel) (fun s h c => zpaq_rel s (h ++ c) []).
Proof.
  intros p i s h c b HR Hlim. unfold per_chunk, zpaq_fce_body.
  unfold below_2_64_1 in Hlim. rewrite !app_length in Hlim. cbn [length] in Hlim.
  destruct (zpaq_feed_spec s h c b HR ltac:(lia)) as (s' & -> & HR'). cbn [bind].
  assert (E := HR'). destruct E as (Ei & Eh & _). rewrite Ei, Eh. unfold add_u64.
  replace (Z.of_nat (length (c ++ [b])) + 1 <? two64) with true.
  2:{ symmetry. apply Z.ltb_lt. rewrite app_length. cbn [length]. unfold two64. lia. }
  cbn [bind].
  destruct (split_here_spec p (c ++ [b]) 1) as [G|G].
  - left. split; [exact G|]. eexists. split; [reflexivity|]. apply zpaq_default_rel.
  - right. split; [exact G|]. eexists. split; [reflexivity|]. exact HR'.
Qed.

Lemma zpaq_push_ok : forall p, push_ok 0 (zpaq_push p) (ends_at (per_chunk (zpaq_rule (zq_range p) (zq_max_hash p) 0)))
  below_2_64 zpaq_rel.
Proof. intros p. apply (scan_push_at _ (zpaq_push_body p) 1); [lia|apply below_down|]. apply zpaq_push_step. Qed.

Lemma zpaq_find_ok : forall p, find_ok (zpaq_find_chunk_edge p)
  (ends_at (per_chunk (zpaq_rule (zq_range p) (zq_max_hash p) 1))) below_2_64_1 0 (no_lookback zpaq_rel).
Proof. intros p. exact (scan_find_ok _ (zpaq_fce_body p) _ _ _ below1_down (zpaq_fce_step p)). Qed.

Lemma zpaq_incr_conforms : forall p, incr_conforms 0 (zpaq_incr p)
  (ends_at (per_chunk (zpaq_rule (zq_range p) (zq_max_hash p) 0))) below_2_64.
Proof.
  intros p. exact (incr_conforms_of 0 (zpaq_incr p) _ _ _ (ends_at_laws _) (ends_at_progressive _) below_down
    (zpaq_push_ok p) (zpaq_default_rel [])).
Qed.
Lemma zpaq_incr_prompt : forall p, incr_prompt 0 (zpaq_incr p)
  (ends_at (per_chunk (zpaq_rule (zq_range p) (zq_max_hash p) 0))) below_2_64.
Proof.
  intros p. exact (incr_prompt_of 0 (zpaq_incr p) _ _ _ (ends_at_laws _) (ends_at_local _) below_down
    (zpaq_push_ok p) (zpaq_default_rel [])).
Qed.
Lemma zpaq_chunk_conforms : forall p shrink, chunk_conforms shrink (zpaq_chunk p)
  (ends_at (per_chunk (zpaq_rule (zq_range p) (zq_max_hash p) 1))) below_2_64_1 0.
Proof.
  intros p shrink.
  exact (chunk_conforms_of shrink (zpaq_chunk p) _ _ _ _ (ends_at_laws _) (ends_at_progressive _) (ends_at_local _)
    below1_down (zpaq_find_ok p) (conj (zpaq_default_rel []) eq_refl)).
Qed.
