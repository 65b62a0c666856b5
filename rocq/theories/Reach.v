(** * Reach: every single answer of find_chunk_edge, and the states of push. *)

From Verif Require Import Base Api Tables Range Spec Lists Contract Step Words Rot CutFacts.
From Verif Require Import Mii Ram Gear Pigz Gzip FastCdc Bup BuzHash Zpaq Zstd.
From Verif Require Import MiiProofs RamProofs GearProofs PigzProofs GzipProofs FastCdcProofs BupProofs BupAny BuzProofs ZpaqProofs ZpaqCtor ZstdProofs.
From Verif Require Import Builtin BuiltinProofs.

(** ** From the contract of [find_chunk_edge] *)
Section Reach.
  Variable shrink : bool.
  Variable C : Chunk.
  Variable first : first_rel.
  Variable lim : nat -> Prop.
  Variable keep : nat.
  Variable R : search_state C -> list byte -> list byte -> nat -> Prop.
  Hypothesis L : first_laws first.
  (** [first] decides with the deciding byte included. *)
  Hypothesis N : forall h d e n, first h (d ++ e) n -> (n <= length d)%nat -> first h d n.
  Hypothesis Dc : down_closed lim.
  Hypothesis K : find_ok (find_chunk_edge C) first lim keep R.
  Hypothesis R0 : R (to_search_state C) [] [] 0%nat.

  Lemma reach_inv : forall data, lim (length data) -> forall s base lo, reaches shrink C data s base lo ->
    exists h c k, R s h c k /\ (k <= length c)%nat /\ (forall n, ~ first h c n) /\
      firstn (base + k) data = h ++ c /\ (base + k)%nat = length (h ++ c) /\ (base + k <= length data)%nat /\ (base + k <= lo)%nat.
  Proof.
    intros data Hlim s base lo H. induction H as [|s base lo hi s' d H IH Hhi Hb E|s base lo hi s' c0 d H IH Hhi Hb E].
    - exists [], [], 0%nat. repeat split; auto using fl_nil; cbn; lia.
    - destruct IH as (h & c & k & HR & Hk & HN & HE & HB & HL & Hlo).
      destruct (buf_split data h c k base hi Hk HE HB ltac:(lia)) as (e & Eb & Le & _ & Ehi & _).
      fold (view data base hi) in Eb. rewrite Eb in E.
      assert (Hl : lim (length (h ++ c ++ e))). { rewrite <- Ehi. eapply Dc; [|exact Hlim]. rewrite firstn_length. lia. }
      assert (Lb : length (lastn k c ++ e) = (hi - base)%nat) by (rewrite app_length, lastn_length; lia).
      destruct (K s h c k e HR Hk HN Hl) as [(n & m & s2 & _ & _ & _ & E2 & _)|(s2 & dd & Nn & Hd & _ & E2 & HR2)];
        rewrite E2 in E; inversion E; subst s2. subst dd. rewrite Lb in *.
      exists h, (c ++ e), (hi - base - d)%nat. split; [exact HR2|].
      assert (Lhi : length (h ++ c ++ e) = hi) by (rewrite <- Ehi, firstn_length; lia).
      rewrite !app_length in Lhi, HB. split; [rewrite app_length; lia|]. split; [exact Nn|].
      replace (base + d + (hi - base - d))%nat with hi by lia. rewrite !app_length. repeat split; auto; lia.
    - destruct IH as (h & c & k & HR & Hk & HN & HE & HB & HL & Hlo).
      destruct (buf_split data h c k base hi Hk HE HB ltac:(lia)) as (e & Eb & Le & _ & Ehi & _).
      fold (view data base hi) in Eb. rewrite Eb in E.
      assert (Hl : lim (length (h ++ c ++ e))). { rewrite <- Ehi. eapply Dc; [|exact Hlim]. rewrite firstn_length. lia. }
      assert (Lb : length (lastn k c ++ e) = (hi - base)%nat) by (rewrite app_length, lastn_length; lia).
      destruct (K s h c k e HR Hk HN Hl) as [(n & m & s2 & Fn & En & Hm & E2 & HR2)|(s2 & dd & _ & _ & _ & E2 & _)];
        rewrite E2 in E; inversion E; subst s2. subst c0 m.
      rewrite Lb in Hm. exists (h ++ firstn n (c ++ e)), [], 0%nat. split; [exact HR2|]. split; [cbn; lia|].
      split; [apply fl_nil; exact L|]. rewrite app_nil_r, Nat.add_0_r.
      assert (Hn := fl_len _ L _ _ _ Fn). rewrite app_length in Hn. rewrite app_length in HB.
      assert (Hh' : length (h ++ firstn n (c ++ e)) = (base + d)%nat) by (rewrite app_length, firstn_length, app_length; lia).
      split; [|split; [lia|]].
      + rewrite <- Hh'. assert (Y : firstn (length (h ++ firstn n (c ++ e))) data = firstn (length (h ++ firstn n (c ++ e))) (firstn hi data)).
        { rewrite firstn_firstn, Nat.min_l; [reflexivity|]. lia. }
        rewrite Y, Ehi. rewrite <- (firstn_skipn n (c ++ e)) at 2. rewrite app_assoc.
        rewrite firstn_app_le by lia. apply firstn_all2. lia.
      + destruct shrink; lia.
  Qed.

  Theorem reach_bounds : edges_in_bounds shrink C keep lim.
  Proof.
    intros data s base lo hi Hlim H Hhi Hb.
    destruct (reach_inv data Hlim s base lo H) as (h & c & k & HR & Hk & HN & HE & HB & HL & Hlo).
    destruct (buf_split data h c k base hi Hk HE HB ltac:(lia)) as (e & Eb & Le & _ & Ehi & _).
    fold (view data base hi) in Eb. rewrite Eb.
    assert (Hl : lim (length (h ++ c ++ e))). { rewrite <- Ehi. eapply Dc; [|exact Hlim]. rewrite firstn_length. lia. }
    assert (Lb : length (lastn k c ++ e) = (hi - base)%nat) by (rewrite app_length, lastn_length; lia).
    destruct (K s h c k e HR Hk HN Hl) as [(n & m & s2 & Fn & En & Hm & E2 & HR2)|(s2 & dd & _ & Hd & Hkp & E2 & _)].
    - exists s2, (Some m), m. rewrite Lb in Hm. split; [exact E2|]. split; [exact Hm|]. split; [|exact Hm].
      destruct (Nat.le_gt_cases n (length c)) as [G|G]; [|lia]. exfalso. apply (HN n). eapply N; eauto.
    - exists s2, None, dd. rewrite Lb in *. auto.
  Qed.
End Reach.

Lemma edges_weaken : forall sh C keep (lim lim' : nat -> Prop), (forall n, lim' n -> lim n) ->
  edges_in_bounds sh C keep lim -> edges_in_bounds sh C keep lim'.
Proof. intros sh C keep lim lim' H K data s base lo hi Hl. apply K. now apply H. Qed.

Lemma edges_at : forall sh C rule lim keep R, down_closed lim -> find_ok (find_chunk_edge C) (ends_at rule) lim keep R ->
  R (to_search_state C) [] [] 0%nat -> edges_in_bounds sh C keep lim.
Proof.
  intros sh C rule lim keep R Dc K R0. apply (reach_bounds sh C (ends_at rule) lim keep R (ends_at_laws rule)); auto.
  intros h d e n. apply ends_at_mono.
Qed.

(** ** Zstd *)
Lemma view_length : forall data base hi, (base <= hi <= length data)%nat -> length (view data base hi) = (hi - base)%nat.
Proof. intros data base hi H. unfold view. rewrite firstn_length, skipn_length. lia. Qed.

Lemma zstd_held_mono : forall s a b, (a <= b)%nat -> zstd_held s a -> zstd_held s b.
Proof. intros s a b H K X. specialize (K X). lia. Qed.

Lemma zstd_reach_held : forall bits sh data s base lo, reaches sh (zstd_chunk (zstd_params bits)) data s base lo ->
  zstd_held s (lo - base) /\ (base <= lo <= length data)%nat.
Proof.
  intros bits sh data s base lo H. induction H as [|s base lo hi s' d H IH Hhi Hb E|s base lo hi s' c0 d H IH Hhi Hb E].
  - split; [intros _; cbn; lia|]. lia.
  - destruct IH as [Hh Hl]. assert (Lv := view_length data base hi ltac:(lia)).
    destruct (zstd_fce_total bits s (view data base hi)) as (s2 & o & dd & E2 & Hd & Hh2 & Ho).
    { rewrite Lv. eapply zstd_held_mono; [|exact Hh]. lia. }
    cbn [find_chunk_edge zstd_chunk] in E. rewrite E2 in E. inversion E; subst s2 o dd. rewrite Lv in *.
    split; [|lia]. eapply zstd_held_mono; [|exact Hh2]. lia.
  - destruct IH as [Hh Hl]. assert (Lv := view_length data base hi ltac:(lia)).
    destruct (zstd_fce_total bits s (view data base hi)) as (s2 & o & dd & E2 & Hd & Hh2 & Ho).
    { rewrite Lv. eapply zstd_held_mono; [|exact Hh]. lia. }
    cbn [find_chunk_edge zstd_chunk] in E. rewrite E2 in E. inversion E; subst s2 o dd. rewrite Lv in *.
    split; [|destruct sh; lia]. intros X. exfalso. lia.
Qed.

Lemma zstd_edges : forall bits sh, edges_in_bounds sh (zstd_chunk (zstd_params bits)) 32 any_length.
Proof.
  intros bits sh data s base lo hi _ H Hhi Hb. destruct (zstd_reach_held _ _ _ _ _ _ H) as [Hh Hl].
  assert (Lv := view_length data base hi ltac:(lia)).
  destruct (zstd_fce_total bits s (view data base hi)) as (s2 & o & dd & E2 & Hd & Hh2 & Ho).
  { rewrite Lv. eapply zstd_held_mono; [|exact Hh]. lia. }
  rewrite Lv in *. exists s2, o, dd. split; [exact E2|]. split; [lia|]. destruct o; lia.
Qed.

(** ** All but FastCdc *)
Theorem edges_all : forall c C sh, typed c -> chunk_of c = Ok C -> chunk_sound c ->
  match c with CfgFastCdc _ _ _ _ => False | _ => True end -> edges_in_bounds sh C (look_back c) stream_len.
Proof.
  intros c C sh T E S NF. destruct c; cbn [chunk_of look_back chunk_sound] in *; [..|idtac].
  - inversion E; subst C. apply (edges_weaken _ _ _ _ _ stream_any).
    exact (edges_at sh (mii_chunk w) _ _ _ _ any_length_down (mii_find_ok w) (conj (mii_new_rel w) eq_refl)).
  - inversion E; subst C. apply (edges_weaken _ _ _ _ _ stream_below).
    exact (edges_at sh (ram_chunk w) _ _ _ _ below_down (ram_find_ok w) (conj ram_default_rel eq_refl)).
  - destruct (gear_with_average_size_log2 average_size_log2) as [p| |] eqn:Ep; cbn [bind] in E; try discriminate.
    inversion E; subst C. apply (edges_weaken _ _ _ _ _ stream_any).
    exact (edges_at sh (gear_chunk p) _ _ _ (no_lookback gear_rel) any_length_down (gear_find_ok _ _ Ep) (conj eq_refl eq_refl)).
  - destruct (pigz_with_bits bits) as [p| |] eqn:Ep; cbn [bind] in E; try discriminate.
    inversion E; subst C. apply (edges_weaken _ _ _ _ _ stream_any).
    exact (edges_at sh (pigz_chunk p) _ _ _ _ any_length_down (pigz_find_ok _ _ Ep) (conj (pigz_new_rel _ _ Ep) eq_refl)).
  - inversion E; subst C. apply (edges_weaken _ _ _ _ _ stream_any). set (p := gzip_with_window_and_modulus window modulus).
    exact (edges_at sh (gzip_chunk p) _ _ _ _ any_length_down (gzip_find_ok p S) (gzip_search_rel p)).
  - destruct NF.
  - inversion E; subst C. apply (edges_weaken _ _ _ _ _ stream_any).
    exact (edges_at sh (rollsum_chunk window) _ _ _ _ any_length_down (bup_find_ok window) (bup_search_rel window)).
  - destruct (buzhash_new capacity mask hash max) as [p| |] eqn:Ep; cbn [bind] in E; try discriminate. inversion E; subst C.
    assert (G := buz_good_of _ _ _ _ _ T Ep). apply buz_ctor_inv in Ep. destruct Ep as [_ ->].
    apply (edges_weaken _ _ _ _ _ stream_any).
    exact (edges_at sh (buz_chunk _) _ _ _ _ any_length_down (buz_find_ok _ _ G) (buz_search_rel _ _)).
  - destruct (zpaq_with_average_and_range average_size_pow_2 r) as [p| |] eqn:Ep; cbn [bind] in E; try discriminate.
    inversion E; subst C. apply zpaq_ctor_inv in Ep. destruct Ep as [_ ->].
    exact (edges_at sh (zpaq_chunk _) _ _ _ _ below1_down (zpaq_find_ok _) (conj (zpaq_default_rel []) eq_refl)).
  - destruct (zstd_with_target_section_size target_section_size) as [p| |] eqn:Ep; cbn [bind] in E; try discriminate.
    inversion E; subst C. apply zstd_ctor_inv in Ep; [|exact T]. destruct Ep as [Ht ->].
    apply (edges_weaken _ _ _ _ _ stream_any). apply (zstd_edges (bits_of target_section_size)).
Qed.

(** ** FastCdc: each answer from a reachable state is right, but can be one past the end of the buffer *)
Lemma fastcdc_reach : forall p sh data s base lo, fastcdc_ok p -> below_2_64 (length data) ->
  reaches sh (fastcdc_chunk p) data s base lo -> (base <= length data)%nat ->
  exists h c, fc_rel p s c /\ (forall n, ~ fc_first p h c n) /\ firstn base data = h ++ c /\ base = length (h ++ c).
Proof.
  intros p sh data s base lo Hp Hlim H. induction H as [|s base lo hi s' d H IH Hhi Hb E|s base lo hi s' c0 d H IH Hhi Hb E].
  - intros _. exists [], []. split; [apply fc_default_rel|]. split; [intros n (X & _); cbn in X; destruct Hp as (_ & X0 & _); lia|]. split; reflexivity.
  - intros _. destruct IH as (h & c & HR & HN & HE & HB); [lia|].
    set (e := view data base hi) in *. assert (Le : length e = (hi - base)%nat) by (apply view_length; lia).
    assert (Ehi : firstn hi data = h ++ c ++ e).
    { rewrite (skipn_firstn_split _ base hi) by lia. rewrite HE, <- app_assoc. reflexivity. }
    assert (Hl : below_2_64 (length (h ++ c ++ e))).
    { rewrite <- Ehi. eapply below_down; [|exact Hlim]. rewrite firstn_length. lia. }
    destruct (fc_find_spec p s h c e Hp HR HN Hl) as [(n & k & _ & _ & E2)|(s2 & Nn & E2 & HR2)];
      cbn [find_chunk_edge fastcdc_chunk] in E; rewrite E2 in E; inversion E; subst s2.
    replace (base + length e)%nat with hi by lia. exists h, (c ++ e). split; [exact HR2|]. split; [exact Nn|]. split; [exact Ehi|].
    rewrite <- Ehi, firstn_length. lia.
  - intros Hle. destruct IH as (h & c & HR & HN & HE & HB); [lia|].
    set (e := view data base hi) in *. assert (Le : length e = (hi - base)%nat) by (apply view_length; lia).
    assert (Ehi : firstn hi data = h ++ c ++ e).
    { rewrite (skipn_firstn_split _ base hi) by lia. rewrite HE, <- app_assoc. reflexivity. }
    assert (Hl : below_2_64 (length (h ++ c ++ e))).
    { rewrite <- Ehi. eapply below_down; [|exact Hlim]. rewrite firstn_length. lia. }
    destruct (fc_find_spec p s h c e Hp HR HN Hl) as [(n & k & Fn & En & E2)|(s2 & Nn & E2 & HR2)];
      cbn [find_chunk_edge fastcdc_chunk] in E; rewrite E2 in E; inversion E; subst s'. subst c0 d.
    exists (firstn (base + (k + 1)) data), []. split; [apply fc_default_rel|].
    split; [intros m (X & _); cbn in X; destruct Hp as (_ & X0 & _); lia|].
    rewrite app_nil_r. split; [reflexivity|]. rewrite firstn_length. lia.
Qed.

Theorem fastcdc_edges : forall p sh data s base lo hi, fastcdc_ok p -> below_2_64 (length data) ->
  reaches sh (fastcdc_chunk p) data s base lo -> (lo <= hi <= length data)%nat -> (base <= hi)%nat ->
  exists s' edge d, find_chunk_edge (fastcdc_chunk p) s (view data base hi) = Ok (s', (edge, d)) /\
    match edge with
    | Some c => c = d /\ (1 <= c <= hi - base + 1)%nat
    | None => d = (hi - base)%nat
    end.
Proof.
  intros p sh data s base lo hi Hp Hlim H Hhi Hb. destruct (fastcdc_reach _ _ _ _ _ _ Hp Hlim H ltac:(lia)) as (h & c & HR & HN & HE & HB).
  set (e := view data base hi) in *. assert (Le : length e = (hi - base)%nat) by (apply view_length; lia).
  assert (Ehi : firstn hi data = h ++ c ++ e).
  { rewrite (skipn_firstn_split _ base hi) by lia. rewrite HE, <- app_assoc. reflexivity. }
  assert (Hl : below_2_64 (length (h ++ c ++ e))).
  { rewrite <- Ehi. eapply below_down; [|exact Hlim]. rewrite firstn_length. lia. }
  destruct (fc_find_spec p s h c e Hp HR HN Hl) as [(n & k & Fn & En & E2)|(s2 & Nn & E2 & HR2)].
  - eexists _, _, _. split; [exact E2|]. split; [reflexivity|].
    assert (Hn := fl_len _ (fc_laws p (proj1 (proj2 Hp))) _ _ _ Fn). rewrite app_length in Hn. lia.
  - eexists _, _, _. split; [exact E2|]. exact Le.
Qed.

(** ** The state a caller of [push] reaches *)
Lemma incr_state_of : forall adj C first lim R, first_laws first -> down_closed lim -> push_ok adj (incr_push C) first lim R ->
  R (incr_new C) [] [] -> forall data sched r, lim (length data) -> run_incr adj C data sched = Ok r ->
  exists h c, firstn (r_base r) data = h ++ c /\ R (r_state r) h c.
Proof.
  intros adj C first lim R L D K R0 data sched r Hl E.
  destruct (drive_push_ok adj (incr_push C) first lim R L D K data Hl sched (incr_new C) [] [] 0%nat 0%nat false R0)
    as (r' & h & c & E' & _ & X1 & _ & _ & X2 & _); auto using fl_nil.
  unfold run_incr in E. rewrite E in E'. inversion E'; subst r'. now exists h, c.
Qed.
