(** * BuzProofs *)

From Verif Require Import Base Api Tables Spec Lists Contract Step Window Words Ring Rot BuzHash.

Lemma rotate_left_rot32 : forall x n, word32 x -> rotate_left x n = rot32 n x.
Proof. intros x n Hx. now rewrite rot32_lor. Qed.

(** ** The hash of a chunk, byte by byte *)
Section Hash.
  Variable hv : byte -> Z.
  Hypothesis Hw : forall b, word32 (hv b).

  Lemma buz_hash_word : forall k c, word32 (buz_hash hv k c).
  Proof. intros k c. apply word32_lxor; now apply cyclic_word. Qed.

  Lemma buz_hash_nil : forall k, buz_hash hv k [] = 0.
  Proof. intros k. unfold buz_hash. cbn [rev]. rewrite skipn_nil. reflexivity. Qed.

  Lemma buz_hash_short : forall k c b, (length c < k)%nat ->
    buz_hash hv k (c ++ [b]) = Z.lxor (rot32 1 (buz_hash hv k c)) (hv b).
  Proof.
    intros k c b Hl. unfold buz_hash. rewrite rev_app_distr. cbn [rev app].
    rewrite !skipn_all2 by (cbn [length]; rewrite rev_length; lia).
    rewrite cyclic_cons by exact Hw. cbn [cyclic]. rewrite !Z.lxor_0_r.
    change (Z.of_nat 0) with 0. rewrite rot32_0 by apply Hw. apply Z.lxor_comm.
  Qed.

  Lemma buz_hash_full : forall k c b o, (1 <= k <= length c)%nat -> nth_error (c ++ [b]) (length c - k) = Some o ->
    buz_hash hv k (c ++ [b]) = Z.lxor (Z.lxor (rot32 1 (buz_hash hv k c)) (rot32 (Z.of_nat (k mod 8)) (hv o))) (hv b).
  Proof.
    intros k c b o Hk Ho. unfold buz_hash. rewrite rev_app_distr. cbn [rev app].
    assert (E : skipn k (b :: rev c) = o :: skipn k (rev c)).
    { destruct (firstn_rev_slide_full _ k c b o Hk Ho) as (_ & E & L).
      destruct k as [|k]; [lia|]. cbn [skipn]. replace (S k - 1)%nat with k in * by lia.
      apply (app_inv_head (firstn k (rev c))). rewrite firstn_skipn.
      rewrite <- (firstn_skipn (S k) (rev c)) at 1. rewrite E, <- app_assoc. reflexivity. }
    rewrite E, !cyclic_cons by exact Hw. change (Z.of_nat 0) with 0. rewrite rot32_0 by apply Hw.
    rewrite rot32_lxor by (now apply cyclic_word).
    set (x := rot32 1 (cyclic hv 0 (rev c))). set (y := rot32 1 (cyclic hv (k mod 8) (skipn k (rev c)))).
    set (z := rot32 _ (hv o)). rewrite (Z.lxor_comm (hv b) x).
    rewrite !Z.lxor_assoc. f_equal. rewrite (Z.lxor_comm (hv b)), (Z.lxor_comm z y), !Z.lxor_assoc. reflexivity.
  Qed.

  (** With [k mod 32 < 8] the hash is a function of the last [k] bytes. *)
  Lemma buz_hash_window : forall k c, (k mod 32 < 8)%nat -> buz_hash hv k c = cyclic hv 0 (firstn k (rev c)).
  Proof.
    intros k c Hk. unfold buz_hash. rewrite <- (firstn_skipn k (rev c)) at 1. rewrite cyclic_app.
    destruct (Nat.le_gt_cases (length (rev c)) k) as [G|G].
    - rewrite skipn_all2 by exact G. cbn [cyclic]. now rewrite !Z.lxor_0_r.
    - rewrite firstn_length, Nat.min_l by lia. rewrite Nat.add_0_l.
      rewrite (cyclic_mod hv Hw (skipn k (rev c)) k (k mod 8)).
      + now rewrite Z.lxor_assoc, Z.lxor_nilpotent, Z.lxor_0_r.
      + rewrite Nat2Z.inj_mod. change (Z.of_nat 8) with 8.
        assert (Hz : Z.of_nat k mod 32 < 8).
        { change 32 with (Z.of_nat 32). rewrite <- Nat2Z.inj_mod. lia. }
        assert (X := Z.mod_pos_bound (Z.of_nat k) 32 ltac:(lia)).
        assert (E8 : Z.of_nat k mod 8 = Z.of_nat k mod 32).
        { rewrite (Z.div_mod (Z.of_nat k) 32) at 1 by lia.
          replace (32 * (Z.of_nat k / 32) + Z.of_nat k mod 32) with (Z.of_nat k mod 32 + (4 * (Z.of_nat k / 32)) * 8) by ring.
          rewrite Z_mod_plus_full. apply Z.mod_small. lia. }
        rewrite E8, Z.mod_mod by lia. reflexivity.
  Qed.
End Hash.

(** A configuration whose byte hash is a total function into [u32]. *)
Definition buz_good (p : BuzHash) (hv : byte -> Z) : Prop :=
  (1 <= bz_k p)%nat /\ forall b, bz_h p b = Ok (hv b) /\ word32 (hv b).

Section Buz.
  Variable p : BuzHash.
  Variable hv : byte -> Z.
  Hypothesis G : buz_good p hv.

  Let Hw : forall b, word32 (hv b).
  Proof. intros b. apply (proj2 (proj2 G b)). Qed.
  Let k := bz_k p.

  Lemma buz_add_spec : forall c b, (length c < k)%nat -> buz_add p (buz_hash hv k c) b = Ok (buz_hash hv k (c ++ [b])).
  Proof.
    intros c b Hl. unfold buz_add. rewrite (proj1 (proj2 G b)). cbn [bind].
    rewrite rotate_left_rot32 by (now apply buz_hash_word). now rewrite buz_hash_short.
  Qed.

  Lemma buz_add_overflow_spec : forall c b o, (k <= length c)%nat -> nth_error (c ++ [b]) (length c - k) = Some o ->
    buz_add_overflow p (buz_hash hv k c) b o = Ok (buz_hash hv k (c ++ [b])).
  Proof.
    intros c b o Hl Ho. unfold buz_add_overflow. rewrite (proj1 (proj2 G b)), (proj1 (proj2 G o)). cbn [bind].
    rewrite !rotate_left_rot32 by (auto; now apply buz_hash_word).
    rewrite (buz_hash_full hv Hw k c b o); [reflexivity| |exact Ho]. destruct G as [Hk _]. fold k in Hk. lia.
  Qed.

  (** ** All at once *)
  Definition buz_rel (s : BuzHashSearchState) (h c : list byte) : Prop := bzs_state s = buz_hash hv k c.

  Lemma buz_window_step :
    window_step_ok (buz_fce_body p) bzs_offset k (per_chunk (buz_rule hv k (bz_mask p))) any_length buz_rel.
  Proof.
    intros buf i s h c b HR Hb _ Hi Hn. unfold per_chunk, buz_rule, buz_fce_body, buz_add_buf.
    assert (E : (if Nat.leb k i then
                   drop <- index buf (i - k) ;; v <- index buf i ;; buz_add_overflow p (bzs_state s) v drop
                 else v <- index buf i ;; buz_add p (bzs_state s) v) = Ok (buz_hash hv k (c ++ [b]))).
    { rewrite HR. destruct (Nat.leb_spec k i) as [L|L].
      - assert (Lc : (k <= length c)%nat) by (now apply Hi). specialize (Hn L).
        destruct (nth_error (c ++ [b]) (length c - k)) as [o|] eqn:Eo.
        + rewrite (index_ok _ _ _ _ Hn), (index_ok _ _ _ _ Hb). cbn [bind]. now apply buz_add_overflow_spec.
        + apply nth_error_None in Eo. rewrite app_length in Eo. cbn [length] in Eo. lia.
      - rewrite (index_ok _ _ _ _ Hb). cbn [bind]. apply buz_add_spec. apply Nat.nle_gt. intros X. apply Hi in X. lia. }
    fold k. rewrite E. cbn [bind].
    rewrite <- land_eq_set.
    destruct (Z.eqb_spec (Z.land (buz_hash hv k (c ++ [b])) (bz_mask p)) (bz_mask p)) as [Gm|Gm].
    - left. split; [exact Gm|]. eexists. split; [reflexivity|]. split; [|reflexivity].
      unfold buz_rel. now rewrite buz_hash_nil.
    - right. split; [exact Gm|]. eexists. split; reflexivity.
  Qed.

  Lemma buz_find_ok : find_ok (buz_find_chunk_edge p) (ends_at (per_chunk (buz_rule hv k (bz_mask p)))) any_length k
    (window_rel bzs_offset k buz_rel).
  Proof.
    exact (window_find_ok (buz_fce_body p) bzs_offset
      (fun n s => {| bzs_offset := n; bzs_state := bzs_state s |}) k _ any_length buz_rel
      buz_window_step any_length_down (fun n s => eq_refl) (fun n s h c H => H)).
  Qed.

  Lemma buz_search_rel : window_rel bzs_offset k buz_rel buz_search_default [] [] 0.
  Proof. split; [unfold buz_rel; now rewrite buz_hash_nil|]. split; reflexivity. Qed.

  Lemma buz_chunk_conforms : forall shrink,
    chunk_conforms shrink (buz_chunk p) (ends_at (per_chunk (buz_rule hv k (bz_mask p)))) any_length k.
  Proof.
    intros shrink.
    exact (chunk_conforms_of shrink (buz_chunk p) _ _ _ _ (ends_at_laws _) (ends_at_progressive _) (ends_at_local _)
      any_length_down buz_find_ok buz_search_rel).
  Qed.

  (** ** Incremental *)

  (** While filling, the first bytes of the (possibly stale) buffer are those of the chunk; then it is a ring. *)
  Definition buz_incr_rel (s : BuzHashIncr) (h c : list byte) : Prop :=
    bzi_state s = buz_hash hv k c /\ length (bzi_buf s) = k /\ bzi_input_idx s = Z.of_nat (length c) /\
    (((length c < k)%nat /\ bzi_buf_idx s = length c /\ firstn (length c) (bzi_buf s) = c) \/
     ((k <= length c)%nat /\ ring_ok (bzi_buf s) (bzi_buf_idx s) (lastn k c))).

  Lemma buz_push_byte_spec : forall s h c b, buz_incr_rel s h c -> Z.of_nat (length c) + 1 < 2 ^ 64 ->
    exists s', buz_push_byte p s b = Ok s' /\ buz_incr_rel s' h (c ++ [b]).
  Proof.
    intros s h c b (Es & Lb & En & Hb) Hlim. destruct G as [Hk _]. fold k in Hk.
    unfold buz_push_byte. fold k. rewrite En, Es.
    assert (An : add_u64 (Z.of_nat (length c)) 1 = Ok (Z.of_nat (length (c ++ [b])))).
    { unfold add_u64. rewrite app_length. cbn [length].
      replace (_ <? two64) with true by (symmetry; apply Z.ltb_lt; unfold two64; lia). f_equal. lia. }
    assert (Hrem : forall i, (i < k)%nat -> rem_usize (i + 1) k = Ok (if Nat.eqb (i + 1) k then 0%nat else (i + 1)%nat)).
    { intros i Hi. unfold rem_usize. rewrite <- next_mod by exact Hi. destruct k; [lia|reflexivity]. }
    destruct Hb as [(Lc & Ei & Ef)|(Lc & Hr)].
    - replace (Z.of_nat k <=? Z.of_nat (length c)) with false by (symmetry; apply Z.leb_gt; lia).
      rewrite buz_add_spec by exact Lc. cbn [bind].
      destruct (split_nth _ (bzi_buf s) (length c) ltac:(lia)) as (a & x & z & Eb & La).
      rewrite Ei, Eb, <- La, store_mid. cbn [bind]. rewrite La, Hrem, An by lia. cbn [bind].
      assert (Ea : a = c).
      { rewrite Eb, <- La, firstn_app_le, firstn_all in Ef by lia. exact Ef. }
      subst a. eexists. split; [reflexivity|]. unfold buz_incr_rel. cbn [bzi_state bzi_buf bzi_buf_idx bzi_input_idx].
      split; [reflexivity|]. rewrite Eb, !app_length in Lb. cbn [length] in Lb.
      split; [rewrite app_length; cbn [length]; lia|]. split; [reflexivity|].
      rewrite app_length. cbn [length]. destruct (Nat.eqb_spec (length c + 1) k) as [E|E].
      + right. split; [lia|]. split; [rewrite app_length; cbn [length]; lia|]. cbn [skipn firstn].
        rewrite app_nil_r, lastn_all by (rewrite app_length; cbn [length]; lia).
        destruct z; [reflexivity|cbn [length] in Lb; lia].
      + left. split; [lia|]. split; [reflexivity|].
        replace (c ++ b :: z) with ((c ++ [b]) ++ z) by (now rewrite <- app_assoc).
        replace (length c + 1)%nat with (length (c ++ [b])) by (rewrite app_length; reflexivity).
        rewrite firstn_app_le, firstn_all by lia. reflexivity.
    - replace (Z.of_nat k <=? Z.of_nat (length c)) with true by (symmetry; apply Z.leb_le; lia).
      destruct (ring_step _ _ _ _ b Hr) as (o & r & buf' & Ev & Ei & Est & Lb' & Hr').
      destruct (lastn_snoc_full _ k c b ltac:(lia)) as (o' & E1 & E2 & E3).
      rewrite Ev in E2. inversion E2. subst o'. rewrite Ei. cbn [bind].
      rewrite (buz_add_overflow_spec c b o Lc) by (rewrite nth_error_app1 by lia; exact E1). cbn [bind].
      rewrite Est. cbn [bind]. rewrite Hrem by (destruct Hr; lia). rewrite An. cbn [bind].
      eexists. split; [reflexivity|]. unfold buz_incr_rel. cbn [bzi_state bzi_buf bzi_buf_idx bzi_input_idx].
      split; [reflexivity|]. split; [lia|]. split; [reflexivity|]. right.
      rewrite app_length. cbn [length]. split; [lia|]. rewrite E3, <- H1. rewrite Lb in Hr'. exact Hr'.
  Qed.

  Lemma buz_incr_new_rel : buz_incr_rel (buz_incr_new p) [] [].
  Proof.
    destruct G as [Hk _]. unfold buz_incr_rel, buz_incr_new. cbn [bzi_state bzi_buf bzi_buf_idx bzi_input_idx].
    split; [now rewrite buz_hash_nil|]. split; [apply repeat_length|]. split; [reflexivity|].
    left. split; [exact Hk|]. split; reflexivity.
  Qed.

  Lemma buz_incr_reset_rel : forall s h c h', buz_incr_rel s h c -> buz_incr_rel (buz_incr_reset s) h' [].
  Proof.
    intros s h c h' (_ & Lb & _). destruct G as [Hk _].
    unfold buz_incr_rel, buz_incr_reset. cbn [bzi_state bzi_buf bzi_buf_idx bzi_input_idx].
    split; [now rewrite buz_hash_nil|]. split; [exact Lb|]. split; [reflexivity|].
    left. split; [exact Hk|]. split; reflexivity.
  Qed.

  Lemma buz_incr_step :
    step_ok (buz_push_body p) 1 (per_chunk (buz_incr_rule hv k (bz_mask p) (bz_max_chunk_size p))) below_2_64
      (fun _ => buz_incr_rel) (fun s h c => buz_incr_rel s (h ++ c) []).
  Proof.
    intros i s h c b HR Hlim. unfold per_chunk, buz_incr_rule, buz_rule, buz_push_body.
    unfold below_2_64 in Hlim. rewrite !app_length in Hlim. cbn [length] in Hlim.
    destruct (buz_push_byte_spec s h c b HR ltac:(lia)) as (s' & -> & HR'). cbn [bind].
    destruct HR' as (Es & HR'). rewrite Es. rewrite <- land_eq_set.
    destruct (Z.eqb_spec (Z.land (buz_hash hv k (c ++ [b])) (bz_mask p)) (bz_mask p)) as [Gm|Gm].
    - left. split; [now left|]. eexists. split; [reflexivity|].
      apply (buz_incr_reset_rel s' h (c ++ [b])). split; [exact Es|]. exact HR'.
    - replace (bzi_input_idx s') with (Z.of_nat (length (c ++ [b]))) by (symmetry; apply HR').
      destruct (Z.ltb_spec (bz_max_chunk_size p) (Z.of_nat (length (c ++ [b])))) as [Gx|Gx].
      + left. split; [now right|]. eexists. split; [reflexivity|].
        apply (buz_incr_reset_rel s' h (c ++ [b])). split; [exact Es|]. exact HR'.
      + right. split; [intros [X|X]; [contradiction|lia]|]. eexists. split; [reflexivity|].
        split; [exact Es|]. exact HR'.
  Qed.

  Lemma buz_push_ok : push_ok 0 (buz_push p)
    (ends_at (per_chunk (buz_incr_rule hv k (bz_mask p) (bz_max_chunk_size p)))) below_2_64 buz_incr_rel.
  Proof. apply (scan_push_at _ (buz_push_body p) 1); [lia|apply below_down|]. apply buz_incr_step. Qed.

  Lemma buz_incr_conforms : incr_conforms 0 (buz_incr p)
    (ends_at (per_chunk (buz_incr_rule hv k (bz_mask p) (bz_max_chunk_size p)))) below_2_64.
  Proof.
    exact (incr_conforms_of 0 (buz_incr p) _ _ _ (ends_at_laws _) (ends_at_progressive _) below_down
      buz_push_ok buz_incr_new_rel).
  Qed.
  Lemma buz_incr_prompt : incr_prompt 0 (buz_incr p)
    (ends_at (per_chunk (buz_incr_rule hv k (bz_mask p) (bz_max_chunk_size p)))) below_2_64.
  Proof.
    exact (incr_prompt_of 0 (buz_incr p) _ _ _ (ends_at_laws _) (ends_at_local _) below_down
      buz_push_ok buz_incr_new_rel).
  Qed.
End Buz.

(** ** The byte hashes *)
Definition table_word32 (t : list Z) : Prop := length t = 256%nat /\ forall x, In x t -> word32 x.

Lemma table_at_word : forall t b, table_word32 t -> word32 (table_at t b).
Proof.
  intros t b [L H]. apply H. unfold table_at. apply nth_In. rewrite L. apply b2n_lt.
Qed.

Lemma table_hash_good : forall t b, table_word32 t -> table_hash t b = Ok (table_at t b).
Proof. intros t b [L _]. now apply index_table. Qed.

Lemma lxor_byte : forall a b, 0 <= Z.lxor (b2z a) (b2z b) < 256.
Proof.
  intros a b. assert (A := b2z_range a). assert (B := b2z_range b). change 256 with (2 ^ 8).
  replace (Z.lxor (b2z a) (b2z b)) with (Z.lxor (b2z a) (b2z b) mod 2 ^ 8).
  - apply Z.mod_pos_bound. reflexivity.
  - rewrite lxor_mod by lia. now rewrite !Z.mod_small.
Qed.

Lemma salt_hash_good : forall salt t b, table_word32 t ->
  table_byte_salt_hash salt t b = Ok (nth (Z.to_nat (Z.lxor (b2z b) (b2z salt))) t 0) /\
  word32 (nth (Z.to_nat (Z.lxor (b2z b) (b2z salt))) t 0).
Proof.
  intros salt t b [L H]. assert (X := lxor_byte b salt).
  assert (Hi : (Z.to_nat (Z.lxor (b2z b) (b2z salt)) < length t)%nat) by (rewrite L; lia).
  split; [|apply H; now apply nth_In].
  unfold table_byte_salt_hash, index. destruct (nth_error t _) as [a|] eqn:E.
  - now rewrite (nth_error_nth t _ 0 E).
  - apply nth_error_None in E. lia.
Qed.
