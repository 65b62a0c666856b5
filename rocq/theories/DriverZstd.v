(** * DriverZstd: the repository's own callers with Zstd. *)

From Verif Require Import Base Api Spec Lists Contract CutFacts Step Words Zstd ZstdProofs ZstdEdge Drivers DriverProofs.

Section Zstd.
  Variable bits : Z.
  Hypothesis Hb : 0 <= bits <= 64.
  Let C := zstd_chunk (zstd_params bits).
  Let R := zstd_rule bits.

  (** A fresh search is shown everything, and then the 32 bytes it kept. *)
  Lemma first_call : forall data,
    (exists n s', ends_at (per_stream R) [] data n /\ zss_offset s' = 32%nat /\ zss_state s' mod 2 ^ bits = 2 ^ bits - 1 /\
       find_chunk_edge C (to_search_state C) data = Ok (s', (Some n, (length data - 32)%nat))) \/
    ((forall n, ~ ends_at (per_stream R) [] data n) /\ exists s', find_chunk_edge C (to_search_state C) data = Ok (s', (None, (length data - 32)%nat))).
  Proof.
    intros data. destruct (zstd_fce_spec bits zstd_search_default [] data ltac:(lia) zstd_default_rel) as [(n & F & s' & Eo & Es & E)|(N & s' & _ & E)];
      cbn [length Nat.min lastn skipn Nat.sub app Nat.add] in E.
    - left. exists n, s'. split; [exact F|]. split; [exact Eo|]. split; [|exact E]. rewrite Es. exact (proj2 (proj1 (proj2 F))).
    - right. split; [exact N|]. now exists s'.
  Qed.

  Lemma second_call : forall data s, (32 <= length data)%nat -> zss_offset s = 32%nat -> zss_state s mod 2 ^ bits = 2 ^ bits - 1 ->
    exists s', find_chunk_edge C s (lastn 32 data) = Ok (s', (None, O)).
  Proof.
    intros data s Hl Eo Es.
    assert (N : forall n, ~ ends_at (zstd_lost_rule bits) data [] n) by (intros n (X & _); simpl in X; lia).
    destruct (lost_call bits s data [] [] Hb Hl Eo ltac:(rewrite lost_start by lia; exact Es) N) as [(n & s' & F & _)|(_ & s' & _ & _ & E)].
    - exfalso. exact (N n F).
    - exists s'. rewrite !app_nil_r in E. exact E.
  Qed.

  Lemma first_33 : forall data n, ends_at (per_stream R) [] data n -> (33 <= n <= length data)%nat.
  Proof. intros data n (A & (B & _) & _). unfold per_stream in B. cbn [app] in B. rewrite firstn_length in B. lia. Qed.

  Theorem doc_zstd : forall data fuel, (2 <= fuel)%nat ->
    (exists n, ends_at (per_stream R) [] data n /\ doc_loop C fuel data = Ok ([firstn n data], lastn 32 data)) \/
    ((forall n, ~ ends_at (per_stream R) [] data n) /\ doc_loop C fuel data = Ok ([], lastn 32 data)).
  Proof.
    intros data fuel Hf. destruct fuel as [|[|fuel]]; try lia. unfold doc_loop. cbn [doc_loop_from].
    assert (S : sub_slice data (length data - 32) (length data) = Ok (lastn 32 data)).
    { unfold sub_slice, lastn. replace (Nat.leb (length data - 32) (length data) && Nat.leb (length data) (length data)) with true.
      - f_equal. apply firstn_all2. rewrite skipn_length. lia.
      - symmetry. apply andb_true_iff. split; apply Nat.leb_le; lia. }
    destruct (first_call data) as [(n & s' & F & Eo & Es & ->)|(N & s' & ->)]; cbn [bind].
    - left. exists n. split; [exact F|]. apply first_33 in F. unfold sub_usize. replace (Nat.leb (length data) (n + length data)) with true by (symmetry; apply Nat.leb_le; lia).
      cbn [bind]. replace (n + length data - length data)%nat with n by lia.
      assert (sub_slice data 0 n = Ok (firstn n data)) as ->.
      { unfold sub_slice. cbn [Nat.leb]. replace (Nat.leb n (length data)) with true by (symmetry; apply Nat.leb_le; lia). cbn [andb skipn]. now rewrite Nat.sub_0_r. }
      cbn [bind]. rewrite S. cbn [bind]. destruct (second_call data s' ltac:(lia) Eo Es) as (s2 & ->). cbn [bind].
      unfold sub_slice. cbn [Nat.leb]. rewrite Nat.leb_refl. cbn [andb bind skipn]. rewrite Nat.sub_0_r, firstn_all. reflexivity.
    - right. split; [exact N|]. rewrite S. reflexivity.
  Qed.

  Theorem whole_zstd : forall data fuel, (2 <= fuel)%nat ->
    (exists n, ends_at (per_stream R) [] data n /\ whole_splits C fuel data = Ok [n]) \/
    ((forall n, ~ ends_at (per_stream R) [] data n) /\ whole_splits C fuel data = Ok []).
  Proof.
    intros data fuel Hf. destruct fuel as [|[|fuel]]; try lia. unfold whole_splits. cbn [whole_splits_from].
    assert (S0 : sub_slice data 0 (length data) = Ok data) by (unfold sub_slice; cbn [Nat.leb]; rewrite Nat.leb_refl; cbn [andb skipn]; now rewrite Nat.sub_0_r, firstn_all).
    assert (S : sub_slice data (length data - 32) (length data) = Ok (lastn 32 data)).
    { unfold sub_slice, lastn. replace (Nat.leb (length data - 32) (length data) && Nat.leb (length data) (length data)) with true.
      - f_equal. apply firstn_all2. rewrite skipn_length. lia.
      - symmetry. apply andb_true_iff. split; apply Nat.leb_le; lia. }
    rewrite S0. cbn [bind].
    destruct (first_call data) as [(n & s' & F & Eo & Es & ->)|(N & s' & ->)]; cbn [bind].
    - left. exists n. split; [exact F|]. apply first_33 in F. cbn [Nat.add]. replace (Nat.ltb n 0) with false by reflexivity. rewrite S. cbn [bind].
      destruct (second_call data s' ltac:(lia) Eo Es) as (s2 & ->). cbn [bind]. now rewrite Nat.sub_0_r.
    - right. split; [exact N|reflexivity].
  Qed.

  (** ** tests/cuts_qc.rs *)
  Section Fce.
    Variable data : list byte.
    Variable buf_sizes : list nat.
    Hypothesis Hne : buf_sizes <> [].
    Hypothesis Hpos : Forall (fun n => 1 <= n)%nat buf_sizes.

    Lemma fce_zstd : forall m i s last base prev, ((length data - base) * 34 + (33 - prev) < m)%nat -> (base <= length data)%nat ->
      (last <= base + 32)%nat -> zstd_held s (Nat.min prev (length data - base)) ->
      exists cs, splits_fce_from C m data buf_sizes i s last base prev = Ok (sizes last cs) /\ strictly_above last cs /\ Forall (fun q => q <= length data)%nat cs.
    Proof.
      induction m as [|m IH]; intros i s last base prev Hm Hbase Hlast HH; [lia|]. cbn [splits_fce_from].
      destruct (Nat.eqb_spec (length data) base) as [G|G]; [exists []; repeat split; constructor|].
      destruct (next_size buf_sizes Hne Hpos i) as (g & -> & Hg). cbn [bind]. unfold sub_usize at 1.
      replace (Nat.leb base (length data)) with true by (symmetry; apply Nat.leb_le; lia). cbn [bind].
      set (b := Nat.min (g + prev) (length data - base)).
      assert (sub_slice data base (b + base) = Ok (firstn b (skipn base data))) as ->.
      { unfold sub_slice. replace (Nat.leb base (b + base) && Nat.leb (b + base) (length data)) with true.
        - do 2 f_equal. lia.
        - symmetry. apply andb_true_iff. split; apply Nat.leb_le; unfold b; lia. }
      cbn [bind]. set (buf := firstn b (skipn base data)).
      assert (Lb : length buf = b) by (unfold buf; rewrite firstn_length, skipn_length; unfold b; lia).
      destruct (zstd_fce_total bits s buf) as (s' & o & d & Ef & Ed & HH' & Hc).
      { intros X. specialize (HH X). rewrite Lb. unfold b. lia. }
      change (find_chunk_edge C s buf) with (zstd_find_chunk_edge (zstd_params bits) s buf). rewrite Ef. cbn [bind].
      destruct o as [c|].
      - unfold sub_usize. replace (Nat.leb last (base + c)) with true by (symmetry; apply Nat.leb_le; lia). cbn [bind].
        destruct (IH (i + 1)%nat s' (base + c)%nat (base + d)%nat 0%nat) as (cs & -> & A & B).
        + unfold b in *. lia.
        + unfold b in *. lia.
        + lia.
        + intros X. lia.
        + cbn [bind]. exists ((base + c)%nat :: cs). cbn [sizes strictly_above]. split; [reflexivity|]. split; [split; [lia|exact A]|].
          constructor; [unfold b in *; lia|exact B].
      - destruct (Nat.eqb_spec b (length data - base)) as [Q|Q]; [exists []; repeat split; constructor|].
        apply IH.
        + unfold b in *. lia.
        + unfold b in *. lia.
        + lia.
        + intros X. specialize (HH' X). unfold b in *. lia.
    Qed.

    (** Before the first cut. *)
    Lemma fce_zstd_fresh : forall m i s lo prev, ((length data - (lo - 32)) * 34 + (33 - prev) < m)%nat -> (lo <= length data)%nat -> (lo - (lo - 32) <= prev)%nat ->
      zstd_search_rel s (firstn lo data) -> (forall n, ~ ends_at (per_stream R) [] (firstn lo data) n) ->
      exists cs, splits_fce_from C m data buf_sizes i s 0 (lo - 32) prev = Ok (sizes 0 cs) /\ strictly_above 0 cs /\ Forall (fun q => q <= length data)%nat cs /\
        match cs with q :: _ => ends_at (per_stream R) [] data q | [] => forall n, ~ ends_at (per_stream R) [] data n end.
    Proof.
      induction m as [|m IH]; intros i s lo prev Hm Hlo Hprev HR HN; [lia|]. cbn [splits_fce_from].
      destruct (Nat.eqb_spec (length data) (lo - 32)) as [G|G].
      { exists []. assert (X : data = []) by (apply length_zero_iff_nil; lia). repeat split; try constructor. rewrite X. intros n (Y & _). simpl in Y. lia. }
      destruct (next_size buf_sizes Hne Hpos i) as (g & -> & Hg). cbn [bind]. unfold sub_usize at 1.
      replace (Nat.leb (lo - 32) (length data)) with true by (symmetry; apply Nat.leb_le; lia). cbn [bind].
      set (b := Nat.min (g + prev) (length data - (lo - 32))).
      assert (sub_slice data (lo - 32) (b + (lo - 32)) = Ok (firstn b (skipn (lo - 32) data))) as ->.
      { unfold sub_slice. replace (Nat.leb (lo - 32) (b + (lo - 32)) && Nat.leb (b + (lo - 32)) (length data)) with true.
        - do 2 f_equal. lia.
        - symmetry. apply andb_true_iff. split; apply Nat.leb_le; unfold b; lia. }
      cbn [bind]. set (hi := (lo - 32 + b)%nat).
      assert (Hhi : (lo <= hi <= length data)%nat) by (unfold hi, b; lia).
      assert (Eb : firstn b (skipn (lo - 32) data) = firstn (hi - (lo - 32)) (skipn (lo - 32) data)) by (f_equal; unfold hi; lia).
      rewrite Eb, (zstd_buffer data (lo - 32) lo hi eq_refl Hhi). clear Eb.
      set (d := firstn (hi - lo) (skipn lo data)) in *.
      assert (Ld : length d = (hi - lo)%nat) by (unfold d; rewrite firstn_length, skipn_length; lia).
      assert (Lt : length (firstn lo data) = lo) by (rewrite firstn_length; lia).
      assert (Ehi : firstn hi data = firstn lo data ++ d) by (unfold d; apply skipn_firstn_split; lia).
      assert (Lbuf : length (lastn (Nat.min 32 (length (firstn lo data))) (firstn lo data) ++ d) = (hi - (lo - 32))%nat).
      { rewrite app_length, lastn_length, Lt, Ld. lia. }
      set (buf := lastn _ _ ++ d) in *. change (find_chunk_edge C s buf) with (zstd_find_chunk_edge (zstd_params bits) s buf).
      destruct (zstd_fce_spec bits s (firstn lo data) d ltac:(lia) HR) as [(n & Fn & s' & Eo & Es & Ef)|(N & s' & HR' & Ef)]; fold buf in Ef; rewrite Ef; cbn [bind]; rewrite ?Lt, Lbuf.
      - assert (Hn := proj1 Fn). assert (H33 := proj1 (proj1 (proj2 Fn))). rewrite app_length, Lt, firstn_length in H33.
        unfold sub_usize. cbn [Nat.leb bind]. replace (lo - 32 + (Nat.min 32 lo + n))%nat with (lo + n)%nat by lia.
        destruct (fce_zstd m (i + 1)%nat s' (lo + n)%nat (lo - 32 + (hi - (lo - 32) - 32))%nat 0%nat) as (cs & -> & A & B).
        + lia.
        + lia.
        + lia.
        + intros X. lia.
        + cbn [bind]. exists ((lo + n)%nat :: cs). cbn [sizes strictly_above]. rewrite Nat.sub_0_r. split; [reflexivity|]. split; [split; [lia|exact A]|].
          split; [constructor; [lia|exact B]|].
          set (t := firstn lo data) in *. rewrite <- (firstn_skipn hi data), Ehi. apply (fl_ext _ (ends_at_laws _)).
          replace (lo + n)%nat with (length t + n)%nat by lia. apply (per_stream_shift _ [] t); assumption.
      - assert (N2 : forall n, ~ ends_at (per_stream R) [] (firstn hi data) n) by (rewrite Ehi; apply (per_stream_shift_none _ []); assumption).
        destruct (Nat.eqb_spec b (length data - (lo - 32))) as [Q|Q].
        + exists []. repeat split; try constructor. rewrite firstn_all2 in N2 by (unfold hi; lia). exact N2.
        + replace (lo - 32 + (hi - (lo - 32) - 32))%nat with (hi - 32)%nat by lia. apply IH.
          * unfold hi, b in *. lia.
          * lia.
          * unfold hi, b in *. lia.
          * rewrite Ehi. exact HR'.
          * exact N2.
    Qed.

    Theorem splits_fce_zstd : exists enough, forall fuel, (enough <= fuel)%nat -> exists cs, splits_fce C fuel data buf_sizes = Ok (sizes 0 cs) /\
      strictly_above 0 cs /\ Forall (fun q => q <= length data)%nat cs /\
      match cs with q :: _ => ends_at (per_stream R) [] data q | [] => forall n, ~ ends_at (per_stream R) [] data n end.
    Proof.
      exists (length data * 34 + 34)%nat. intros fuel Hf. apply (fce_zstd_fresh fuel 0 zstd_search_default 0 0).
      - lia.
      - lia.
      - lia.
      - apply zstd_default_rel.
      - intros n (X & _). simpl in X. lia.
    Qed.
  End Fce.
End Zstd.
