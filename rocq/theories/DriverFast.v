(** * DriverFast: the repository's own callers with FastCdc. *)

From Verif Require Import Base Api Tables Spec Lists Contract Step Words FastCdc FastCdcProofs CutFacts Drivers DriverProofs.

Section Fast.
  Variable p : FastCdc.
  Hypothesis Hp : fastcdc_ok p.

  Let L : first_laws (fc_first p).
  Proof. apply fc_laws. apply Hp. Qed.

  (** ** [find_chunk_edge]: the caller walks over the data

      [walk h d cs past]: from the chunk start after [h] on, the cuts are [cs]; with [past = true] the chunk after the last of
      them is answered by a position one past the end of the data. *)
  Inductive walk : list byte -> list byte -> list nat -> bool -> Prop :=
  | walk_end : forall h d, (forall n, ~ fc_first p h d n) -> walk h d [] false
  | walk_past : forall h d, fc_first p h d (length d) -> walk h d [] true
  | walk_cut : forall h d n cs past, fc_first p h d n -> (n < length d)%nat ->
      walk (h ++ firstn (S n) d) (skipn (S n) d) cs past -> walk h d ((length h + S n)%nat :: cs) past.

  Lemma first_dec : forall d, below_2_64 (length d) -> (exists n, forall h, fc_first p h d n) \/ (forall h n, ~ fc_first p h d n).
  Proof.
    intros d Hl. destruct (fc_find_spec p fastcdc_state_default [] [] d Hp (fc_default_rel p) (fl_nil _ L []) Hl)
      as [(n & k & F & _)|(s' & F & _)].
    - left. exists n. intros h. exact F.
    - right. intros h n F'. exact (F n F').
  Qed.

  Lemma walk_exists : forall m h d, (length d < m)%nat -> below_2_64 (length d) -> exists cs past, walk h d cs past.
  Proof.
    induction m as [|m IH]; intros h d Hm Hl; [lia|]. destruct (first_dec d Hl) as [[n F]|F].
    - assert (Hn := fl_len _ L _ _ _ (F h)). destruct (Nat.eq_dec n (length d)) as [->|Hne].
      + exists [], true. now constructor.
      + destruct (IH (h ++ firstn (S n) d) (skipn (S n) d)) as (cs & past & W).
        * rewrite skipn_length. lia.
        * unfold below_2_64 in *. rewrite skipn_length. lia.
        * eexists _, past. eapply walk_cut; eauto. lia.
    - exists [], false. constructor. auto.
  Qed.

  (** The cuts are those of the rule "one past the offset at which [push] stops". *)
  Lemma walk_cuts : forall h d cs, walk h d cs false -> cuts_of (fc_edge p) h d cs.
  Proof.
    intros h d cs W. remember false as b eqn:Eb. induction W as [h d N|h d F|h d n cs past F Hn W IH]; try discriminate.
    - constructor. intros m (n & _ & _ & F). exact (N n F).
    - apply cuts_some; [|now apply IH]. exists n. auto.
  Qed.

  Lemma walk_past_path : forall h d cs, walk h d cs true ->
    exists h' d', cut_path (fc_edge p) h d cs h' d' /\ fc_first p h' d' (length d').
  Proof.
    intros h d cs W. remember true as b eqn:Eb. induction W as [h d N|h d F|h d n cs past F Hn W IH]; try discriminate.
    - exists h, d. split; [constructor|assumption].
    - destruct (IH Eb) as (h' & d' & P & F'). exists h', d'. split; [|assumption]. apply path_cons; [|assumption]. exists n. auto.
  Qed.

  (** The chunk a caller sees who pushes byte by byte and splits after the byte whose [push] answered. *)
  Definition fc_byte : first_rel := fun h d m => exists n, fc_first p h d n /\
    m = if (Z.of_nat n <? fc_max_size p) || (Z.of_nat n <=? fc_min_size p) then S n else n.

  (** ** One call in the middle of a chunk *)
  Lemma first_split : forall h a b n, fc_first p h (a ++ b) n -> (forall m, ~ fc_first p h a m) -> (length a <= n)%nat.
  Proof.
    intros h a b n F N. destruct (Nat.le_gt_cases (length a) n) as [|G]; [assumption|]. exfalso. exact (N n (fl_mono _ L _ _ _ _ F G)).
  Qed.

  Section Data.
    Variable data : list byte.
    Hypothesis Hlim : below_2_64 (length data).

    (** The caller stands at [base]; the chunk started after [h], its bytes so far are [c]. *)
    Definition stands (s : FastCdcState) (h c : list byte) (base : nat) : Prop :=
      fc_rel p s c /\ (forall n, ~ fc_first p h c n) /\ firstn base data = h ++ c /\ base = length (h ++ c) /\ (base <= length data)%nat.

    Lemma stands_start : forall h, firstn (length h) data = h -> (length h <= length data)%nat ->
      stands fastcdc_state_default h [] (length h).
    Proof.
      intros h E Hl. split; [apply fc_default_rel|]. split; [intros n; apply (fl_nil _ L)|]. rewrite app_nil_r. auto.
    Qed.

    Lemma stands_rest : forall s h c base, stands s h c base -> skipn (length h) data = c ++ skipn base data.
    Proof.
      intros s h c base (_ & _ & E & B & Hb). rewrite <- (firstn_skipn base data) at 1. rewrite E, <- app_assoc.
      rewrite skipn_app_ge, Nat.sub_diag by lia. reflexivity.
    Qed.

    (** One call with the window [base .. base + g]. *)
    Lemma stands_call : forall s h c base g cs past, stands s h c base -> (base + g <= length data)%nat ->
      walk h (skipn (length h) data) cs past ->
      (exists k, (k <= g)%nat /\
         fastcdc_find_chunk_edge p s (firstn g (skipn base data)) = Ok (fastcdc_state_default, (Some (k + 1)%nat, (k + 1)%nat)) /\
         ((base + k = length data)%nat /\ cs = [] /\ past = true \/
          (base + k < length data)%nat /\ exists cs', cs = (base + k + 1)%nat :: cs' /\
            walk (firstn (base + k + 1) data) (skipn (base + k + 1) data) cs' past /\
            stands fastcdc_state_default (firstn (base + k + 1) data) [] (base + k + 1))) \/
      (exists s', fastcdc_find_chunk_edge p s (firstn g (skipn base data)) = Ok (s', (None, g)) /\
         stands s' h (c ++ firstn g (skipn base data)) (base + g) /\ (base + g = length data -> cs = [] /\ past = false)%nat).
    Proof.
      intros s h c base g cs past St Hg W. assert (R := stands_rest _ _ _ _ St). destruct St as (Hr & N & E & B & Hb).
      set (d := firstn g (skipn base data)). assert (Hd : length d = g) by (unfold d; rewrite firstn_length, skipn_length; lia).
      assert (Hdat : skipn (length h) data = (c ++ d) ++ skipn (base + g) data).
      { rewrite R, <- app_assoc. f_equal. unfold d. rewrite <- (skipn_skipn' _ g base data). symmetry. apply firstn_skipn. }
      assert (Hall : data = h ++ skipn (length h) data).
      { rewrite R. rewrite app_assoc, <- E. symmetry. apply firstn_skipn. }
      assert (Hfst : firstn (base + g) data = (h ++ c) ++ d).
      { rewrite <- E. unfold d. rewrite <- (firstn_skipn base data) at 1. rewrite firstn_app, firstn_length.
        rewrite Nat.min_l by lia. rewrite firstn_firstn, Nat.min_r by lia. do 2 f_equal. lia. }
      clearbody d.
      assert (Hl2 : below_2_64 (length (h ++ c ++ d))).
      { unfold below_2_64 in *. rewrite !app_length in *. lia. }
      destruct (fc_find_spec p s h c d Hp Hr N Hl2) as [(n & k & F & En & Ef)|(s' & F & Ef & Hr')].
      - left. assert (Hk := fl_len _ L _ _ _ F). rewrite app_length in Hk. exists k. split; [lia|]. split; [exact Ef|].
        assert (F' := fl_ext _ L _ _ (skipn (base + g) data) _ F). rewrite <- Hdat in F'.
        assert (Hlh : length (skipn (length h) data) = (length data - length h)%nat) by apply skipn_length.
        rewrite app_length in B. inversion W as [h0 d0 X|h0 d0 X|h0 d0 m cs' past0 X Hm W']; subst.
        + elim (X _ F').
        + left. assert (Q := fl_fun _ L _ _ _ _ F' X). repeat split; lia.
        + assert (Q := fl_fun _ L _ _ _ _ F' X). right. split; [lia|].
          replace (length h + S m)%nat with (length h + length c + k + 1)%nat by lia.
          replace (skipn (S m) (skipn (length h) data)) with (skipn (length h + length c + k + 1) data) in W'
            by (rewrite skipn_skipn'; f_equal; lia).
          replace (h ++ firstn (S m) (skipn (length h) data)) with (firstn (length h + length c + k + 1) data) in W'.
          2:{ rewrite Hall at 1. rewrite firstn_app. rewrite firstn_all2 by lia. f_equal. f_equal. lia. }
          exists cs'. split; [reflexivity|]. split; [exact W'|].
          assert (Hlen : length (firstn (length h + length c + k + 1) data) = (length h + length c + k + 1)%nat).
          { rewrite firstn_length. lia. }
          rewrite <- Hlen at 2. apply stands_start; rewrite Hlen; [reflexivity|lia].
      - right. exists s'. rewrite <- Hd. split; [exact Ef|]. split.
        + split; [exact Hr'|]. split; [exact F|]. rewrite Hd. split; [|split].
          * now rewrite app_assoc.
          * rewrite !app_length in *. lia.
          * lia.
        + rewrite Hd. intros Hend. rewrite (skipn_all2 (n := (base + g)%nat)), app_nil_r in Hdat by lia. rewrite Hdat in W.
          inversion W as [h0 d0 X|h0 d0 X|h0 d0 m cs' past0 X Hm W']; subst; auto; elim (F _ X).
    Qed.

    Definition outcome (last : nat) (cs : list nat) (past : bool) : res (list nat) := if past then Panic else Ok (sizes last cs).

    Lemma outcome_cons : forall q last cs past, (ns <- outcome q cs past ;; Ok ((q - last)%nat :: ns)) = outcome last (q :: cs) past.
    Proof. intros q last cs []; reflexivity. Qed.

    (** *** tests/cuts.rs *)
    Lemma whole_fast : forall m s h c base last cs past, stands s h c base -> walk h (skipn (length h) data) cs past ->
      (length cs + 1 < m)%nat -> (last <= base)%nat ->
      whole_splits_from (fastcdc_chunk p) m data s base last = outcome last cs past.
    Proof.
      induction m as [|m IH]; intros s h c base last cs past St W M Hla; [lia|].
      cbn [whole_splits_from]. unfold sub_slice at 1. assert (Hb : (base <= length data)%nat) by apply St.
      destruct (Nat.leb_spec base (length data)); [|lia]. rewrite Nat.leb_refl. cbn [andb bind].
      cbn [find_chunk_edge fastcdc_chunk].
      destruct (stands_call s h c base (length data - base) cs past St ltac:(lia) W)
        as [(k & Hk & Ef & [(K & -> & ->)|(K & cs' & -> & W' & St')])|(s' & Ef & St' & Hend)]; rewrite Ef; cbn [bind].
      - destruct (Nat.ltb_spec (base + (k + 1)) last); [lia|].
        destruct m as [|m]; [lia|]. cbn [whole_splits_from]. unfold sub_slice.
        destruct (Nat.leb_spec (base + (k + 1)) (length data)); [lia|]. reflexivity.
      - destruct (Nat.ltb_spec (base + (k + 1)) last); [lia|]. replace (base + (k + 1))%nat with (base + k + 1)%nat by lia.
        rewrite (IH _ _ _ _ (base + k + 1)%nat cs' past St').
        + apply outcome_cons.
        + rewrite firstn_length, Nat.min_l by lia. exact W'.
        + cbn in M. lia.
        + lia.
      - destruct Hend as [-> ->]; [lia|]. reflexivity.
    Qed.

    (** *** tests/cuts.rs, one byte at a time *)
    Lemma byte_fast : forall rest s h c i, stands s h c i -> skipn i data = rest ->
      exists cs, byte_splits_from (fastcdc_incr p) s (length h) i rest = Ok (sizes (length h) cs) /\
        cuts_of fc_byte h (skipn (length h) data) cs.
    Proof.
      induction rest as [|v rest IH]; intros s h c i St Hr.
      - exists []. split; [reflexivity|]. assert (R := stands_rest _ _ _ _ St). rewrite Hr, app_nil_r in R. rewrite R.
        constructor. intros m (n & F & _). destruct St as (_ & N & _). exact (N n F).
      - assert (R := stands_rest _ _ _ _ St). rewrite Hr in R. destruct St as (Hrel & N & E & B & Hb).
        assert (Hi : (i < length data)%nat).
        { apply (f_equal (@length byte)) in Hr. rewrite skipn_length in Hr. cbn in Hr. lia. }
        assert (Hr' : skipn (i + 1) data = rest) by (rewrite <- skipn_skipn', Hr; reflexivity).
        assert (Hall : data = h ++ c ++ v :: rest).
        { rewrite <- Hr. rewrite app_assoc, <- E. symmetry. apply firstn_skipn. }
        assert (Hfst : firstn (i + 1) data = h ++ c ++ [v]).
        { rewrite Hall. rewrite (app_assoc c [v] rest : c ++ v :: rest = _), app_assoc.
          rewrite firstn_app. rewrite firstn_all2 by (rewrite !app_length in *; cbn; lia).
          replace (i + 1 - length (h ++ c ++ [v]))%nat with 0%nat by (rewrite !app_length in *; cbn; lia). now rewrite firstn_O, app_nil_r. }
        cbn [byte_splits_from incr_push fastcdc_incr].
        assert (Hl2 : below_2_64 (length (h ++ c ++ [v]))).
        { rewrite <- Hfst. unfold below_2_64 in *. rewrite firstn_length. lia. }
        assert (RR : skipn (length h) data = (c ++ [v]) ++ rest) by (rewrite R, <- app_assoc; reflexivity).
        destruct (fc_push_ok p Hp s h c [v] Hrel N Hl2) as [(n & k & s' & F & En & Ef & Hrel')|(s' & F & Ef & Hrel')];
          rewrite Ef; cbn [bind].
        + assert (Hk := fl_len _ L _ _ _ F). rewrite !app_length in *. cbn [length] in *. rewrite Nat.add_0_r in En.
          set (h' := firstn (i + 1) data). assert (Hh' : length h' = (i + 1)%nat) by (subst h'; rewrite firstn_length; lia).
          destruct (IH s' h' [] (i + 1)%nat) as (cs & I1 & I2); [|exact Hr'|].
          { split; [exact Hrel'|]. split; [intros m; apply (fl_nil _ L)|]. rewrite app_nil_r. repeat split; auto; lia. }
          rewrite Hh' in *. unfold sub_usize. destruct (Nat.leb_spec (length h) (i + 1)); [|lia]. cbn [bind]. rewrite I1. cbn [bind].
          exists ((length h + (length c + 1))%nat :: cs). replace (length h + (length c + 1))%nat with (i + 1)%nat by lia. split; [reflexivity|].
          replace (i + 1)%nat with (length h + (length c + 1))%nat by lia. apply cuts_some.
          * exists n. split; [rewrite RR; now apply (fl_ext _ L)|].
            destruct F as (F1 & F2 & F3 & F4). rewrite app_length in *. cbn [length] in *.
            destruct k as [|[|k]]; [| |lia].
            -- destruct (Z.ltb_spec (Z.of_nat n) (fc_max_size p)); cbn [orb]; [lia|].
               destruct (Z.leb_spec (Z.of_nat n) (fc_min_size p)); [lia|]. exfalso.
               apply (fc_none_stop p h c) with (m := n); auto; [lia|lia|]. left. assumption.
            -- destruct F3 as [F3|[F3 _]]; [|rewrite app_length in F3; cbn in F3; lia].
               destruct (Z.ltb_spec (Z.of_nat n) (fc_max_size p)); [lia|]. cbn [orb].
               destruct (Z.leb_spec (Z.of_nat n) (fc_min_size p)); [lia|]. lia.
          * rewrite skipn_skipn'. replace (length h + (length c + 1))%nat with (i + 1)%nat by lia.
            replace (h ++ firstn (length c + 1) (skipn (length h) data)) with h'; [exact I2|].
            subst h'. rewrite Hfst. f_equal. rewrite RR, firstn_app.
            replace (length c + 1 - length (c ++ [v]))%nat with 0%nat by (rewrite app_length; cbn; lia).
            rewrite firstn_O, app_nil_r. symmetry. apply firstn_all2. rewrite app_length. cbn. lia.
        + destruct (IH s' h (c ++ [v]) (i + 1)%nat) as (cs & I1 & I2); [|exact Hr'|].
          { split; [exact Hrel'|]. split; [exact F|]. rewrite !app_length in *. cbn [length] in *. repeat split; auto; lia. }
          exists cs. split; [exact I1|exact I2].
    Qed.

    (** *** tests/cuts_qc.rs *)
    Variable buf_sizes : list nat.
    Hypothesis Hne : buf_sizes <> [].
    Hypothesis Hpos : Forall (fun n => 1 <= n)%nat buf_sizes.

    Lemma fce_fast : forall m s h c base last i prev cs past, stands s h c base -> walk h (skipn (length h) data) cs past ->
      (length cs + (length data - base) + 1 < m)%nat -> (last <= base)%nat ->
      splits_fce_from (fastcdc_chunk p) m data buf_sizes i s last base prev = outcome last cs past.
    Proof.
      induction m as [|m IH]; intros s h c base last i prev cs past St W M Hla; [lia|].
      assert (Hb : (base <= length data)%nat) by apply St.
      cbn [splits_fce_from]. destruct (Nat.eqb_spec (length data) base) as [E|E].
      { (* nothing left *)
        assert (R := stands_rest _ _ _ _ St). rewrite (skipn_all2 (n := base)) in R by lia. rewrite app_nil_r in R. rewrite R in W.
        destruct St as (_ & N & _). inversion W; subst; try (now elim (N _ H)); reflexivity. }
      destruct (next_size buf_sizes Hne Hpos i) as (sz & -> & Hsz). cbn [bind]. unfold sub_usize at 1.
      destruct (Nat.leb_spec base (length data)); [|lia]. cbn [bind].
      set (bs := Nat.min (sz + prev) (length data - base)). unfold sub_slice.
      destruct (Nat.leb_spec base (bs + base)); [|lia].
      destruct (Nat.leb_spec (bs + base) (length data)); [|subst bs; lia]. cbn [andb bind].
      replace (bs + base - base)%nat with bs by lia. cbn [find_chunk_edge fastcdc_chunk].
      destruct (stands_call s h c base bs cs past St ltac:(subst bs; lia) W)
        as [(k & Hk & Ef & [(K & -> & ->)|(K & cs' & -> & W' & St')])|(s' & Ef & St' & Hend)]; rewrite Ef; cbn [bind].
      - unfold sub_usize at 1. destruct (Nat.leb_spec last (base + (k + 1))); [|lia]. cbn [bind].
        destruct m as [|m]; [lia|]. cbn [splits_fce_from].
        destruct (Nat.eqb_spec (length data) (base + (k + 1))); [lia|].
        destruct (next_size buf_sizes Hne Hpos (i + 1)) as (sz' & -> & _). cbn [bind]. unfold sub_usize.
        destruct (Nat.leb_spec (base + (k + 1)) (length data)); [lia|]. reflexivity.
      - unfold sub_usize at 1. destruct (Nat.leb_spec last (base + (k + 1))); [|lia]. cbn [bind].
        replace (base + (k + 1))%nat with (base + k + 1)%nat by lia.
        rewrite (IH _ _ _ _ (base + k + 1)%nat (i + 1)%nat 0%nat cs' past St').
        + apply outcome_cons.
        + rewrite firstn_length, Nat.min_l by lia. exact W'.
        + cbn in M. lia.
        + lia.
      - destruct (Nat.eqb_spec bs (length data - base)) as [E2|E2].
        + destruct Hend as [-> ->]; [lia|]. reflexivity.
        + eapply IH; eauto; [|lia]. assert (1 <= bs)%nat by (subst bs; lia). lia.
    Qed.

    (** *** The loop in the documentation *)
    Lemma doc_fast : forall m s h c base cs past, stands s h c base -> walk h (skipn (length h) data) cs past ->
      (length cs < m)%nat ->
      (past = true -> doc_loop_from (fastcdc_chunk p) m data s (skipn base data) (length h) = Panic) /\
      (past = false -> exists chunks dropped, doc_loop_from (fastcdc_chunk p) m data s (skipn base data) (length h) = Ok (chunks, []) /\
         map (@length byte) chunks = sizes (length h) cs /\ skipn (length h) data = concat chunks ++ dropped).
    Proof.
      induction m as [|m IH]; intros s h c base cs past St W M; [lia|].
      assert (Hb : (base <= length data)%nat) by apply St.
      assert (Hh : (length h <= base)%nat). { destruct St as (_ & _ & _ & B & _). rewrite app_length in B. lia. }
      cbn [doc_loop_from]. cbn [find_chunk_edge fastcdc_chunk].
      assert (Hw : firstn (length data - base) (skipn base data) = skipn base data).
      { apply firstn_all2. rewrite skipn_length. lia. }
      destruct (stands_call s h c base (length data - base) cs past St ltac:(lia) W)
        as [(k & Hk & Ef & [(K & -> & ->)|(K & cs' & -> & W' & St')])|(s' & Ef & St' & Hend)]; rewrite Hw in Ef; rewrite Ef; cbn [bind].
      - split; [intros _|discriminate]. unfold sub_usize. rewrite skipn_length.
        destruct (Nat.leb_spec (length data - base) (k + 1 + length data)); [|lia]. cbn [bind]. unfold sub_slice at 1.
        destruct (Nat.leb_spec (k + 1 + length data - (length data - base)) (length data)); [lia|]. rewrite andb_false_r. reflexivity.
      - unfold sub_usize. rewrite skipn_length.
        destruct (Nat.leb_spec (length data - base) (k + 1 + length data)); [|lia]. cbn [bind].
        replace (k + 1 + length data - (length data - base))%nat with (base + k + 1)%nat by lia.
        unfold sub_slice. destruct (Nat.leb_spec (length h) (base + k + 1)); [|lia].
        destruct (Nat.leb_spec (base + k + 1) (length data)); [|lia]. cbn [andb bind].
        destruct (Nat.leb_spec (k + 1) (length data - base)); [|lia]. rewrite skipn_length, Nat.leb_refl. cbn [andb bind].
        rewrite (firstn_all2 (n := length data - base - (k + 1))) by (rewrite !skipn_length; lia).
        rewrite skipn_skipn'. replace (base + (k + 1))%nat with (base + k + 1)%nat by lia.
        assert (Hlen : length (firstn (base + k + 1) data) = (base + k + 1)%nat) by (rewrite firstn_length; lia).
        destruct (IH _ _ _ _ cs' past St') as [I1 I2].
        + rewrite Hlen. exact W'.
        + cbn in M. lia.
        + rewrite Hlen in *. split.
          * intros Hpa. rewrite (I1 Hpa). reflexivity.
          * intros Hpa. destruct (I2 Hpa) as (chunks & dropped & -> & E1 & E2). cbn [bind]. eexists _, dropped. split; [reflexivity|].
            cbn [map sizes concat]. split.
            -- rewrite E1. f_equal. rewrite firstn_length, skipn_length. lia.
            -- rewrite <- app_assoc, <- E2.
               rewrite <- (firstn_skipn (base + k + 1 - length h) (skipn (length h) data)) at 1.
               f_equal. rewrite skipn_skipn'. f_equal. lia.
      - destruct Hend as [-> ->]; [lia|]. split; [discriminate|]. intros _. unfold sub_slice. rewrite skipn_length.
        rewrite !Nat.leb_refl. cbn [andb bind]. rewrite Nat.sub_diag. cbn [firstn].
        exists [], (skipn (length h) data). now split.
    Qed.
  End Data.

  (** ** Whole runs *)
  Lemma start : forall data, stands data fastcdc_state_default [] [] 0.
  Proof. intros data. apply (stands_start data []); [reflexivity|cbn; lia]. Qed.

  Theorem byte_splits_fast : forall data, below_2_64 (length data) ->
    exists cs, cuts_of fc_byte [] data cs /\ byte_splits (fastcdc_incr p) data = Ok (sizes 0 cs).
  Proof.
    intros data Hl. destruct (byte_fast data Hl data fastcdc_state_default [] [] 0%nat (start data) eq_refl) as (cs & E & W).
    exists cs. split; [exact W|exact E].
  Qed.

  Theorem fce_outcome : forall data, below_2_64 (length data) -> exists cs past, walk [] data cs past /\
    (exists enough, forall fuel, (enough <= fuel)%nat -> whole_splits (fastcdc_chunk p) fuel data = outcome 0 cs past) /\
    (exists enough, forall fuel, (enough <= fuel)%nat -> forall buf_sizes, buf_sizes <> [] -> Forall (fun n => 1 <= n)%nat buf_sizes ->
       splits_fce (fastcdc_chunk p) fuel data buf_sizes = outcome 0 cs past) /\
    (exists enough, forall fuel, (enough <= fuel)%nat ->
       (past = true -> doc_loop (fastcdc_chunk p) fuel data = Panic) /\
       (past = false -> exists chunks dropped, doc_loop (fastcdc_chunk p) fuel data = Ok (chunks, []) /\
         map (@length byte) chunks = sizes 0 cs /\ data = concat chunks ++ dropped)).
  Proof.
    intros data Hl. destruct (walk_exists (S (length data)) [] data ltac:(lia) Hl) as (cs & past & W).
    exists cs, past. split; [exact W|]. split; [|split].
    - exists (length cs + 2)%nat. intros fuel Hf. unfold whole_splits.
      eapply whole_fast; eauto using start; lia.
    - exists (length cs + length data + 2)%nat. intros fuel Hf bs H1 H2. unfold splits_fce.
      eapply (fce_fast data Hl bs H1 H2); eauto using start; lia.
    - exists (length cs + 1)%nat. intros fuel Hf. unfold doc_loop.
      exact (doc_fast data Hl fuel fastcdc_state_default [] [] 0%nat cs past (start data) W ltac:(lia)).
  Qed.

  (** A stream shorter than the maximal size: both APIs, and no cut past the end. *)
  Lemma short_byte_edge : forall h d cs, cuts_of fc_byte h d cs -> Z.of_nat (length d) < fc_max_size p -> cuts_of (fc_edge p) h d cs.
  Proof.
    assert (K : forall h d n, fc_first p h d n -> Z.of_nat (length d) < fc_max_size p -> (n < length d)%nat).
    { intros h d n (F1 & F2 & F3 & _) Hm. destruct F3 as [F3|[F3 _]]; lia. }
    intros h d cs H; induction H as [h d N|h d m cs (n & F & Em) H IH]; intros Hm.
    - constructor. intros m (n & -> & _ & F). eapply N. exists n. split; [exact F|]. reflexivity.
    - assert (Hn := K _ _ _ F Hm). destruct (Z.ltb_spec (Z.of_nat n) (fc_max_size p)); [|lia]. cbn [orb] in Em. subst m.
      apply cuts_some; [now exists n|]. apply IH. rewrite skipn_length. lia.
  Qed.

  Lemma short_not_past : forall h d cs, walk h d cs true -> Z.of_nat (length d) < fc_max_size p -> False.
  Proof.
    intros h d cs W. remember true as b eqn:Eb. induction W as [h d N|h d F|h d n cs past F Hn W IH]; intros Hm; try discriminate.
    - destruct F as (F1 & F2 & F3 & _). destruct F3 as [F3|[F3 _]]; lia.
    - apply IH; [assumption|]. rewrite skipn_length. lia.
  Qed.
End Fast.
