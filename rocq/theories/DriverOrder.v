(** * DriverOrder: the loop of tests/cuts_qc.rs with FastCdc of any sizes. *)

From Verif Require Import Base Api Tables Spec Lists Contract Step Words FastCdc FastCdcProofs FastCdcSafe FastCdcAny FastCdcTotal FastCdcExact CutFacts Drivers DriverProofs DriverFast DriverAny.

Section Order.
  Variable p : FastCdc.
  Hypothesis Hg : length (fc_gear p) = 256%nat.
  Hypothesis Hmin : 0 <= fc_min_size p.
  Let q := fc_up p.
  Let Hq : fastcdc_ok q := fc_up_ok p Hg Hmin.
  Let L : first_laws (fc_first q) := fc_laws q Hmin.
  Let M := forced_at (fc_min_size p) (fc_max_size p).

  (** A buffer of [M] bytes with more to come shows nothing that more would not show. *)
  Definition fc_plain (d : list byte) : Prop :=
    fc_normal_size p <= M \/ Z.of_nat (length d) <= M \/ exists i, fc_min_size p <= Z.of_nat i <= M /\ fc_hit p d i.

  Lemma hit_prefix : forall D e i, (i < length D)%nat -> (fc_hit p (D ++ e) i <-> fc_hit p D i).
  Proof. intros D e i Hi. unfold fc_hit, fastcdc_fingerprint. rewrite firstn_app_le by lia. reflexivity. Qed.

  (** An answer past the end of a buffer with more to come is what the rule wants. *)
  Lemma plain_cliff : forall D e, e <> [] -> fc_plain (D ++ e) -> fc_cliff p D -> forall h, fc_first q h (D ++ e) (length D).
  Proof.
    intros D e He P (C1 & C2 & C3) h. assert (Le : (1 <= length e)%nat) by (destruct e; [now elim He|cbn; lia]).
    assert (B : fc_min_size p < M /\ fc_max_size p <= M) by (unfold M, forced_at; lia).
    split; [rewrite app_length; change (fc_min_size q) with (fc_min_size p); lia|]. split; [rewrite app_length; change (fc_min_size q) with (fc_min_size p); lia|]. split.
    - destruct (Z.eq_dec (Z.of_nat (length D)) (fc_top p)) as [E|E]; [left; change (fc_max_size q) with (fc_top p); lia|]. right. split; [rewrite app_length; lia|].
      change (fc_hit p (D ++ e) (length D)). unfold fc_top in *. destruct P as [P|[P|(i & Hi & P)]].
      + unfold M, forced_at in *. lia.
      + rewrite app_length in P. unfold M, forced_at in *. lia.
      + destruct (Z.lt_ge_cases (Z.of_nat i) (Z.of_nat (length D))) as [X|X].
        * exfalso. apply hit_prefix in P; [|lia]. exact (C3 i ltac:(lia) P).
        * assert (i = length D) as -> by (unfold M, forced_at in *; lia). exact P.
    - intros m Hm [X|[_ X]]; [change (fc_max_size q) with (fc_top p) in X; lia|]. change (fc_hit p (D ++ e) m) in X. apply hit_prefix in X; [|lia]. exact (C3 m Hm X).
  Qed.

  Lemma path_snoc : forall (first : first_rel) h d cs h' d' n, cut_path first h d cs h' d' -> first h' d' n ->
    cut_path first h d (cs ++ [(length h' + n)%nat]) (h' ++ firstn n d') (skipn n d').
  Proof.
    intros first h d cs h' d' n H F. induction H as [h d|h d k cs h' d' F' H IH].
    - cbn [app]. apply path_cons; [exact F|constructor].
    - cbn [app]. apply path_cons; [exact F'|]. exact (IH F).
  Qed.

  Section Data.
    Variable data : list byte.
    Hypothesis Hlim : below_2_64 (length data).
    Hypothesis Hplain : forall cs h d, cut_path (fc_edge q) [] data cs h d -> fc_plain d.

    Lemma order_call : forall s h c base g cs0 cs past, stands q data s h c base -> (base + g <= length data)%nat ->
      cut_path (fc_edge q) [] data cs0 h (skipn (length h) data) -> stroll p h (skipn (length h) data) cs past ->
      (exists k, (k <= g)%nat /\
         fastcdc_find_chunk_edge p s (firstn g (skipn base data)) = Ok (fastcdc_state_default, (Some (k + 1)%nat, (k + 1)%nat)) /\
         ((base + k = length data)%nat /\ cs = [] /\ past = true \/
          (base + k < length data)%nat /\ exists cs1 cs', cs = (base + k + 1)%nat :: cs' /\
            cut_path (fc_edge q) [] data cs1 (firstn (base + k + 1) data) (skipn (base + k + 1) data) /\
            stroll p (firstn (base + k + 1) data) (skipn (base + k + 1) data) cs' past /\
            stands q data fastcdc_state_default (firstn (base + k + 1) data) [] (base + k + 1))) \/
      (exists s', fastcdc_find_chunk_edge p s (firstn g (skipn base data)) = Ok (s', (None, g)) /\
         stands q data s' h (c ++ firstn g (skipn base data)) (base + g) /\ (base + g = length data -> cs = [] /\ past = false)%nat).
    Proof.
      intros s h c base g cs0 cs past St Hgl Pa W. assert (R := stands_rest _ _ _ _ _ _ St). destruct St as (Hr & N & E & B & Hb).
      set (w := firstn g (skipn base data)). assert (Hw : length w = g) by (unfold w; rewrite firstn_length, skipn_length; lia).
      set (d := skipn (length h) data) in *. set (e := skipn (base + g) data).
      assert (Hd : d = (c ++ w) ++ e).
      { rewrite R, <- app_assoc. f_equal. unfold w, e. rewrite <- (skipn_skipn' _ g base data). symmetry. apply firstn_skipn. }
      assert (Hall : data = h ++ d).
      { rewrite R. rewrite app_assoc, <- E. symmetry. apply firstn_skipn. }
      assert (Ld : length data = (length h + length d)%nat) by (rewrite Hall at 1; apply app_length).
      assert (Le : length e = (length data - (base + g))%nat) by apply skipn_length.
      assert (Hfst : firstn (base + g) data = (h ++ c) ++ w).
      { rewrite <- E. unfold w. rewrite firstn_plus. reflexivity. }
      assert (Hl2 : below_2_64 (length (c ++ w))).
      { unfold below_2_64 in *. rewrite Hd, !app_length in Ld. rewrite !app_length. lia. }
      rewrite app_length in B.
      (* a cut that the rule wants *)
      assert (CUT : forall k, fc_first q h d (length c + k)%nat -> (base + k < length data)%nat -> exists cs1 cs', cs = (base + k + 1)%nat :: cs' /\
            cut_path (fc_edge q) [] data cs1 (firstn (base + k + 1) data) (skipn (base + k + 1) data) /\
            stroll p (firstn (base + k + 1) data) (skipn (base + k + 1) data) cs' past /\
            stands q data fastcdc_state_default (firstn (base + k + 1) data) [] (base + k + 1)).
      { intros k F Hk. assert (Ef : h ++ firstn (S (length c + k)) d = firstn (base + k + 1) data).
        { rewrite Hall at 1. rewrite firstn_app. rewrite (firstn_all2 h) by lia. f_equal. f_equal. lia. }
        assert (Es : skipn (S (length c + k)) d = skipn (base + k + 1) data) by (unfold d; rewrite skipn_skipn'; f_equal; lia).
        assert (Fe : fc_edge q h d (S (length c + k))) by (exists (length c + k)%nat; split; [reflexivity|]; split; [lia|exact F]).
        assert (Pa' := path_snoc _ _ _ _ _ _ _ Pa Fe). rewrite Ef, Es in Pa'. exists (cs0 ++ [(length h + S (length c + k))%nat]).
        inversion W as [h0 d0 N0 C0|h0 d0 C0|h0 d0 n0 cs' past0 F0 Hn0 W0]; subst h0 d0; try subst cs; try subst past0.
        - exfalso. exact (N0 _ F).
        - exfalso. exact (fc_cliff_edge p Hg _ _ _ Fe C0).
        - assert (n0 = (length c + k)%nat) as -> by exact (fl_fun _ L _ _ _ _ F0 F). rewrite Ef, Es in W0. exists cs'. split; [f_equal; lia|]. split; [exact Pa'|]. split; [exact W0|].
          assert (Hlen : length (firstn (base + k + 1) data) = (base + k + 1)%nat) by (rewrite firstn_length; lia).
          rewrite <- Hlen at 2. apply stands_start; rewrite ?Hlen; [exact Hq|reflexivity|lia]. }
      (* an answer past the end of what is shown *)
      assert (CLIFF : fc_cliff p (c ++ w) -> fastcdc_find_chunk_edge p s w = Ok (fastcdc_state_default, (Some (g + 1), (g + 1)))%nat ->
        exists k, (k <= g)%nat /\ fastcdc_find_chunk_edge p s w = Ok (fastcdc_state_default, (Some (k + 1)%nat, (k + 1)%nat)) /\
         ((base + k = length data)%nat /\ cs = [] /\ past = true \/
          (base + k < length data)%nat /\ exists cs1 cs', cs = (base + k + 1)%nat :: cs' /\
            cut_path (fc_edge q) [] data cs1 (firstn (base + k + 1) data) (skipn (base + k + 1) data) /\
            stroll p (firstn (base + k + 1) data) (skipn (base + k + 1) data) cs' past /\
            stands q data fastcdc_state_default (firstn (base + k + 1) data) [] (base + k + 1))).
      { intros C Ec. exists g. split; [lia|]. split; [exact Ec|]. destruct (Nat.eq_dec (base + g) (length data)) as [X|X].
        - left. split; [exact X|]. assert (e = []) by (destruct e; [reflexivity|cbn in Le; lia]). subst e. rewrite H, app_nil_r in Hd. rewrite <- Hd in C.
          inversion W as [h0 d0 N0 C0|h0 d0 C0|h0 d0 n0 cs' past0 F0 Hn0 W0]; subst h0 d0; try subst cs; try subst past0; [contradiction|split; reflexivity|].
          exfalso. refine (fc_cliff_edge p Hg h d (S n0) _ C). exists n0. auto.
        - right. split; [lia|]. apply CUT; [|lia]. assert (Q : e <> []) by (intros Y; rewrite Y in Le; cbn in Le; lia).
          assert (F := plain_cliff (c ++ w) e Q). rewrite <- Hd in F. specialize (F (Hplain _ _ _ Pa) C h). rewrite app_length, Hw in F. exact F. }
      destruct (fc_find_alt p h c w s Hg Hmin (proj1 (fc_up_rel p s c) Hr) N Hl2) as [Ea|[Ea C]]; [|left; apply CLIFF; [exact C|now rewrite <- Hw]].
      fold q in Ea. destruct (fc_find_spec q s h c w Hq Hr N) as [(n & k & F & En & Ef)|(s' & F & Ef & Hr')].
      { unfold below_2_64 in *. rewrite Hd, !app_length in Ld. rewrite !app_length. lia. }
      - assert (Hk := fl_len _ L _ _ _ F). rewrite app_length in Hk. assert (F' := fl_ext _ L _ _ e _ F). rewrite <- Hd in F'. subst n. rewrite Ef in Ea.
        destruct (Nat.eq_dec (base + k) (length data)) as [X|X].
        + assert (k = g) as -> by lia. left. apply CLIFF; [|exact Ea]. 
          assert (O : fc_overrun q h (c ++ w) (length c + g)). { split; [rewrite app_length; lia|]. rewrite firstn_all2 by (rewrite app_length; lia). exact F. }
          apply (fc_overrun_cliff p Hg Hmin) in O. rewrite firstn_all2 in O by (rewrite app_length; lia). exact O.
        + left. exists k. split; [lia|]. split; [exact Ea|]. right. split; [lia|]. apply CUT; [exact F'|lia].
      - right. exists s'. rewrite Ef, Hw in Ea. split; [exact Ea|]. split.
        + split; [exact Hr'|]. split; [exact F|]. split; [now rewrite app_assoc|]. rewrite !app_length. lia.
        + intros X. assert (Ee : e = []) by (destruct e; [reflexivity|cbn in Le; lia]). rewrite Ee, app_nil_r in Hd. rewrite <- Hd in F.
          inversion W as [h0 d0 N0 C0|h0 d0 C0|h0 d0 n0 cs' past0 F0 Hn0 W0]; subst h0 d0; try subst cs; try subst past0; [split; reflexivity| |elim (F _ F0)].
          exfalso. rewrite Hd in C0. rewrite (fc_find_cliff p c w s Hg Hmin (proj1 (fc_up_rel p s c) Hr) Hl2 C0) in Ea. discriminate.
    Qed.

    Variable buf_sizes : list nat.
    Hypothesis Hne : buf_sizes <> [].
    Hypothesis Hpos : Forall (fun n => 1 <= n)%nat buf_sizes.

    Lemma fce_order : forall m s h c base last i prev cs0 cs past, stands q data s h c base -> cut_path (fc_edge q) [] data cs0 h (skipn (length h) data) ->
      stroll p h (skipn (length h) data) cs past -> (length cs + (length data - base) + 1 < m)%nat -> (last <= base)%nat -> (base = length data -> c = []) ->
      splits_fce_from (fastcdc_chunk p) m data buf_sizes i s last base prev = outcome last cs past.
    Proof.
      induction m as [|m IH]; intros s h c base last i prev cs0 cs past St Pa W F Hla Hc; [lia|].
      assert (Hb : (base <= length data)%nat) by apply St.
      cbn [splits_fce_from]. destruct (Nat.eqb_spec (length data) base) as [E|E].
      { (* nothing left *)
        assert (R := stands_rest _ _ _ _ _ _ St). rewrite (skipn_all2 (n := base)) in R by lia. rewrite Hc in R by lia. cbn [app] in R. rewrite R in W.
        inversion W as [h0 d0 N0 C0|h0 d0 C0|h0 d0 n0 cs' past0 F0 Hn0 W0]; subst; [reflexivity| |cbn in Hn0; lia].
        destruct C0 as (C1 & _). cbn in C1. lia. }
      destruct (next_size buf_sizes Hne Hpos i) as (sz & -> & Hsz). cbn [bind]. unfold sub_usize at 1.
      destruct (Nat.leb_spec base (length data)); [|lia]. cbn [bind].
      set (bs := Nat.min (sz + prev) (length data - base)). unfold sub_slice.
      destruct (Nat.leb_spec base (bs + base)); [|lia].
      destruct (Nat.leb_spec (bs + base) (length data)); [|subst bs; lia]. cbn [andb bind].
      replace (bs + base - base)%nat with bs by lia. cbn [find_chunk_edge fastcdc_chunk].
      destruct (order_call s h c base bs cs0 cs past St ltac:(subst bs; lia) Pa W)
        as [(k & Hk & Ef & [(K & -> & ->)|(K & cs1 & cs' & -> & Pa' & W' & St')])|(s' & Ef & St' & Hend)]; rewrite Ef; cbn [bind].
      - unfold sub_usize at 1. destruct (Nat.leb_spec last (base + (k + 1))); [|lia]. cbn [bind].
        destruct m as [|m]; [lia|]. cbn [splits_fce_from].
        destruct (Nat.eqb_spec (length data) (base + (k + 1))); [lia|].
        destruct (next_size buf_sizes Hne Hpos (i + 1)) as (sz' & -> & _). cbn [bind]. unfold sub_usize.
        destruct (Nat.leb_spec (base + (k + 1)) (length data)); [lia|]. reflexivity.
      - unfold sub_usize at 1. destruct (Nat.leb_spec last (base + (k + 1))); [|lia]. cbn [bind].
        replace (base + (k + 1))%nat with (base + k + 1)%nat by lia.
        assert (Lf : length (firstn (base + k + 1) data) = (base + k + 1)%nat) by (rewrite firstn_length; lia).
        rewrite (IH _ _ _ _ (base + k + 1)%nat (i + 1)%nat 0%nat cs1 cs' past St').
        + apply outcome_cons.
        + rewrite Lf. exact Pa'.
        + rewrite Lf. exact W'.
        + cbn in F. lia.
        + lia.
        + reflexivity.
      - destruct (Nat.eqb_spec bs (length data - base)) as [E2|E2].
        + destruct Hend as [-> ->]; [lia|]. reflexivity.
        + eapply IH; eauto; [|lia|subst bs; lia]. assert (1 <= bs)%nat by (subst bs; lia). lia.
    Qed.
  End Data.

  Theorem fce_plain : forall data, below_2_64 (length data) -> (forall cs h d, cut_path (fc_edge q) [] data cs h d -> fc_plain d) ->
    exists cs past, stroll p [] data cs past /\ exists enough, forall fuel, (enough <= fuel)%nat ->
    forall buf_sizes, buf_sizes <> [] -> Forall (fun n => 1 <= n)%nat buf_sizes -> splits_fce (fastcdc_chunk p) fuel data buf_sizes = outcome 0 cs past.
  Proof.
    intros data Hl Hp. destruct (stroll_exists p Hg Hmin (S (length data)) [] data ltac:(lia) Hl) as (cs & past & W).
    exists cs, past. split; [exact W|]. exists (length cs + length data + 2)%nat. intros fuel Hf bs H1 H2. unfold splits_fce.
    apply (fce_order data Hl Hp bs H1 H2) with (h := []) (c := []) (cs0 := []); [exact (start q Hq data)|constructor|exact W|lia|lia|reflexivity].
  Qed.

  (** A stream of [M + 1] bytes without an end: seen in two parts it is a chunk, seen at once a panic. *)
  Lemma fce_torn : forall data, below_2_64 (length data) -> Z.of_nat (length data) = M + 1 -> M < fc_normal_size p ->
    (forall i, fc_min_size p <= Z.of_nat i <= M -> ~ fc_hit p data i) -> forall fuel, (2 <= fuel)%nat ->
    splits_fce (fastcdc_chunk p) fuel data [Z.to_nat M] = Ok [length data] /\ splits_fce (fastcdc_chunk p) fuel data [length data] = Panic.
  Proof.
    intros data Hl Len Hn Hh fuel Hf. assert (B : fc_min_size p < M /\ fc_max_size p <= M) by (unfold M, forced_at; lia).
    destruct fuel as [|[|fuel]]; [lia|lia|]. set (m := Z.to_nat M). assert (Lm : length data = S m) by lia.
    assert (Lf : length (firstn m data) = m) by (rewrite firstn_length; lia).
    assert (C1 : fc_cliff p (firstn m data)). { apply fc_cliff_firstn; [lia|]. split; [lia|]. split; [unfold fc_top; lia|]. intros i Hi. apply Hh. lia. }
    assert (C2 : fc_cliff p data). { split; [lia|]. split; [unfold fc_top; lia|]. intros i Hi. apply Hh. lia. }
    unfold splits_fce. cbn [splits_fce_from]. split.
    - rewrite Lm. cbn [Nat.eqb length index nth_error Nat.modulo Nat.divmod fst Nat.sub bind sub_usize Nat.leb]. rewrite Nat.add_0_r. rewrite Nat.min_l by lia.
      rewrite Nat.add_0_r. unfold sub_slice at 1. replace (m <=? length data)%nat with true by (symmetry; apply Nat.leb_le; lia). cbn [Nat.leb andb bind skipn]. rewrite Nat.sub_0_r.
      cbn [find_chunk_edge fastcdc_chunk to_search_state]. rewrite (fc_find_cliff p [] (firstn m data) fastcdc_state_default Hg Hmin (fc_default_rel p)); [|cbn [app]; unfold below_2_64 in Hl; lia|exact C1].
      rewrite Lf. cbn [bind Nat.add]. replace (m + 1)%nat with (S m) by lia. rewrite Nat.eqb_refl. cbn [bind]. reflexivity.
    - rewrite Lm. cbn [Nat.eqb length index nth_error Nat.modulo Nat.divmod fst Nat.sub bind sub_usize Nat.leb]. rewrite Nat.add_0_r. rewrite Nat.min_l by lia.
      rewrite Nat.add_0_r. unfold sub_slice at 1. replace (S m <=? length data)%nat with true by (symmetry; apply Nat.leb_le; lia). cbn [Nat.leb andb bind skipn]. rewrite Nat.sub_0_r.
      rewrite firstn_all2 by lia.
      cbn [find_chunk_edge fastcdc_chunk to_search_state]. rewrite (fc_find_cliff p [] data fastcdc_state_default Hg Hmin (fc_default_rel p)); [|exact Hl|exact C2].
      rewrite Lm. cbn [bind Nat.add]. replace (Nat.eqb m (m + 1)) with false by (symmetry; apply Nat.eqb_neq; lia). cbn [bind].
      unfold sub_usize. replace (S (m + 1) <=? S m)%nat with false by (symmetry; apply Nat.leb_gt; lia). reflexivity.
  Qed.
End Order.
