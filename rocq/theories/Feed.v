(** * Feed: the loops of tests/fastcdc.rs and benches/compare.rs over [push]. *)

From Verif Require Import Base Api Spec Lists Contract CutFacts Drivers.

(** The positions where the blocks end. *)
Fixpoint block_ends (base : nat) (blocks : list (list byte)) : list nat :=
  match blocks with
  | [] => []
  | d :: more => (base + length d)%nat :: block_ends (base + length d) more
  end.
Definition inside (ends : list nat) (p : nat) : bool := negb (existsb (Nat.eqb p) ends).

Section Feed.
  Variable C : Incr.
  Variable first : first_rel.
  Variable lim : nat -> Prop.
  Variable R : incr_state C -> list byte -> list byte -> Prop.
  Hypothesis L : first_laws first.
  Hypothesis Pr : progressive first.
  Hypothesis D : down_closed lim.
  Hypothesis K : push_ok 0 (incr_push C) first lim R.

  (** After one block: [h'] has been cut off, [c'] is undecided, the cuts of the block are [cs]; those not at its end are
      counted. *)
  Lemma feed_block_ok : forall fuel s ct h c d, R s h c -> (forall n, ~ first h c n) -> lim (length (h ++ c ++ d)) ->
    (length d + (match c with [] => 0 | _ => 1 end) < fuel)%nat -> (ct <= 5)%nat ->
    feed_block C fuel s ct d = Ok Enough \/
    exists s' ct' h' c' cs, feed_block C fuel s ct d = Ok (Hungry s' ct') /\ (ct <= ct' <= 5)%nat /\ h' ++ c' = h ++ c ++ d /\ R s' h' c' /\
      (forall n, ~ first h' c' n) /\ cut_path first h (c ++ d) cs h' c' /\
      (length (filter (fun p => negb (Nat.eqb p (length (h ++ c ++ d)))) cs) <= ct' - ct)%nat.
  Proof.
    induction fuel as [|fuel IH]; intros s ct h c d HR HN Hl Hf Hct; [lia|]. cbn [feed_block].
    destruct (K s h c d HR HN Hl) as [(n & k & s' & F & En & -> & HR')|(s' & N & -> & HR')]; cbn [bind].
    - assert (Q := fl_len _ L _ _ _ F). rewrite app_length in Q. destruct (Nat.eqb_spec k (length d)) as [->|Hk].
      + right. exists s', ct, (h ++ c ++ d), [], [(length h + n)%nat]. split; [reflexivity|]. split; [lia|]. split; [now rewrite app_nil_r|].
        rewrite firstn_all2 in HR' by (rewrite app_length; lia). split; [exact HR'|]. split; [apply (fl_nil _ L)|]. split.
        * apply path_cons; [exact F|]. rewrite firstn_all2, skipn_all2 by (rewrite app_length; lia). constructor.
        * cbn [filter]. replace (Nat.eqb (length h + n) (length (h ++ c ++ d))) with true by (symmetry; apply Nat.eqb_eq; rewrite !app_length; lia). cbn. lia.
      + destruct (Nat.ltb_spec 5 (ct + 1)) as [G|G]; [now left|].
        assert (sub_slice d k (length d) = Ok (skipn k d)) as ->.
        { unfold sub_slice. replace (Nat.leb k (length d) && Nat.leb (length d) (length d)) with true.
          - f_equal. apply firstn_all2. rewrite skipn_length. lia.
          - symmetry. apply andb_true_iff. split; apply Nat.leb_le; lia. }
        cbn [bind].
        assert (E1 : firstn n (c ++ d) = c ++ firstn k d).
        { rewrite firstn_app, firstn_all2 by lia. do 2 f_equal. lia. }
        assert (E2 : skipn n (c ++ d) = skipn k d).
        { rewrite skipn_app, skipn_all2 by lia. cbn. f_equal. lia. }
        assert (E3 : (h ++ c ++ firstn k d) ++ [] ++ skipn k d = h ++ c ++ d) by (cbn [app]; now rewrite <- !app_assoc, firstn_skipn).
        rewrite E1 in HR'.
        assert (P1 := Pr _ _ _ F).
        destruct (IH s' (ct + 1)%nat (h ++ c ++ firstn k d) [] (skipn k d) HR' (fl_nil _ L _)) as [E|(s2 & ct2 & h2 & c2 & cs & E & Hct2 & Eh & HR2 & HN2 & Pt & Cn)].
        * now rewrite E3.
        * rewrite skipn_length. destruct c as [|x c]; cbn [length] in *; lia.
        * lia.
        * now left.
        * right. exists s2, ct2, h2, c2, ((length h + n)%nat :: cs). split; [exact E|]. split; [lia|]. split; [now rewrite Eh, E3|].
          split; [exact HR2|]. split; [exact HN2|]. split.
          -- apply path_cons; [exact F|]. now rewrite E1, E2.
          -- rewrite E3 in Cn. cbn [filter]. replace (Nat.eqb (length h + n) (length (h ++ c ++ d))) with false by (symmetry; apply Nat.eqb_neq; rewrite !app_length; lia).
             cbn [negb length]. lia.
    - right. exists s', ct, h, (c ++ d), []. split; [reflexivity|]. split; [lia|]. split; [reflexivity|]. split; [exact HR'|]. split; [exact N|].
      split; [constructor|cbn; lia].
  Qed.

  Lemma path_cuts : forall h d cs h' d', cut_path first h d cs h' d' -> forall e cs', cuts_of first h (d ++ e) cs' ->
    exists cs2, cs' = cs ++ cs2 /\ cuts_of first h' (d' ++ e) cs2.
  Proof.
    induction 1 as [h d|h d n cs h' d' F H IH]; intros e cs' H'; [exists cs'; auto|].
    assert (Q := fl_len _ L _ _ _ F). assert (F' := fl_ext _ L h d e n F).
    inversion H' as [h1 d1 N1|h1 d1 n1 cs1 F1 H1]; subst; [exfalso; exact (N1 n F')|].
    assert (n1 = n) as -> by exact (fl_fun _ L _ _ _ _ F1 F').
    rewrite firstn_app, skipn_app in H1. replace (n - length d)%nat with 0%nat in H1 by lia.
    rewrite firstn_O, app_nil_r, skipn_O in H1. destruct (IH e cs1 H1) as (cs2 & -> & G). exists cs2. auto.
  Qed.

  Lemma filter_le : forall A (f g : A -> bool) l, (forall x, f x = true -> g x = true) -> (length (filter f l) <= length (filter g l))%nat.
  Proof.
    intros A f g l H. induction l as [|x l IH]; cbn; [lia|]. destruct (f x) eqn:E; [rewrite (H x E); cbn; lia|]. destruct (g x); cbn; lia.
  Qed.

  Lemma feed_from_ok : forall blocks fuel s ct h c cs, R s h c -> (forall n, ~ first h c n) -> lim (length (h ++ c ++ concat blocks)) ->
    Forall (fun d => (length d + 1 < fuel)%nat) blocks -> (ct <= 5)%nat -> cuts_of first h (c ++ concat blocks) cs ->
    feed_from C fuel s ct blocks = Ok Enough \/
    exists s' ct', feed_from C fuel s ct blocks = Ok (Hungry s' ct') /\ (ct <= ct' <= 5)%nat /\
      (length (filter (inside (block_ends (length (h ++ c)) blocks)) cs) <= ct' - ct)%nat.
  Proof.
    induction blocks as [|d more IH]; intros fuel s ct h c cs HR HN Hl Hf Hct Hcs; cbn [concat feed_from block_ends] in *.
    - right. exists s, ct. split; [reflexivity|]. split; [lia|]. rewrite app_nil_r in Hcs. inversion Hcs as [? ? N|? ? n cs' F]; subst; [cbn; lia|].
      exfalso. exact (HN n F).
    - inversion Hf as [|? ? Hd Hmore]; subst. 
      assert (Hl1 : lim (length (h ++ c ++ d))) by (apply (D _ _) with (2 := Hl); rewrite !app_length; lia).
      destruct (feed_block_ok fuel s ct h c d HR HN Hl1) as [->|(s1 & ct1 & h1 & c1 & cs1 & -> & Hct1 & Eh & HR1 & HN1 & P1 & Cn)].
      { destruct c; lia. } { exact Hct. } { now left. }
      cbn [bind]. rewrite app_assoc in Hcs. destruct (path_cuts _ _ _ _ _ P1 _ _ Hcs) as (cs2 & -> & Hcs2).
      destruct (IH fuel s1 ct1 h1 c1 cs2 HR1 HN1) as [E|(s2 & ct2 & E & Hct2 & Cn2)]; try assumption; try lia.
      + rewrite app_assoc, Eh. now rewrite <- !app_assoc.
      + now left.
      + right. exists s2, ct2. split; [exact E|]. split; [lia|].
        assert (Le : length (h1 ++ c1) = (length (h ++ c) + length d)%nat) by (rewrite Eh, !app_length; lia). rewrite Le in Cn2.
        rewrite filter_app, app_length.
        assert (A : forall p, inside ((length (h ++ c) + length d)%nat :: block_ends (length (h ++ c) + length d) more) p = true ->
          negb (Nat.eqb p (length (h ++ c ++ d))) = true /\ inside (block_ends (length (h ++ c) + length d) more) p = true).
        { intros p. unfold inside. cbn [existsb]. rewrite negb_orb, andb_true_iff. intros [X Y]. split; [|exact Y].
          replace (length (h ++ c ++ d)) with (length (h ++ c) + length d)%nat by (rewrite !app_length; lia). exact X. }
        pose proof (filter_le _ _ _ cs1 (fun p X => proj1 (A p X))). pose proof (filter_le _ _ _ cs2 (fun p X => proj2 (A p X))). lia.
  Qed.

  (** ** Exactly what is counted, for blocks of one size

      A cut is silent when it is reported at the end of its block: when the bytes up to it are enough to see it ([forced]) and end a block. *)
  Section Exact.
    Variable B : nat.
    Variable forced : nat -> bool.
    Hypothesis HB : (1 <= B)%nat.
    Hypothesis Hforced : forall h d n, first h d n -> (forced n = true <-> first h (firstn n d) n).

    Definition loud (base : nat) (cs : list nat) : nat :=
      length (filter (fun '(n, p) => negb (andb (forced n) (Nat.eqb (p mod B) 0))) (combine (sizes base cs) cs)).

    Lemma loud_app : forall cs base cs2, loud base (cs ++ cs2) = (loud base cs + loud (last cs base) cs2)%nat.
    Proof.
      induction cs as [|q cs IH]; intros base cs2; [reflexivity|]. unfold loud in *. cbn [app sizes combine filter].
      assert (E : last (q :: cs) base = last cs q) by (destruct cs; [reflexivity|cbn; clear; revert n; induction cs as [|z cs IH]; intros y; [reflexivity|exact (IH z)]]).
      rewrite E. destruct (negb _); cbn [length]; rewrite IH; lia.
    Qed.

    Lemma path_last : forall h d cs h' d', cut_path first h d cs h' d' -> length h' = last cs (length h).
    Proof.
      induction 1 as [h d|h d n cs h' d' F H IH]; [reflexivity|]. assert (Q := fl_len _ L _ _ _ F). rewrite IH, app_length, firstn_length, Nat.min_l by lia.
      destruct cs as [|q cs]; [reflexivity|]. cbn. clear. revert q. induction cs as [|z cs IH]; intros q; [reflexivity|exact (IH z)].
    Qed.

    Lemma feed_block_exact : forall fuel s ct h c d, R s h c -> (forall n, ~ first h c n) -> lim (length (h ++ c ++ d)) ->
      (length d + (match c with [] => 0 | _ => 1 end) < fuel)%nat -> (ct <= 5)%nat ->
      (length (h ++ c ++ d) mod B = 0)%nat -> (length d <= B)%nat ->
      (feed_block C fuel s ct d = Ok Enough /\ exists cs h' d', cut_path first h (c ++ d) cs h' d' /\ (5 < ct + loud (length h) cs)%nat) \/
      exists s' h' c' cs, feed_block C fuel s ct d = Ok (Hungry s' (ct + loud (length h) cs)) /\ (ct + loud (length h) cs <= 5)%nat /\ h' ++ c' = h ++ c ++ d /\ R s' h' c' /\
        (forall n, ~ first h' c' n) /\ cut_path first h (c ++ d) cs h' c'.
    Proof.
      induction fuel as [|fuel IH]; intros s ct h c d HR HN Hl Hf Hct Hm Hd; [lia|]. cbn [feed_block].
      destruct (K s h c d HR HN Hl) as [(n & k & s' & F & En & -> & HR')|(s' & N & -> & HR')]; cbn [bind].
      - assert (Q := fl_len _ L _ _ _ F). assert (P1 := Pr _ _ _ F). rewrite app_length in Q. destruct (Nat.eqb_spec k (length d)) as [->|Hk].
        + assert (Z0 : loud (length h) [(length h + n)%nat] = 0%nat).
          { unfold loud. cbn [sizes combine filter]. replace (length h + n - length h)%nat with n by lia.
            replace (forced n) with true; [replace (length h + n)%nat with (length (h ++ c ++ d)) by (rewrite !app_length; lia); rewrite Hm; reflexivity|].
            symmetry. apply (Hforced _ _ _ F). rewrite firstn_all2 by (rewrite app_length; lia). exact F. }
          right. exists s', (h ++ c ++ d), [], [(length h + n)%nat]. rewrite Z0, Nat.add_0_r. split; [reflexivity|]. split; [exact Hct|]. split; [now rewrite app_nil_r|].
          rewrite firstn_all2 in HR' by (rewrite app_length; lia). split; [exact HR'|]. split; [apply (fl_nil _ L)|].
          apply path_cons; [exact F|]. rewrite firstn_all2, skipn_all2 by (rewrite app_length; lia). constructor.
        + assert (E1 : firstn n (c ++ d) = c ++ firstn k d).
          { rewrite firstn_app, firstn_all2 by lia. do 2 f_equal. lia. }
          assert (E2 : skipn n (c ++ d) = skipn k d).
          { rewrite skipn_app, skipn_all2 by lia. cbn. f_equal. lia. }
          assert (Z1 : forall cs, loud (length h) ((length h + n)%nat :: cs) = S (loud (length h + n) cs)).
          { intros cs. unfold loud. cbn [sizes combine filter]. replace (length h + n - length h)%nat with n by lia.
            replace (andb (forced n) (Nat.eqb ((length h + n) mod B) 0)) with false; [reflexivity|]. symmetry. apply not_true_is_false. intros X.
            apply andb_true_iff in X. destruct X as [X1 X2]. apply Nat.eqb_eq in X2. apply (Hforced _ _ _ F) in X1. rewrite E1 in X1.
            assert (Y : (length d - k = B)%nat).
            { rewrite !app_length in Hm. replace (length h + (length c + length d))%nat with ((length h + n) + (length d - k))%nat in Hm by lia.
              rewrite Nat.add_mod, X2 in Hm by lia. rewrite Nat.add_0_l, Nat.mod_mod in Hm by lia. destruct (Nat.eq_dec (length d - k) B) as [Y|Y]; [exact Y|].
              rewrite Nat.mod_small in Hm by lia. lia. }
            assert (k = 0%nat) as -> by lia. cbn [firstn] in X1. rewrite app_nil_r in X1. exact (HN _ X1). }
          destruct (Nat.ltb_spec 5 (ct + 1)) as [G|G].
          { left. split; [reflexivity|]. exists [(length h + n)%nat], (h ++ firstn n (c ++ d)), (skipn n (c ++ d)). split; [apply path_cons; [exact F|constructor]|]. rewrite Z1. lia. }
          assert (sub_slice d k (length d) = Ok (skipn k d)) as ->.
          { unfold sub_slice. replace (Nat.leb k (length d) && Nat.leb (length d) (length d)) with true.
            - f_equal. apply firstn_all2. rewrite skipn_length. lia.
            - symmetry. apply andb_true_iff. split; apply Nat.leb_le; lia. }
          cbn [bind].
          assert (E3 : (h ++ c ++ firstn k d) ++ [] ++ skipn k d = h ++ c ++ d) by (cbn [app]; now rewrite <- !app_assoc, firstn_skipn).
          rewrite E1 in HR'. assert (Lh : length (h ++ c ++ firstn k d) = (length h + n)%nat) by (rewrite !app_length, firstn_length; lia).
          destruct (IH s' (ct + 1)%nat (h ++ c ++ firstn k d) [] (skipn k d) HR' (fl_nil _ L _)) as [(E & cs & h2 & d2 & Pt & Cn)|(s2 & h2 & c2 & cs & E & Hct2 & Eh & HR2 & HN2 & Pt)].
          * now rewrite E3.
          * rewrite skipn_length. destruct c as [|x c]; cbn [length] in *; lia.
          * lia.
          * now rewrite E3.
          * rewrite skipn_length. lia.
          * left. split; [exact E|]. exists ((length h + n)%nat :: cs), h2, d2. split; [apply path_cons; [exact F|]; now rewrite E1, E2|]. rewrite Z1. rewrite Lh in Cn. lia.
          * right. rewrite Lh in *. exists s2, h2, c2, ((length h + n)%nat :: cs). rewrite Z1. replace (ct + S (loud (length h + n) cs))%nat with (ct + 1 + loud (length h + n) cs)%nat by lia.
            split; [exact E|]. split; [exact Hct2|]. split; [now rewrite Eh, E3|]. split; [exact HR2|]. split; [exact HN2|]. apply path_cons; [exact F|]. now rewrite E1, E2.
      - right. exists s', h, (c ++ d), []. rewrite Nat.add_0_r. split; [reflexivity|]. split; [lia|]. split; [reflexivity|]. split; [exact HR'|]. split; [exact N|constructor].
    Qed.

    Lemma feed_from_exact : forall blocks fuel s ct h c cs, R s h c -> (forall n, ~ first h c n) -> lim (length (h ++ c ++ concat blocks)) ->
      Forall (fun d => length d = B) blocks -> (B + 1 < fuel)%nat -> (ct <= 5)%nat -> (length (h ++ c) mod B = 0)%nat -> cuts_of first h (c ++ concat blocks) cs ->
      exists s', feed_from C fuel s ct blocks = Ok (if Nat.ltb 5 (ct + loud (length h) cs) then Enough else Hungry s' (ct + loud (length h) cs)).
    Proof.
      induction blocks as [|d more IH]; intros fuel s ct h c cs HR HN Hl Hb Hf Hct Hm Hcs; cbn [concat feed_from] in *.
      - exists s. rewrite app_nil_r in Hcs. inversion Hcs as [? ? N|? ? n cs' F]; subst; [|exfalso; exact (HN n F)]. 
        replace (loud (length h) []) with 0%nat by reflexivity. rewrite Nat.add_0_r. destruct (Nat.ltb_spec 5 ct); [lia|reflexivity].
      - inversion Hb as [|? ? Hd Hmore]; subst.
        assert (Hl1 : lim (length (h ++ c ++ d))) by (apply (D _ _) with (2 := Hl); rewrite !app_length; lia).
        assert (Hm1 : (length (h ++ c ++ d) mod B = 0)%nat).
        { rewrite app_assoc, app_length, Hd, Nat.add_mod, Hm, Nat.mod_same by lia. apply Nat.mod_0_l. lia. }
        rewrite app_assoc in Hcs.
        destruct (feed_block_exact fuel s ct h c d HR HN Hl1) as [(-> & cs1 & h1 & d1 & P1 & Cn)|(s1 & h1 & c1 & cs1 & -> & Hct1 & Eh & HR1 & HN1 & P1)]; try assumption.
        { destruct c; lia. } { lia. }
        + destruct (path_cuts _ _ _ _ _ P1 _ _ Hcs) as (cs2 & -> & Hcs2). rewrite loud_app. exists s. cbn [bind].
          destruct (Nat.ltb_spec 5 (ct + (loud (length h) cs1 + loud (last cs1 (length h)) cs2))); [reflexivity|lia].
        + cbn [bind]. destruct (path_cuts _ _ _ _ _ P1 _ _ Hcs) as (cs2 & -> & Hcs2).
          destruct (IH fuel s1 (ct + loud (length h) cs1)%nat h1 c1 cs2 HR1 HN1) as [s2 E]; try assumption.
          * rewrite app_assoc, Eh. now rewrite <- !app_assoc.
          * now rewrite Eh.
          * exists s2. rewrite E. rewrite loud_app, <- (path_last _ _ _ _ _ P1). now rewrite Nat.add_assoc.
    Qed.
  End Exact.

  Lemma cuts_inv : forall h d cs, cuts_of first h d cs ->
    ((forall n, ~ first h d n) /\ cs = []) \/ exists n cs', first h d n /\ cuts_of first (h ++ firstn n d) (skipn n d) cs' /\ cs = (length h + n)%nat :: cs'.
  Proof. intros h d cs [h0 d0 N|h0 d0 n cs' F H]; [left; auto|right; exists n, cs'; auto]. Qed.

  (** The bench loop. *)
  Lemma bench_from_ok : forall fuel s data h cs, R s h [] -> firstn (length h) data = h -> lim (length data) ->
    cuts_of first h (skipn (length h) data) cs -> (length data - length h < fuel)%nat ->
    bench_from C fuel s data (length h) = Ok (sizes (length h) cs).
  Proof.
    induction fuel as [|fuel IH]; intros s data h cs HR Eh Hl Hcs Hf; [lia|]. cbn [bench_from].
    assert (Hh : (length h <= length data)%nat) by (rewrite <- Eh, firstn_length; lia).
    assert (sub_slice data (length h) (length data) = Ok (skipn (length h) data)) as ->.
    { unfold sub_slice. replace (Nat.leb (length h) (length data) && Nat.leb (length data) (length data)) with true.
      - f_equal. apply firstn_all2. rewrite skipn_length. lia.
      - symmetry. apply andb_true_iff. split; apply Nat.leb_le; lia. }
    cbn [bind]. set (d := skipn (length h) data) in *.
    assert (Ed : h ++ d = data) by (rewrite <- Eh at 1; apply firstn_skipn).
    destruct (K s h [] d HR (fl_nil _ L _)) as [(n & k & s' & F & En & -> & HR')|(s' & N & -> & HR')]; [cbn [app]; now rewrite Ed| |]; cbn [bind app] in *.
    - destruct (cuts_inv _ _ _ Hcs) as [[N _]|(n1 & cs1 & F1 & H1 & ->)]; [exfalso; exact (N _ F)|]. subst n.
      assert (n1 = length (@nil byte) + k + 0)%nat as -> by exact (fl_fun _ L _ _ _ _ F1 F). cbn [length] in *. rewrite Nat.add_0_r in *. cbn [Nat.add] in *.
      assert (Q := fl_len _ L _ _ _ F). assert (P1 := Pr _ _ _ F).
      assert (Lk : length (h ++ firstn k d) = (length h + k)%nat) by (rewrite app_length, firstn_length; lia).
      assert (Ld : length d = (length data - length h)%nat) by apply skipn_length.
      assert (E := IH s' data (h ++ firstn k d) cs1 HR'). rewrite Lk in E. rewrite E; [| | | |lia].
      + cbn [sizes bind]. do 2 f_equal. lia.
      + rewrite <- Ed, firstn_app, firstn_all2 by lia. do 2 f_equal. lia.
      + exact Hl.
      + replace (skipn (length h + k) data) with (skipn k d) by (unfold d; rewrite skipn_skipn'; f_equal; lia). exact H1.
    - destruct (cuts_inv _ _ _ Hcs) as [[_ ->]|(n1 & cs1 & F1 & _ & _)]; [reflexivity|]. exfalso. exact (N _ F1).
  Qed.
End Feed.
