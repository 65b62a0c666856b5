(** * DriverAny: the repository's own callers with FastCdc of any sizes, also [normal_size > max_size]. *)

From Verif Require Import Base Api Tables Spec Lists Contract Step Words FastCdc FastCdcProofs FastCdcSafe FastCdcAny FastCdcTotal FastCdcExact CutFacts Drivers DriverProofs DriverFast.

Lemma firstn_plus : forall A (n m : nat) (l : list A), firstn n l ++ firstn m (skipn n l) = firstn (n + m) l.
Proof. intros A n m l. rewrite (skipn_firstn_split _ n (n + m) l) by lia. do 2 f_equal. lia. Qed.

Lemma cuts_from : forall first : first_rel, (forall h d n, first h d n -> n <= length d)%nat -> forall h d cs, cuts_of first h d cs -> Forall (fun x => length h <= x)%nat cs.
Proof.
  intros first Hn h d cs H. induction H as [h d N|h d n cs F H IH]; [constructor|]. constructor; [lia|]. eapply Forall_impl; [|exact IH].
  intros x Hx. cbv beta in Hx. rewrite app_length in Hx. lia.
Qed.

Section Any.
  Variable p : FastCdc.
  Hypothesis Hg : length (fc_gear p) = 256%nat.
  Hypothesis Hmin : 0 <= fc_min_size p.
  Let q := fc_up p.
  Let Hq : fastcdc_ok q := fc_up_ok p Hg Hmin.
  Let L : first_laws (fc_first q) := fc_laws q Hmin.

  (** ** [find_chunk_edge] on all that is left *)
  Inductive stroll : list byte -> list byte -> list nat -> bool -> Prop :=
  | stroll_end : forall h d, (forall n, ~ fc_first q h d n) -> ~ fc_cliff p d -> stroll h d [] false
  | stroll_past : forall h d, fc_cliff p d -> stroll h d [] true
  | stroll_cut : forall h d n cs past, fc_first q h d n -> (n < length d)%nat ->
      stroll (h ++ firstn (S n) d) (skipn (S n) d) cs past -> stroll h d ((length h + S n)%nat :: cs) past.

  (** One call at the start of a chunk. *)
  Lemma call : forall d, below_2_64 (length d) ->
    (exists n, (forall h, fc_first q h d n) /\ (n < length d)%nat /\ fastcdc_find_chunk_edge p fastcdc_state_default d = Ok (fastcdc_state_default, (Some (n + 1)%nat, (n + 1)%nat))) \/
    (fc_cliff p d /\ fastcdc_find_chunk_edge p fastcdc_state_default d = Ok (fastcdc_state_default, (Some (length d + 1)%nat, (length d + 1)%nat))) \/
    (exists s, (forall h n, ~ fc_first q h d n) /\ ~ fc_cliff p d /\ fastcdc_find_chunk_edge p fastcdc_state_default d = Ok (s, (None, length d))).
  Proof.
    intros d Hd. assert (N : forall n, ~ fc_first q [] [] n) by apply (fl_nil _ L).
    destruct (fc_find_alt p [] [] d fastcdc_state_default Hg Hmin (fc_default_rel p) N Hd) as [E|[E C]]; [|right; left; auto]. fold q in E.
    destruct (fc_find_spec q fastcdc_state_default [] [] d Hq (fc_default_rel q) N Hd) as [(n & k & F & En & E')|(s' & F & E' & _)]; rewrite E' in E; cbn [app length Nat.add] in *.
    - subst k. assert (Hn := fl_len _ L _ _ _ F). destruct (Nat.eq_dec n (length d)) as [X|X].
      + right. left. split; [|now rewrite E, X]. destruct (Z.eq_dec (fc_min_size p) (Z.of_nat (length d))) as [Y|Y]; [destruct F as (F1 & _); change (fc_min_size q) with (fc_min_size p) in F1; lia|].
        assert (O : fc_overrun q [] d (length d)). { split; [lia|]. rewrite firstn_all. rewrite X in F. exact F. }
        apply (fc_overrun_cliff p Hg Hmin) in O. now rewrite firstn_all in O.
      + left. exists n. split; [intros h; exact F|]. split; [lia|exact E].
    - right. right. exists s'. split; [intros h n; exact (F n)|]. split; [|exact E]. intros C.
      rewrite (fc_find_cliff p [] d fastcdc_state_default Hg Hmin (fc_default_rel p) Hd C) in E. discriminate.
  Qed.

  Lemma stroll_exists : forall m h d, (length d < m)%nat -> below_2_64 (length d) -> exists cs past, stroll h d cs past.
  Proof.
    induction m as [|m IH]; intros h d Hm Hl; [lia|]. destruct (call d Hl) as [(n & F & Hn & _)|[(C & _)|(s & N & C & _)]].
    - destruct (IH (h ++ firstn (S n) d) (skipn (S n) d)) as (cs & past & W).
      + rewrite skipn_length. lia.
      + unfold below_2_64 in *. rewrite skipn_length. lia.
      + eexists _, past. eapply stroll_cut; eauto.
    - exists [], true. now constructor.
    - exists [], false. constructor; auto.
  Qed.

  (** The cuts are those of the rule of [fc_up]. *)
  Lemma stroll_cuts : forall h d cs, stroll h d cs false -> cuts_of (fc_edge q) h d cs.
  Proof.
    intros h d cs W. remember false as b eqn:Eb. induction W as [h d N C|h d C|h d n cs past F Hn W IH]; [|discriminate|].
    - constructor. intros n (m & -> & _ & F). exact (N m F).
    - apply cuts_some; [exists n; auto|]. apply IH. exact Eb.
  Qed.
  Lemma stroll_path : forall h d cs, stroll h d cs true -> exists h' d', cut_path (fc_edge q) h d cs h' d' /\ fc_cliff p d'.
  Proof.
    intros h d cs W. remember true as b eqn:Eb. induction W as [h d N C|h d C|h d n cs past F Hn W IH]; [discriminate| |].
    - exists h, d. split; [constructor|exact C].
    - destruct (IH Eb) as (h' & d' & P & C). exists h', d'. split; [|exact C]. apply path_cons; [exists n; auto|exact P].
  Qed.

  Section Data.
    Variable data : list byte.
    Hypothesis Hlim : below_2_64 (length data).

    (** tests/cuts.rs *)
    Lemma whole_any : forall m base cs past, (base <= length data)%nat -> stroll (firstn base data) (skipn base data) cs past -> (length cs + 1 < m)%nat ->
      whole_splits_from (fastcdc_chunk p) m data fastcdc_state_default base base = outcome base cs past.
    Proof.
      induction m as [|m IH]; intros base cs past Hb W M; [lia|]. cbn [whole_splits_from]. unfold sub_slice at 1.
      destruct (Nat.leb_spec base (length data)); [|lia]. rewrite Nat.leb_refl. cbn [andb bind]. rewrite firstn_all2 by (rewrite skipn_length; lia).
      cbn [find_chunk_edge fastcdc_chunk]. set (d := skipn base data) in *. assert (Ld : length d = (length data - base)%nat) by apply skipn_length.
      assert (Hl : below_2_64 (length d)) by (unfold below_2_64 in *; lia).
      assert (Lf : length (firstn base data) = base) by (rewrite firstn_length; lia).
      destruct (call d Hl) as [(n & F & Hn & E)|[(C & E)|(s & N & C & E)]]; rewrite E; cbn [bind].
      - destruct (Nat.ltb_spec (base + (n + 1)) base); [lia|].
        assert (X : exists cs', cs = (base + S n)%nat :: cs' /\ stroll (firstn (base + S n) data) (skipn (base + S n) data) cs' past).
        { inversion W as [h0 d0 N0 C0|h0 d0 C0|h0 d0 n0 cs0 past0 F0 Hn0 W0]; subst.
          - exfalso. exact (N0 _ (F _)).
          - exfalso. apply (fc_cliff_edge p Hg) with (h := []) (n := S n) (d := d); [|exact C0]. exists n. split; [reflexivity|]. split; [exact Hn|exact (F [])].
          - assert (n0 = n) as -> by exact (fl_fun _ L _ _ _ _ F0 (F _)). exists cs0. rewrite Lf. split; [reflexivity|].
            unfold d in W0. rewrite skipn_skipn' in W0. rewrite firstn_plus in W0. exact W0. }
        destruct X as (cs' & -> & W'). replace (base + (n + 1))%nat with (base + S n)%nat by lia. cbn [length] in M. rewrite (IH (base + S n)%nat cs' past ltac:(lia) W' ltac:(lia)). apply outcome_cons.
      - assert (past = true /\ cs = []) as [-> ->].
        { inversion W as [h0 d0 N0 C0|h0 d0 C0|h0 d0 n0 cs0 past0 F0 Hn0 W0]; subst; [contradiction|split; reflexivity|].
          exfalso. apply (fc_cliff_edge p Hg) with (h := firstn base data) (n := S n0) (d := d); [|exact C]. exists n0. auto. }
        destruct (Nat.ltb_spec (base + (length d + 1)) base); [lia|]. destruct m as [|m]; [cbn in M; lia|]. cbn [whole_splits_from]. unfold sub_slice.
        destruct (Nat.leb_spec (base + (length d + 1)) (length data)); [lia|]. reflexivity.
      - assert (past = false /\ cs = []) as [-> ->].
        { inversion W as [h0 d0 N0 C0|h0 d0 C0|h0 d0 n0 cs0 past0 F0 Hn0 W0]; subst; [split; reflexivity|contradiction|]. exfalso. exact (N _ _ F0). }
        reflexivity.
    Qed.

    (** The loop in the documentation. *)
    Lemma doc_any : forall m base cs past, (base <= length data)%nat -> stroll (firstn base data) (skipn base data) cs past -> (length cs < m)%nat ->
      (past = true -> doc_loop_from (fastcdc_chunk p) m data fastcdc_state_default (skipn base data) base = Panic) /\
      (past = false -> exists chunks dropped, doc_loop_from (fastcdc_chunk p) m data fastcdc_state_default (skipn base data) base = Ok (chunks, []) /\
         map (@length byte) chunks = sizes base cs /\ skipn base data = concat chunks ++ dropped).
    Proof.
      induction m as [|m IH]; intros base cs past Hb W M; [lia|]. cbn [doc_loop_from]. cbn [find_chunk_edge fastcdc_chunk].
      set (d := skipn base data) in *. assert (Ld : length d = (length data - base)%nat) by apply skipn_length.
      assert (Hl : below_2_64 (length d)) by (unfold below_2_64 in *; lia).
      assert (Lf : length (firstn base data) = base) by (rewrite firstn_length; lia).
      destruct (call d Hl) as [(n & F & Hn & E)|[(C & E)|(s & N & C & E)]]; rewrite E; cbn [bind].
      - assert (X : exists cs', cs = (base + S n)%nat :: cs' /\ stroll (firstn (base + S n) data) (skipn (base + S n) data) cs' past).
        { inversion W as [h0 d0 N0 C0|h0 d0 C0|h0 d0 n0 cs0 past0 F0 Hn0 W0]; subst.
          - exfalso. exact (N0 _ (F _)).
          - exfalso. apply (fc_cliff_edge p Hg) with (h := []) (n := S n) (d := d); [|exact C0]. exists n. split; [reflexivity|]. split; [exact Hn|exact (F [])].
          - assert (n0 = n) as -> by exact (fl_fun _ L _ _ _ _ F0 (F _)). exists cs0. rewrite Lf. split; [reflexivity|].
            unfold d in W0. rewrite skipn_skipn' in W0. rewrite firstn_plus in W0. exact W0. }
        destruct X as (cs' & -> & W'). cbn [length] in M. destruct (IH (base + S n)%nat cs' past ltac:(lia) W' ltac:(lia)) as [I1 I2].
        unfold sub_usize. destruct (Nat.leb_spec (length d) (n + 1 + length data)); [|lia]. cbn [bind].
        replace (n + 1 + length data - length d)%nat with (base + S n)%nat by lia.
        unfold sub_slice. destruct (Nat.leb_spec base (base + S n)); [|lia]. destruct (Nat.leb_spec (base + S n) (length data)); [|lia]. cbn [andb bind].
        destruct (Nat.leb_spec (n + 1) (length d)); [|lia]. rewrite Nat.leb_refl. cbn [andb bind].
        rewrite (firstn_all2 (n := length d - (n + 1))) by (rewrite skipn_length; lia).
        replace (skipn (n + 1) d) with (skipn (base + S n) data) by (unfold d; rewrite skipn_skipn'; f_equal; lia).
        split; intros Hpa; [rewrite (I1 Hpa); reflexivity|]. destruct (I2 Hpa) as (chunks & dropped & -> & E1 & E2). cbn [bind]. eexists _, dropped. split; [reflexivity|].
        cbn [map sizes concat]. split.
        + rewrite E1. f_equal. rewrite firstn_length. fold d. lia.
        + rewrite <- app_assoc, <- E2. fold d. rewrite <- (firstn_skipn (base + S n - base) d) at 1. f_equal. unfold d. rewrite skipn_skipn'. f_equal. lia.
      - assert (past = true) as ->.
        { inversion W as [h0 d0 N0 C0|h0 d0 C0|h0 d0 n0 cs0 past0 F0 Hn0 W0]; subst; [contradiction|reflexivity|].
          exfalso. apply (fc_cliff_edge p Hg) with (h := firstn base data) (n := S n0) (d := d); [|exact C]. exists n0. auto. }
        split; [intros _|discriminate]. unfold sub_usize.
        destruct (Nat.leb_spec (length d) (length d + 1 + length data)); [|lia]. cbn [bind]. unfold sub_slice at 1.
        destruct (Nat.leb_spec (length d + 1 + length data - length d) (length data)); [lia|]. rewrite andb_false_r. reflexivity.
      - assert (past = false /\ cs = []) as [-> ->].
        { inversion W as [h0 d0 N0 C0|h0 d0 C0|h0 d0 n0 cs0 past0 F0 Hn0 W0]; subst; [split; reflexivity|contradiction|]. exfalso. exact (N _ _ F0). }
        split; [discriminate|]. intros _. unfold sub_slice. rewrite !Nat.leb_refl. cbn [andb bind]. rewrite Nat.sub_diag. cbn [firstn].
        exists [], d. now split.
    Qed.
  End Data.

  Theorem edges_any : forall data, below_2_64 (length data) -> exists cs past, stroll [] data cs past /\
    (exists enough, forall fuel, (enough <= fuel)%nat -> whole_splits (fastcdc_chunk p) fuel data = outcome 0 cs past) /\
    (exists enough, forall fuel, (enough <= fuel)%nat ->
       (past = true -> doc_loop (fastcdc_chunk p) fuel data = Panic) /\
       (past = false -> exists chunks dropped, doc_loop (fastcdc_chunk p) fuel data = Ok (chunks, []) /\
         map (@length byte) chunks = sizes 0 cs /\ data = concat chunks ++ dropped)).
  Proof.
    intros data Hl. destruct (stroll_exists (S (length data)) [] data ltac:(lia) Hl) as (cs & past & W).
    exists cs, past. split; [exact W|]. split.
    - exists (length cs + 2)%nat. intros fuel Hf. exact (whole_any data Hl fuel 0 cs past ltac:(lia) W ltac:(lia)).
    - exists (length cs + 1)%nat. intros fuel Hf. exact (doc_any data Hl fuel 0 cs past ltac:(lia) W ltac:(lia)).
  Qed.

  (** ** [push] byte by byte *)
  Definition fc_pace : FastCdc := if fc_normal_size p <=? fc_max_size p then p else fc_same p.
  Let r := fc_pace.
  Lemma pace_gear : fc_gear r = fc_gear p.
  Proof. unfold r, fc_pace. now destruct (_ <=? _). Qed.
  Lemma pace_min : fc_min_size r = fc_min_size p.
  Proof. unfold r, fc_pace. now destruct (_ <=? _). Qed.
  Lemma pace_rel : forall s c, fc_rel r s c <-> fc_rel p s c.
  Proof. intros s c. unfold fc_rel, fc_hash. rewrite pace_gear, pace_min. reflexivity. Qed.
  Lemma pace_laws : first_laws (fc_first r).
  Proof. apply fc_laws. rewrite pace_min. exact Hmin. Qed.

  Lemma pace_call : forall s h c v, fc_rel p s c -> (forall n, ~ fc_first r h c n) -> below_2_64 (length (h ++ c ++ [v])) ->
    (exists n k s', fc_first r h (c ++ [v]) n /\ n = (length c + k)%nat /\ fastcdc_state_push p s [v] = Ok (s', Some k) /\ fc_rel p s' []) \/
    (exists s', (forall n, ~ fc_first r h (c ++ [v]) n) /\ fastcdc_state_push p s [v] = Ok (s', None) /\ fc_rel p s' (c ++ [v])).
  Proof.
    intros s h c v HR HN Hl. unfold r, fc_pace in *. destruct (Z.leb_spec (fc_normal_size p) (fc_max_size p)) as [G|G].
    - destruct (fc_push_ok p (conj Hg (conj Hmin G)) s h c [v] HR HN Hl) as [(n & k & s' & F & En & E & HR')|(s' & F & E & HR')].
      + left. exists n, k, s'. rewrite Nat.add_0_r in En. auto.
      + right. exists s'. auto.
    - destruct (fc_same_call p Hg Hmin G s h c [v] HR HN Hl (or_intror (le_n 1))) as [(n & k & s' & F & En & E & HR')|(s' & F & E & HR')].
      + left. exists n, k, s'. rewrite Nat.add_0_r in En. auto.
      + right. exists s'. auto.
  Qed.

  Lemma byte_any_from : forall data, below_2_64 (length data) -> forall rest s h c, fc_rel p s c -> (forall n, ~ fc_first r h c n) -> data = h ++ c ++ rest ->
    exists cs, byte_splits_from (fastcdc_incr p) s (length h) (length (h ++ c)) rest = Ok (sizes (length h) cs) /\ cuts_of (fc_byte r) h (c ++ rest) cs.
  Proof.
    intros data Hlim. induction rest as [|v rest IH]; intros s h c HR HN Hd.
    - exists []. split; [reflexivity|]. rewrite app_nil_r. constructor. intros m (n & F & _). exact (HN n F).
    - cbn [byte_splits_from incr_push fastcdc_incr]. assert (Hl2 : below_2_64 (length (h ++ c ++ [v]))) by (unfold below_2_64 in *; rewrite Hd in Hlim; rewrite !app_length in *; cbn [length] in *; lia).
      assert (Er : c ++ v :: rest = (c ++ [v]) ++ rest) by (rewrite <- app_assoc; reflexivity).
      assert (Ls : (length (h ++ c) + 1)%nat = length (h ++ c ++ [v])) by (rewrite !app_length; cbn; lia).
      destruct (pace_call s h c v HR HN Hl2) as [(n & k & s' & F & En & Ef & HR')|(s' & F & Ef & HR')]; rewrite Ef; cbn [bind].
      + assert (Hk := fl_len _ pace_laws _ _ _ F).
        destruct (IH s' (h ++ c ++ [v]) []) as (cs & I1 & I2); [exact HR'|apply (fl_nil _ pace_laws)|rewrite Hd; cbn [app]; rewrite <- !app_assoc; reflexivity|].
        rewrite app_nil_r in I1. rewrite Ls, I1. assert (Lh : length (h ++ c ++ [v]) = (length h + (length c + 1))%nat) by (rewrite !app_length; reflexivity).
        unfold sub_usize. destruct (Nat.leb_spec (length h) (length (h ++ c ++ [v]))); [|lia]. cbn [bind].
        exists (length (h ++ c ++ [v]) :: cs). split; [reflexivity|]. rewrite Lh. apply cuts_some.
        * exists n. split; [rewrite Er; now apply (fl_ext _ pace_laws)|].
          destruct F as (F1 & F2 & F3 & F4). rewrite app_length in *. cbn [length] in *.
          destruct k as [|[|k]]; [| |lia].
          -- destruct (Z.ltb_spec (Z.of_nat n) (fc_max_size r)); cbn [orb]; [lia|].
             destruct (Z.leb_spec (Z.of_nat n) (fc_min_size r)); [lia|]. exfalso.
             apply (fc_none_stop r h c) with (m := n); auto; [lia|lia|]. left. assumption.
          -- destruct F3 as [F3|[F3 _]]; [|rewrite app_length in F3; cbn in F3; lia].
             destruct (Z.ltb_spec (Z.of_nat n) (fc_max_size r)); [lia|]. cbn [orb].
             destruct (Z.leb_spec (Z.of_nat n) (fc_min_size r)); [lia|]. lia.
        * rewrite Er. rewrite firstn_app, skipn_app, firstn_all2, skipn_all2 by (rewrite app_length; cbn; lia).
          replace (length c + 1 - length (c ++ [v]))%nat with 0%nat by (rewrite app_length; cbn; lia). rewrite firstn_O, skipn_O, app_nil_r. exact I2.
      + destruct (IH s' h (c ++ [v]) HR' F) as (cs & I1 & I2); [rewrite Hd, Er; reflexivity|]. exists cs. rewrite Er. split; [|exact I2].
        replace (length (h ++ c) + 1)%nat with (length (h ++ c ++ [v])) by (rewrite !app_length; cbn; lia). exact I1.
  Qed.

  Lemma byte_len : forall h d m, fc_byte r h d m -> (m <= length d)%nat.
  Proof.
    intros h d m (n & F & ->). assert (Hn := fl_len _ pace_laws _ _ _ F). destruct F as (F1 & F2 & F3 & F4).
    destruct (Z.ltb_spec (Z.of_nat n) (fc_max_size r)); cbn [orb]; [destruct F3 as [F3|[F3 _]]; lia|]. destruct (Z.leb_spec (Z.of_nat n) (fc_min_size r)); lia.
  Qed.

  Theorem bytes_any : forall data, below_2_64 (length data) -> exists cs, cuts_of (fc_byte r) [] data cs /\ byte_splits (fastcdc_incr p) data = Ok (sizes 0 cs).
  Proof.
    intros data Hl. destruct (byte_any_from data Hl data fastcdc_state_default [] [] (fc_default_rel p) (fl_nil _ pace_laws []) eq_refl) as (cs & E & W). exists cs. split; [exact W|exact E].
  Qed.

  (** ** The two compared *)
  Let M := forced_at (fc_min_size p) (fc_max_size p).
  (** [M] bytes at which the hash does not end the chunk. *)
  Definition fc_stuck (d : list byte) : Prop := M <= Z.of_nat (length d) /\ forall i, fc_min_size p <= Z.of_nat i < M -> ~ fc_hit p d i.

  Lemma flat_first : forall x h d n, fc_min_size x = fc_min_size p -> fc_max_size x <= fc_min_size p -> (fc_first x h d n <-> fc_min_size p < Z.of_nat (length d) /\ Z.of_nat n = fc_min_size p).
  Proof.
    intros x h d n E1 E2. unfold fc_first, fastcdc_first. rewrite E1. split.
    - intros (F1 & F2 & F3 & F4). split; [exact F1|]. destruct (Z.eq_dec (Z.of_nat n) (fc_min_size p)) as [X|X]; [exact X|]. exfalso. apply (F4 (Z.to_nat (fc_min_size p))); [lia|]. left. lia.
    - intros (F1 & F2). split; [exact F1|]. split; [lia|]. split; [left; lia|]. intros m Hm. lia.
  Qed.
  Lemma pace_flat : fc_top p <= fc_min_size p -> forall h d n, fc_first r h d n <-> fc_min_size p < Z.of_nat (length d) /\ Z.of_nat n = fc_min_size p.
  Proof.
    intros G h d n. apply flat_first; [exact pace_min|].
    unfold r, fc_pace, fc_top in *. destruct (Z.leb_spec (fc_normal_size p) (fc_max_size p)); [lia|]. unfold fc_same. destruct (Z.leb_spec (fc_normal_size p) (fc_min_size p)); cbn; lia.
  Qed.

  Lemma agree_flat : fc_top p <= fc_min_size p -> forall h d cs1, cuts_of (fc_byte r) h d cs1 -> forall cs past, stroll h d cs past -> past = false /\ cs = cs1.
  Proof.
    intros G.
    assert (Ar := pace_flat G). assert (Aq := fun h d n => flat_first q h d n eq_refl G).
    intros h d cs1 H. induction H as [h d N|h d m cs' (n & F & Em) H IH]; intros cs past W; inversion W as [h0 d0 N0 C0|h0 d0 C0|h0 d0 n0 cs0 past0 F0 Hn0 W0]; subst.
    - split; reflexivity.
    - destruct C0 as (C1 & C2 & C3). unfold fc_top in *. lia.
    - exfalso. eapply N. exists n0. split; [exact (proj2 (Ar _ _ _) (proj1 (Aq _ _ _) F0))|]. apply Aq in F0. rewrite pace_min. destruct (Z.leb_spec (Z.of_nat n0) (fc_min_size p)); [|lia]. now rewrite orb_true_r.
    - exfalso. apply (N0 n). exact (proj2 (Aq _ _ _) (proj1 (Ar _ _ _) F)).
    - destruct C0 as (C1 & C2 & C3). unfold fc_top in *. lia.
    - apply Ar in F. apply Aq in F0. assert (n0 = n) as -> by lia. rewrite pace_min in *. destruct (Z.leb_spec (Z.of_nat n) (fc_min_size p)); [|lia]. rewrite orb_true_r in *.
      destruct (IH cs0 past W0) as [-> ->]. split; reflexivity.
  Qed.

  Section Steep.
    Hypothesis Ht : fc_min_size p < fc_top p.
    Lemma pace_max : fc_max_size r = M.
    Proof.
      unfold M, r, fc_pace, fc_top, forced_at in *. destruct (Z.leb_spec (fc_normal_size p) (fc_max_size p)); [lia|]. unfold fc_same. destruct (Z.leb_spec (fc_normal_size p) (fc_min_size p)); [lia|reflexivity].
    Qed.
    Lemma M_bounds : fc_min_size p < M <= fc_top p /\ fc_max_size p <= M.
    Proof. unfold M, fc_top, forced_at in *. lia. Qed.
    Lemma pace_hit : forall d i, Z.of_nat i < M -> (fc_hit r d i <-> fc_hit p d i).
    Proof.
      intros d i Hi. unfold fc_hit. rewrite pace_gear, pace_min. unfold r, fc_pace. destruct (Z.leb_spec (fc_normal_size p) (fc_max_size p)) as [X|X]; [reflexivity|].
      unfold fc_same. destruct (Z.leb_spec (fc_normal_size p) (fc_min_size p)); [unfold fc_top in Ht; lia|]. cbn [fastcdc_new fc_normal_size]. fold M.
      unfold fastcdc_mask. assert (B := M_bounds). unfold fc_top in B. destruct (Z.ltb_spec (Z.of_nat i) M), (Z.ltb_spec (Z.of_nat i) (fc_normal_size p)); try lia; reflexivity.
    Qed.

    (** A chunk seen byte by byte. *)
    Lemma pace_first : forall h d n, fc_first r h d n <->
      fc_min_size p < Z.of_nat (length d) /\ fc_min_size p <= Z.of_nat n /\ (forall i, fc_min_size p <= Z.of_nat i < Z.of_nat n -> ~ fc_hit p d i) /\
      ((Z.of_nat n < M /\ (n < length d)%nat /\ fc_hit p d n) \/ (Z.of_nat n = M /\ (n <= length d)%nat)).
    Proof.
      intros h d n. unfold fc_first, fastcdc_first. rewrite pace_min, pace_max. unfold fastcdc_stop. rewrite pace_gear. assert (B := M_bounds).
      assert (HH : forall i, Z.of_nat i < M -> (bits_clear (fastcdc_fingerprint (fc_gear p) (Z.to_nat (fc_min_size p)) i d) (fastcdc_mask (fc_normal_size r) i) <-> fc_hit p d i)).
      { intros i Hi. rewrite <- pace_hit by exact Hi. unfold fc_hit. rewrite pace_gear, pace_min. reflexivity. }
      split.
      - intros (F1 & F2 & F3 & F4). split; [exact F1|]. split; [lia|].
        assert (Hn : Z.of_nat n <= M). { destruct (Z.le_gt_cases (Z.of_nat n) M) as [X|X]; [exact X|]. exfalso. apply (F4 (Z.to_nat M)); [lia|]. left. lia. }
        split.
        + intros i Hi X. apply (F4 i Hi). right. split; [lia|]. apply HH; [lia|exact X].
        + destruct (Z.eq_dec (Z.of_nat n) M) as [X|X]; [right; split; [exact X|lia]|left]. split; [lia|]. destruct F3 as [F3|[F3 F5]]; [lia|]. split; [exact F3|]. apply HH; [lia|exact F5].
      - intros (F1 & F2 & F3 & F4). split; [exact F1|]. split; [lia|]. split.
        + destruct F4 as [(F4 & F5 & F6)|(F4 & F5)]; [right; split; [exact F5|apply HH; assumption]|left; lia].
        + intros m Hm [X|[X Y]]; [lia|]. apply (F3 m Hm). apply HH; [lia|exact Y].
    Qed.
    Lemma up_first : forall h d n, fc_first q h d n -> fc_min_size p < Z.of_nat (length d) /\ fc_min_size p <= Z.of_nat n <= Z.of_nat (length d) /\
      (forall i, fc_min_size p <= Z.of_nat i < Z.of_nat n -> ~ fc_hit p d i) /\ (fc_top p <= Z.of_nat n \/ ((n < length d)%nat /\ fc_hit p d n)).
    Proof.
      intros h d n (F1 & F2 & F3 & F4). change (fc_min_size q) with (fc_min_size p) in *. change (fc_max_size q) with (fc_top p) in *. split; [exact F1|]. split; [exact F2|]. split.
      - intros i Hi X. apply (F4 i Hi). right. split; [lia|exact X].
      - destruct F3 as [F3|F3]; [left; exact F3|right; exact F3].
    Qed.
    Lemma hit_up : forall h d n, fc_min_size p <= Z.of_nat n < M -> (n < length d)%nat -> fc_hit p d n -> (forall i, fc_min_size p <= Z.of_nat i < Z.of_nat n -> ~ fc_hit p d i) -> fc_first q h d n.
    Proof.
      intros h d n H1 H2 H3 H4. assert (B := M_bounds). split; [change (fc_min_size p < Z.of_nat (length d)); lia|]. split; [change (fc_min_size p <= Z.of_nat n <= Z.of_nat (length d)); lia|]. split; [right; split; [exact H2|exact H3]|].
      intros m Hm [X|[X Y]]; [change (fc_top p <= Z.of_nat m) in X; lia|]. exact (H4 m Hm Y).
    Qed.
    Lemma stuck_first : forall h d, fc_stuck d -> fc_first r h d (Z.to_nat M).
    Proof. intros h d (S1 & S2). assert (B := M_bounds). apply pace_first. split; [lia|]. split; [lia|]. split; [intros i Hi; apply S2; lia|]. right. lia. Qed.

    Lemma agree_steep : forall h d cs1, cuts_of (fc_byte r) h d cs1 -> forall cs past, stroll h d cs past ->
      (Ok (sizes (length h) cs1) = outcome (length h) cs past <-> forall a, a = 0%nat \/ In (length h + a)%nat cs1 -> ~ fc_stuck (skipn a d)).
    Proof.
      assert (B := M_bounds).
      intros h d cs1 H. induction H as [h d N|h d m cs' (n & F & Em) H IH]; intros cs past W.
      - assert (N' : forall n, ~ fc_first r h d n).
        { intros n F. eapply N. exists n. split; [exact F|reflexivity]. }
        assert (S0 : ~ fc_stuck d) by (intros S; exact (N' _ (stuck_first h d S))).
        inversion W as [h0 d0 N0 C0|h0 d0 C0|h0 d0 n0 cs0 past0 F0 Hn0 W0]; subst.
        + split; [|reflexivity]. intros _ a [->|[]]. exact S0.
        + exfalso. apply S0. destruct C0 as (C1 & C2 & C3). unfold fc_stuck. assert (M <= Z.of_nat (length d)) by (unfold M, forced_at; lia). split; [assumption|]. intros i Hi. apply C3. lia.
        + exfalso. apply up_first in F0. destruct F0 as (F1 & F2 & F3 & F4). destruct (Z.lt_ge_cases (Z.of_nat n0) M) as [X|X].
          * apply (N' n0). apply pace_first. split; [exact F1|]. split; [lia|]. split; [exact F3|]. left. destruct F4 as [F4|F4]; [lia|]. auto.
          * apply S0. split; [lia|]. intros i Hi. apply F3. lia.
      - rewrite pace_max, pace_min in Em. apply pace_first in F. destruct F as (F1 & F2 & F3 & [(F4 & F5 & F6)|(F4 & F5)]).
        + assert (m = S n) as -> by (destruct (Z.ltb_spec (Z.of_nat n) M); [exact Em|lia]).
          assert (Fq := hit_up h d n ltac:(lia) F5 F6 F3).
          assert (Lh : length (h ++ firstn (S n) d) = (length h + S n)%nat) by (rewrite app_length, firstn_length; lia).
          inversion W as [h0 d0 N0 C0|h0 d0 C0|h0 d0 n0 cs0 past0 F0 Hn0 W0]; subst.
          * exfalso. exact (N0 _ Fq).
          * exfalso. destruct C0 as (C1 & C2 & C3). apply (C3 n); [lia|exact F6].
          * assert (n0 = n) as -> by exact (fl_fun _ L _ _ _ _ F0 Fq). specialize (IH cs0 past W0). rewrite Lh in IH.
            assert (Eq : Ok (sizes (length h) ((length h + S n)%nat :: cs')) = outcome (length h) ((length h + S n)%nat :: cs0) past <-> Ok (sizes (length h + S n) cs') = outcome (length h + S n) cs0 past).
            { unfold outcome. destruct past; [split; discriminate|]. cbn [sizes]. split; intros X; injection X as X; congruence. }
            rewrite Eq, IH. split.
            -- intros X a [->|[E|I]].
               ++ intros (_ & S2). exact (S2 n ltac:(cbn [skipn] in *; lia) F6).
               ++ assert (a = S n) as -> by lia. exact (X 0%nat (or_introl eq_refl)).
               ++ assert (A : (length h + S n <= length h + a)%nat).
                  { assert (Q := cuts_from _ byte_len _ _ _ H). rewrite Lh in Q. rewrite Forall_forall in Q. exact (Q _ I). }
                  replace a with (S n + (a - S n))%nat by lia. rewrite <- skipn_skipn'. apply X. right. replace (length h + S n + (a - S n))%nat with (length h + a)%nat by lia. exact I.
            -- intros X a Ha. rewrite skipn_skipn'. apply X. right. destruct Ha as [->|I]; [left; lia|right]. replace (length h + (S n + a))%nat with (length h + S n + a)%nat by lia. exact I.
        + assert (m = n) as ->. { destruct (Z.ltb_spec (Z.of_nat n) M); [lia|]. destruct (Z.leb_spec (Z.of_nat n) (fc_min_size p)); [lia|exact Em]. }
          assert (S0 : fc_stuck d). { split; [lia|]. intros i Hi. apply F3. lia. }
          split; [|intros X; exfalso; exact (X 0%nat (or_introl eq_refl) S0)]. intros X. exfalso.
          inversion W as [h0 d0 N0 C0|h0 d0 C0|h0 d0 n0 cs0 past0 F0 Hn0 W0]; subst; cbn [outcome] in X; try discriminate.
          destruct past; [discriminate|]. cbn [outcome sizes] in X. injection X as X _. apply up_first in F0. destruct F0 as (_ & G2 & G3 & G4).
          assert (Z.of_nat n <= Z.of_nat n0). { destruct (Z.le_gt_cases (Z.of_nat n) (Z.of_nat n0)) as [Y|Y]; [exact Y|]. destruct G4 as [G4|[_ G4]]; [lia|]. exfalso. exact (F3 n0 ltac:(lia) G4). }
          lia.
    Qed.
  End Steep.
End Any.
