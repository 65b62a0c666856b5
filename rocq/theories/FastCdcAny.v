(** * FastCdcAny: [find_chunk_edge] of FastCdc with any sizes, also [normal_size > max_size]. *)

From Verif Require Import Base Api Tables Spec Lists Contract Step Words CutFacts FastCdc FastCdcProofs FastCdcSafe.

(** The same configuration with a [max_size] of at least [normal_size]: whoever is not made to panic sees that one. *)
Definition fc_top (p : FastCdc) : Z := Z.max (fc_normal_size p) (fc_max_size p).
Definition fc_up (p : FastCdc) : FastCdc := fastcdc_new (fc_gear p) (fc_min_size p) (fc_normal_size p) (fc_top p).

Lemma fc_up_ok : forall p, length (fc_gear p) = 256%nat -> 0 <= fc_min_size p -> fastcdc_ok (fc_up p).
Proof. intros p Hg Hm. split; [exact Hg|]. split; [exact Hm|]. cbn. unfold fc_top. lia. Qed.

Lemma fc_up_same : forall p, fc_normal_size p <= fc_max_size p -> fc_up p = p.
Proof. intros [g mi ma no] H. unfold fc_up, fc_top, fastcdc_new. cbn in *. rewrite Z.max_r by lia. reflexivity. Qed.

(** A buffer that ends here is answered with one past its end. *)
Definition fc_cliff (p : FastCdc) (D : list byte) : Prop :=
  fc_min_size p < Z.of_nat (length D) /\ fc_max_size p <= Z.of_nat (length D) <= fc_top p /\
  forall i, fc_min_size p <= Z.of_nat i < Z.of_nat (length D) -> ~ fc_hit p D i.

Lemma fc_cliff_firstn : forall p d n, (n <= length d)%nat ->
  (fc_cliff p (firstn n d) <-> fc_min_size p < Z.of_nat n /\ fc_max_size p <= Z.of_nat n <= fc_top p /\
     forall i, fc_min_size p <= Z.of_nat i < Z.of_nat n -> ~ fc_hit p d i).
Proof.
  intros p d n Hn. unfold fc_cliff. rewrite firstn_length, Nat.min_l by exact Hn.
  assert (E : forall i, (i < n)%nat -> (fc_hit p (firstn n d) i <-> fc_hit p d i)).
  { intros i Hi. unfold fc_hit. rewrite <- (firstn_skipn n d) at 2. rewrite fc_fingerprint_app by (rewrite firstn_length; lia). reflexivity. }
  split; intros (A & B & C); (split; [exact A|]; split; [exact B|]; intros i Hi X; apply (C i Hi); apply E; [lia|exact X]).
Qed.

(** ** One call *)
Section Call.
  Variable p : FastCdc.
  Variables h c d : list byte.
  Variable s : FastCdcState.
  Hypothesis Hg : length (fc_gear p) = 256%nat.
  Hypothesis Hmin : 0 <= fc_min_size p.
  Hypothesis HR : fc_rel p s c.
  Hypothesis HN : forall n, ~ fc_first (fc_up p) h c n.
  Hypothesis HD : Z.of_nat (length (c ++ d)) < 2 ^ 64.

  Let i0 : nat := if Z.of_nat (length c) <=? fc_min_size p then Z.to_nat (fc_min_size p - Z.of_nat (length c)) else 0%nat.

  (** [push] after the bytes before [min_size] have been skipped. *)
  Definition fc_rest (q : FastCdc) : res (FastCdcState * option nat) :=
    r1 <- loop (S (length d)) (fastcdc_loop1 q d) (fc_at p c d i0) ;;
    match r1 with
    | Return _ k => Ok (fastcdc_state_default, Some k)
    | Next x | Break x =>
        r2 <- loop (S (length d)) (fastcdc_loop2 q d) x ;;
        match r2 with
        | Return _ k => Ok (fastcdc_state_default, Some k)
        | Next x | Break x => Ok ({| fc_l := Z.of_nat (length d) + Z.of_nat (length c); fc_fp := fl_fp x |}, None)
        end
    end.

  Lemma fc_push_rest : forall q, fc_min_size q = fc_min_size p ->
    fastcdc_state_push q s d =
    if Z.of_nat (length (c ++ d)) <=? fc_min_size p then Ok ({| fc_l := Z.of_nat (length d) + Z.of_nat (length c); fc_fp := fc_fp s |}, None) else fc_rest q.
  Proof.
    intros q Eq. destruct HR as (El & Ef).
    assert (LD : length (c ++ d) = (length c + length d)%nat) by apply app_length.
    unfold fastcdc_state_push, add_u64, two64. rewrite El, Eq.
    replace (Z.of_nat (length d) + Z.of_nat (length c) <? 2 ^ 64) with true by (symmetry; apply Z.ltb_lt; lia). cbn [bind].
    replace (Z.of_nat (length (c ++ d)) <=? fc_min_size p) with (Z.of_nat (length d) + Z.of_nat (length c) <=? fc_min_size p) by (rewrite LD; f_equal; lia).
    destruct (Z.leb_spec (Z.of_nat (length d) + Z.of_nat (length c)) (fc_min_size p)) as [G|G]; [reflexivity|].
    match goal with |- bind ?m _ = _ => assert (E0 : m = Ok (Z.of_nat (length c + i0), i0)) end.
    { unfold i0. destruct (Z.leb_spec (Z.of_nat (length c)) (fc_min_size p)) as [G1|G1].
      - unfold sub_u64. replace (Z.of_nat (length c) <=? fc_min_size p) with true by (symmetry; apply Z.leb_le; lia). cbn [bind].
        replace (Z.of_nat (length c) + (fc_min_size p - Z.of_nat (length c)) <? 2 ^ 64) with true by (symmetry; apply Z.ltb_lt; lia).
        cbn [bind]. do 2 f_equal. lia.
      - do 2 f_equal. lia. }
    rewrite E0. cbn [bind]. clear E0.
    assert (EX : {| fl_gi := Z.of_nat (length c + i0); fl_i := i0; fl_fp := fc_fp s |} = fc_at p c d i0).
    { unfold fc_at. f_equal. rewrite Ef. unfold i0. destruct (Z.leb_spec (Z.of_nat (length c)) (fc_min_size p)) as [G1|G1].
      - rewrite !fc_hash_short; [reflexivity| |lia]. rewrite firstn_length. lia.
      - rewrite Nat.add_0_r, firstn_app_le, firstn_all by lia. reflexivity. }
    rewrite EX. reflexivity.
  Qed.

  Lemma fc_i0 : fc_min_size p < Z.of_nat (length (c ++ d)) -> (i0 <= length d)%nat /\ (Z.to_nat (fc_min_size p) <= length c + i0)%nat /\
    (Z.of_nat (length c + i0) = fc_min_size p \/ (i0 = 0%nat /\ fc_min_size p < Z.of_nat (length c))).
  Proof. rewrite app_length. unfold i0. destruct (Z.leb_spec (Z.of_nat (length c)) (fc_min_size p)); lia. Qed.

  (** Nothing was found before. *)
  Lemma fc_clean : fc_min_size p < Z.of_nat (length c) -> Z.of_nat (length c) < fc_top p /\
    forall i, fc_min_size p <= Z.of_nat i < Z.of_nat (length c) -> ~ fc_hit p (c ++ d) i.
  Proof.
    intros G. assert (N := fc_none_stop (fc_up p) h c G HN). split.
    - destruct (Z.lt_ge_cases (Z.of_nat (length c)) (fc_top p)) as [X|X]; [exact X|]. exfalso. apply (N (length c)); [cbn; lia|]. left. exact X.
    - intros i Hi X. apply (N i); [cbn; lia|]. right. split; [lia|]. unfold fc_hit in X. rewrite fc_fingerprint_app in X by lia. exact X.
  Qed.

  (** The answer of the configuration with the higher maximum, or past the end. *)
  Lemma fc_push_alt : fastcdc_state_push p s d = fastcdc_state_push (fc_up p) s d \/
    (fastcdc_state_push p s d = Ok (fastcdc_state_default, Some (length d)) /\ fc_cliff p (c ++ d)).
  Proof.
    destruct (Z.le_gt_cases (fc_normal_size p) (fc_max_size p)) as [Gn|Gn]; [left; now rewrite fc_up_same|].
    rewrite (fc_push_rest p eq_refl), (fc_push_rest (fc_up p) eq_refl).
    destruct (Z.leb_spec (Z.of_nat (length (c ++ d))) (fc_min_size p)) as [G|G]; [now left|].
    destruct (fc_i0 G) as (H1 & H2 & H3). assert (LD : length (c ++ d) = (length c + length d)%nat) by apply app_length.
    unfold fc_rest. change (fastcdc_loop1 (fc_up p) d) with (fastcdc_loop1 p d).
    destruct (fc_loop1 p c d Hg HD (S (length d)) i0) as [(k & x & _ & _ & _ & _ & ->)|(k & A1 & A2 & A3 & ->)]; try lia; cbn [bind]; [now left|].
    assert (R : forall q, fc_max_size q <= Z.of_nat (length c + k) -> loop (S (length d)) (fastcdc_loop2 q d) (fc_at p c d k) = Ok (Return (fc_at p c d k) k)).
    { intros q Hq. cbn [loop]. unfold fastcdc_loop2 at 1. cbn [fc_at fl_gi fl_i]. rewrite (proj2 (Z.leb_le _ _) Hq). reflexivity. }
    assert (B : forall q, Z.of_nat (length c + k) < fc_max_size q -> k = length d -> loop (S (length d)) (fastcdc_loop2 q d) (fc_at p c d k) = Ok (Break (fc_at p c d k))).
    { intros q Hq ->. cbn [loop]. unfold fastcdc_loop2 at 1. cbn [fc_at fl_gi fl_i]. rewrite (proj2 (Z.leb_gt _ _) Hq), Nat.leb_refl. reflexivity. }
    assert (T : fc_max_size (fc_up p) = fc_normal_size p) by (cbn; unfold fc_top; lia).
    destruct (Z.le_gt_cases (fc_max_size p) (Z.of_nat (length c + k))) as [M|M].
    - rewrite (R p M). destruct (Z.le_gt_cases (fc_normal_size p) (Z.of_nat (length c + k))) as [N|N]; [left; rewrite R by lia; reflexivity|].
      destruct A2 as [A2|A2]; [|lia]. subst k. right. split; [reflexivity|]. split; [lia|]. unfold fc_top. rewrite Z.max_l by lia. split; [lia|].
      intros i Hi X. destruct (Nat.lt_ge_cases i (length c + i0)) as [Y|Y].
      + destruct H3 as [H3|[H3 H4]]; [lia|]. apply (proj2 (fc_clean H4) i); [lia|exact X].
      + destruct (A3 (i - length c)%nat ltac:(lia)) as [_ Z]. apply Z. replace (length c + (i - length c))%nat with i by lia. exact X.
    - destruct A2 as [A2|A2]; [|lia]. rewrite (B p M A2), (B (fc_up p)) by lia. now left.
  Qed.

  Lemma fc_push_cliff : fc_cliff p (c ++ d) -> fastcdc_state_push p s d = Ok (fastcdc_state_default, Some (length d)).
  Proof.
    intros (C1 & C2 & C3). rewrite (fc_push_rest p eq_refl).
    destruct (Z.leb_spec (Z.of_nat (length (c ++ d))) (fc_min_size p)) as [G|G]; [lia|].
    destruct (fc_i0 G) as (H1 & H2 & H3). assert (LD : length (c ++ d) = (length c + length d)%nat) by apply app_length.
    unfold fc_rest.
    destruct (fc_loop1 p c d Hg HD (S (length d)) i0) as [(k & x & A1 & A2 & A3 & _)|(k & A1 & A2 & A3 & ->)]; try lia; cbn [bind].
    - exfalso. apply (C3 (length c + k)%nat); [lia|exact A3].
    - destruct (fc_loop2 p c d Hg HD (S (length d)) k) as [(k2 & x & B1 & B2 & B3 & ->)|(B1 & _)]; try lia; cbn [bind].
      destruct (Nat.eq_dec k2 (length d)) as [->|X]; [reflexivity|]. exfalso.
      destruct B2 as [B2|[_ B2]]; [|apply (C3 (length c + k2)%nat); [lia|exact B2]].
      unfold fc_top in C2. lia.
  Qed.

  Lemma fc_find_alt : fastcdc_find_chunk_edge p s d = fastcdc_find_chunk_edge (fc_up p) s d \/
    (fastcdc_find_chunk_edge p s d = Ok (fastcdc_state_default, (Some (length d + 1), length d + 1))%nat /\ fc_cliff p (c ++ d)).
  Proof.
    unfold fastcdc_find_chunk_edge. destruct fc_push_alt as [E|[E C]]; rewrite E; [now left|right]. split; [reflexivity|exact C].
  Qed.
  Lemma fc_find_cliff : fc_cliff p (c ++ d) -> fastcdc_find_chunk_edge p s d = Ok (fastcdc_state_default, (Some (length d + 1), length d + 1))%nat.
  Proof. intros C. unfold fastcdc_find_chunk_edge. now rewrite fc_push_cliff. Qed.
End Call.

Lemma fc_up_rel : forall p s c, fc_rel (fc_up p) s c <-> fc_rel p s c.
Proof. reflexivity. Qed.

(** ** Whole runs *)
Section Runs.
  Variable p : FastCdc.
  Variable shrink : bool.
  Variable data : list byte.
  Hypothesis Hg : length (fc_gear p) = 256%nat.
  Hypothesis Hmin : 0 <= fc_min_size p.
  Hypothesis Hl : below_2_64 (length data).
  Let q := fc_up p.
  Let Hq : fastcdc_ok q := fc_up_ok p Hg Hmin.

  Lemma fc_drive_alt : forall sched s h c base lo seen none,
    fc_rel q s c -> (forall n, ~ fc_first q h c n) -> firstn base data = h ++ c -> base = length (h ++ c) ->
    (base <= lo <= length data)%nat ->
    drive_chunk shrink (fastcdc_find_chunk_edge p) data sched s base lo seen none = drive_chunk shrink (fastcdc_find_chunk_edge q) data sched s base lo seen none \/
    (drive_chunk shrink (fastcdc_find_chunk_edge p) data sched s base lo seen none = Panic /\
     exists cs h' m, cut_path (fc_edge q) h (skipn (length h) data) cs h' (skipn (length h') data) /\
       (m <= length (skipn (length h') data))%nat /\ fc_cliff p (firstn m (skipn (length h') data))).
  Proof.
    assert (H0 : 0 <= fc_min_size q) by exact Hmin. assert (L := fc_edge_laws q H0).
    induction sched as [|g sched IH]; intros s h c base lo seen none HR HN HE HB HL; [now left|].
    cbn [drive_chunk]. set (hi := Nat.min (length data) (Nat.max lo (base + g))).
    assert (Hhi : (base <= hi <= length data)%nat) by (unfold hi; lia).
    set (d := firstn (hi - base) (skipn base data)) in *.
    assert (Ld : length d = (hi - base)%nat) by (unfold d; rewrite firstn_length, skipn_length; lia).
    assert (Ehi : firstn hi data = h ++ c ++ d).
    { rewrite (skipn_firstn_split _ base hi) by lia. now rewrite HE, <- app_assoc. }
    assert (Esk : skipn (length h) data = (c ++ d) ++ skipn hi data).
    { rewrite <- (firstn_skipn hi data) at 1. rewrite Ehi, <- app_assoc, skipn_app_ge, Nat.sub_diag by lia. reflexivity. }
    assert (Hlim : below_2_64 (length (h ++ c ++ d))).
    { rewrite <- Ehi. eapply below_down; [|exact Hl]. rewrite firstn_length. lia. }
    assert (HD : Z.of_nat (length (c ++ d)) < 2 ^ 64) by (unfold below_2_64 in Hlim; rewrite app_length in Hlim; lia).
    destruct (fc_find_alt p h c d s Hg Hmin HR HN HD) as [->|[-> C]]; fold q; cbn [bind].
    2:{ right. destruct (Nat.ltb_spec (length d) (length d + 1)) as [G|G]; [|lia]. split; [reflexivity|].
        exists [], h, (length (c ++ d)). split; [constructor|]. rewrite Esk. split; [rewrite !app_length; lia|].
        rewrite firstn_app_le, firstn_all by lia. exact C. }
    destruct (fc_find_spec q s h c d Hq HR HN Hlim) as [(n & k & F & En & ->)|(s' & N & -> & HR')]; cbn [bind].
    + assert (Hn := fl_len _ (fc_laws q H0) _ _ _ F). rewrite (app_length c) in Hn.
      destruct (Nat.ltb_spec (length d) (k + 1)) as [G|G]; [now left|].
      rewrite app_length in HB.
      assert (Hh' : length (h ++ firstn (S n) (c ++ d)) = (length h + S n)%nat) by (rewrite app_length, firstn_length, app_length; lia).
      assert (Fe : fc_edge q h (skipn (length h) data) (S n)).
      { rewrite Esk. apply (fl_ext _ L). exists n. split; [reflexivity|]. split; [rewrite app_length; lia|exact F]. }
      assert (EP : h ++ firstn (S n) (c ++ d) = h ++ firstn (S n) (skipn (length h) data)).
      { f_equal. rewrite Esk. symmetry. apply firstn_app_le. rewrite app_length. lia. }
      edestruct (IH fastcdc_state_default (h ++ firstn (S n) (c ++ d)) [] (base + (k + 1))%nat) as [E|(E & cs & h' & m & P & Q)].
      * apply fc_default_rel.
      * intros m Fm. apply (fl_nil _ (fc_laws q H0) _ _ Fm).
      * rewrite app_nil_r. replace (base + (k + 1))%nat with (length h + S n)%nat by lia. rewrite <- Hh'.
        assert (Y : firstn (length (h ++ firstn (S n) (c ++ d))) data = firstn (length (h ++ firstn (S n) (c ++ d))) (firstn hi data)).
        { rewrite firstn_firstn, Nat.min_l; [reflexivity|]. rewrite Hh'. lia. }
        rewrite Y, Ehi. rewrite <- (firstn_skipn (S n) (c ++ d)) at 2. rewrite app_assoc.
        rewrite firstn_app_le by lia. apply firstn_all2. lia.
      * rewrite app_nil_r. lia.
      * instantiate (1 := if shrink then (base + (k + 1))%nat else hi). destruct shrink; lia.
      * left. rewrite E. reflexivity.
      * right. rewrite E. cbn [bind]. split; [reflexivity|]. exists ((length h + S n)%nat :: cs), h', m. split; [|exact Q].
        econstructor; [exact Fe|]. rewrite skipn_skipn', <- Hh', <- EP. exact P.
    + destruct (Nat.ltb_spec (length d) (length d)) as [G|G]; [lia|].
      apply (IH _ h (c ++ d)); [exact HR'|exact N| | |lia].
      * replace (base + length d)%nat with hi by lia. exact Ehi.
      * rewrite app_assoc, (app_length (h ++ c)). lia.
  Qed.

  Definition fc_fallen : Prop := exists cs h d m, cut_path (fc_edge q) [] data cs h d /\ (m <= length d)%nat /\ fc_cliff p (firstn m d).

  Lemma fc_run_alt : forall sched,
    run_chunk shrink (fastcdc_chunk p) data sched = run_chunk shrink (fastcdc_chunk q) data sched \/
    (run_chunk shrink (fastcdc_chunk p) data sched = Panic /\ fc_fallen).
  Proof.
    intros sched. destruct (fc_drive_alt sched fastcdc_state_default [] [] 0%nat 0%nat 0%nat false) as [E|(E & cs & h & m & P & Q)].
    - apply fc_default_rel.
    - intros n. apply fc_start. exact Hmin.
    - reflexivity.
    - reflexivity.
    - lia.
    - left. exact E.
    - right. split; [exact E|]. exists cs, h, (skipn (length h) data), m. split; [exact P|exact Q].
  Qed.

  Lemma fc_overrun_cliff : forall h d m, fc_overrun q h d m -> fc_cliff p (firstn m d).
  Proof.
    intros h d m O. assert (O' := proj1 (fc_overrun_iff q h d Hmin) (ex_intro _ m O)). destruct O' as ((O1 & O2) & O3). change (fc_max_size q) with (fc_top p) in *. change (fc_min_size q) with (fc_min_size p) in *.
    destruct O as (Hm & F1 & F2 & F3 & F4). change (fc_min_size q) with (fc_min_size p) in *. rewrite firstn_length, Nat.min_l in F1, F2 by exact Hm.
    assert (E : Z.of_nat m = fc_top p).
    { destruct F3 as [F3|[F3 _]]; [|rewrite firstn_length in F3; lia]. change (fc_max_size q) with (fc_top p) in F3.
      destruct (Z.le_gt_cases (Z.of_nat m) (fc_top p)) as [X|X]; [lia|]. exfalso. apply (F4 (Z.to_nat (fc_top p))); [lia|left; change (fc_max_size q) with (fc_top p); lia]. }
    apply fc_cliff_firstn; [exact Hm|]. split; [lia|]. split; [unfold fc_top in *; lia|]. intros i Hi. rewrite E in Hi. exact (O3 i Hi).
  Qed.

  (** A panic needs a cliff. *)
  Lemma fc_panic_fallen : forall sched, run_chunk shrink (fastcdc_chunk p) data sched = Panic -> fc_fallen.
  Proof.
    intros sched E. destruct (fc_run_alt sched) as [X|[_ X]]; [|exact X]. rewrite X in E.
    destruct (fc_run_trace q shrink data sched Hq Hl) as [(r & h & E' & _)|(_ & cs & h & d & P & m & O)]; [congruence|].
    exists cs, h, d, m. split; [exact P|]. split; [exact (proj1 O)|]. exact (fc_overrun_cliff h d m O).
  Qed.

  Lemma fc_drive_path_any : forall cs h d h' d' tail,
    cut_path (fc_edge q) h d cs h' d' -> h ++ d = data ->
    forall seen none, exists sched seen' none', 
    (drive_chunk shrink (fastcdc_find_chunk_edge p) data tail fastcdc_state_default (length h') (length h') seen' none' = Panic ->
     drive_chunk shrink (fastcdc_find_chunk_edge p) data (sched ++ tail) fastcdc_state_default (length h) (length h) seen none = Panic).
  Proof.
    assert (H0 : 0 <= fc_min_size q) by exact Hmin.
    intros cs h d h' d' tail P. induction P as [h d|h d m cs h' d' F P IH]; intros E seen none.
    - exists [], seen, none. auto.
    - destruct F as (n & -> & Hn & F).
      assert (Lf : length (firstn (S n) d) = S n) by (rewrite firstn_length; lia).
      destruct (IH ltac:(rewrite <- app_assoc, firstn_skipn; exact E) (length h + S n)%nat false) as (sched & seen' & none' & H).
      exists (S n :: sched), seen', none'. intros EX. specialize (H EX). cbn [app drive_chunk].
      assert (LE : length data = (length h + length d)%nat) by (rewrite <- E; apply app_length).
      replace (Nat.min (length data) (Nat.max (length h) (length h + S n))) with (length h + S n)%nat by lia.
      replace (length h + S n - length h)%nat with (S n) by lia.
      assert (Es : firstn (S n) (skipn (length h) data) = firstn (S n) d).
      { rewrite <- E, skipn_app_ge, Nat.sub_diag by lia. reflexivity. }
      rewrite Es.
      assert (Hlim : below_2_64 (length (h ++ [] ++ firstn (S n) d))).
      { eapply below_down; [|exact Hl]. cbn [app]. rewrite app_length. lia. }
      assert (F' : fc_first q h ([] ++ firstn (S n) d) n).
      { cbn [app]. apply (fl_mono _ (fc_laws q H0) _ _ (skipn (S n) d)); [rewrite firstn_skipn; exact F|lia]. }
      assert (NN : forall j, ~ fc_first q h [] j) by (intros j Fj; apply (fl_nil _ (fc_laws q H0) _ _ Fj)).
      destruct (fc_find_alt p h [] (firstn (S n) d) fastcdc_state_default Hg Hmin (fc_default_rel p) NN) as [->|[-> _]].
      { unfold below_2_64 in Hlim. rewrite app_length in Hlim. lia. }
      2:{ cbn [bind]. destruct (Nat.ltb_spec (length (firstn (S n) d)) (length (firstn (S n) d) + 1)) as [G|G]; [reflexivity|lia]. }
      fold q. destruct (fc_find_spec q fastcdc_state_default h [] (firstn (S n) d) Hq (fc_default_rel q) NN Hlim) as [(n2 & k & F2 & En & ->)|(s' & N & _)].
      + assert (n2 = n) by (eapply (fl_fun _ (fc_laws q H0)); eauto). cbn [length] in En. subst n2. assert (k = n) as -> by lia.
        cbn [bind]. rewrite Lf. destruct (Nat.ltb_spec (S n) (n + 1)) as [G|G]; [lia|].
        rewrite (app_length h), Lf in H. replace (length h + (n + 1))%nat with (length h + S n)%nat by lia.
        destruct shrink; rewrite H; reflexivity.
      + exfalso. exact (N n F').
  Qed.

  Lemma fc_fallen_panics : fc_fallen -> exists sched, run_chunk shrink (fastcdc_chunk p) data sched = Panic.
  Proof.
    intros (cs & h & d & m & P & Hm & C).
    assert (E := cut_path_app _ _ _ _ _ _ P). cbn [app] in E.
    destruct (fc_drive_path_any cs [] data h d [m] P eq_refl 0%nat false) as (sched & seen' & none' & H).
    exists (sched ++ [m]). apply H. cbn [drive_chunk].
    assert (LE : length data = (length h + length d)%nat) by (rewrite E; apply app_length).
    replace (Nat.min (length data) (Nat.max (length h) (length h + m))) with (length h + m)%nat by lia.
    replace (length h + m - length h)%nat with m by lia.
    assert (Es : firstn m (skipn (length h) data) = firstn m d).
    { rewrite E, skipn_app_ge, Nat.sub_diag by lia. reflexivity. }
    rewrite Es, (fc_find_cliff p [] (firstn m d) fastcdc_state_default Hg Hmin (fc_default_rel p)); [| |exact C].
    - cbn [bind]. destruct (Nat.ltb_spec (length (firstn m d)) (length (firstn m d) + 1)) as [G|G]; [reflexivity|lia].
    - cbn [app]. rewrite firstn_length. unfold below_2_64 in Hl. lia.
  Qed.

  (** A caller that always shows everything. *)
  Lemma fc_cliff_edge : forall h d n, fc_edge q h d n -> ~ fc_cliff p d.
  Proof.
    intros h d n (m & -> & Hm & (F1 & F2 & F3 & F4)) (C1 & C2 & C3). change (fc_min_size q) with (fc_min_size p) in *.
    destruct F3 as [F3|[_ F3]]; [change (fc_max_size q) with (fc_top p) in F3; lia|]. apply (C3 m); [lia|exact F3].
  Qed.

  Lemma fc_drive_all_any : forall n h d lo seen none,
    h ++ d = data -> (length h <= lo <= length data)%nat -> (length d < n)%nat ->
    (drive_chunk shrink (fastcdc_find_chunk_edge p) data (repeat (length data) n) fastcdc_state_default (length h) lo seen none = Panic <->
     exists cs h' d', cut_path (fc_edge q) h d cs h' d' /\ fc_cliff p d').
  Proof.
    assert (H0 : 0 <= fc_min_size q) by exact Hmin. assert (L := fc_laws q H0).
    induction n as [|n IH]; intros h d lo seen none E HL Hn; [lia|].
    assert (LE : length data = (length h + length d)%nat) by (rewrite <- E; apply app_length).
    cbn [repeat drive_chunk]. replace (Nat.min (length data) (Nat.max lo (length h + length data))) with (length data) by lia.
    assert (Es : firstn (length data - length h) (skipn (length h) data) = d).
    { rewrite <- E at 2. rewrite skipn_app_ge, Nat.sub_diag by lia. apply firstn_all2. cbn. lia. }
    rewrite Es.
    assert (NN : forall j, ~ fc_first q h [] j) by (intros j Fj; apply (fl_nil _ L _ _ Fj)).
    assert (HD : Z.of_nat (length ([] ++ d)) < 2 ^ 64) by (cbn [app]; unfold below_2_64 in Hl; lia).
    destruct (fc_find_alt p h [] d fastcdc_state_default Hg Hmin (fc_default_rel p) NN HD) as [E1|[E1 C]].
    2:{ rewrite E1. cbn [bind]. destruct (Nat.ltb_spec (length d) (length d + 1)) as [G|G]; [|lia]. split; [|reflexivity]. intros _. exists [], h, d. split; [constructor|exact C]. }
    assert (C : fc_cliff p d -> fastcdc_find_chunk_edge p fastcdc_state_default d = Ok (fastcdc_state_default, (Some (length d + 1), length d + 1))%nat)
      by (exact (fc_find_cliff p [] d fastcdc_state_default Hg Hmin (fc_default_rel p) HD)).
    rewrite E1 in C |- *. fold q in C |- *. clear E1.
    destruct (fc_find_spec q fastcdc_state_default h [] d Hq (fc_default_rel q) NN) as [(m & k & F & En & E2)|(s' & N & E2 & HR)].
    - cbn [app]. rewrite E. exact Hl.
    - rewrite E2. cbn [length app] in *. assert (k = m) by lia. subst k. clear En. cbn [bind].
      assert (Hm := fl_len _ L _ _ _ F).
      destruct (Nat.ltb_spec (length d) (m + 1)) as [G|G].
      + assert (m = length d) by lia. subst m. split; [|reflexivity]. intros _. exists [], h, d. split; [constructor|].
        rewrite <- (firstn_all d). apply (fc_overrun_cliff h). split; [lia|]. now rewrite firstn_all.
      + assert (Fe : fc_edge q h d (S m)) by (exists m; split; [reflexivity|split; [lia|exact F]]).
        assert (Lf : length (h ++ firstn (S m) d) = (length h + (m + 1))%nat) by (rewrite app_length, firstn_length; lia).
        assert (I2 := fun lo seen => IH (h ++ firstn (S m) d) (skipn (S m) d) lo seen false).
        rewrite Lf in I2. rewrite <- app_assoc, firstn_skipn, skipn_length in I2.
        specialize (I2 (if shrink then (length h + (m + 1))%nat else length data) (length data) E).
        specialize (I2 ltac:(destruct shrink; lia) ltac:(lia)).
        split.
        * intros X. destruct (drive_chunk shrink (fastcdc_find_chunk_edge p) data (repeat (length data) n) fastcdc_state_default (length h + (m + 1))
            (if shrink then (length h + (m + 1))%nat else length data) (length data) false) as [r2| |] eqn:E3; try discriminate X.
          destruct (proj1 I2 eq_refl) as (cs & h' & d' & P & Q). exists ((length h + S m)%nat :: cs), h', d'. split; [|exact Q]. econstructor; eauto.
        * intros (cs & h' & d' & P & Q). inversion P as [|? ? m' cs' ? ? F' P']; subst.
          { exfalso. exact (fc_cliff_edge _ _ _ Fe Q). }
          assert (m' = S m) as -> by (eapply (fl_fun _ (fc_edge_laws q H0)); eauto).
          rewrite (proj2 I2); [reflexivity|]. exists cs', h', d'. auto.
    - rewrite E2 in C |- *. cbn [app length] in *. cbn [bind]. rewrite Nat.ltb_irrefl.
      assert (NC : ~ fc_cliff p d) by (intros X; specialize (C X); discriminate C).
      assert (I2 : forall X : Prop, (exists cs h' d', cut_path (fc_edge q) h d cs h' d' /\ fc_cliff p d') -> X).
      { intros X (cs & h' & d' & P & Q). exfalso. destruct (fc_path_none q h d cs h' d' N P) as [-> ->]. exact (NC Q). }
      split; [|intros X; exact (I2 _ X)]. intros X. exfalso. revert X.
      assert (G : forall k st l sn nn, fc_rel q st d -> (length data <= l)%nat -> 
        drive_chunk shrink (fastcdc_find_chunk_edge p) data (repeat (length data) k) st (length h + length d) l sn nn <> Panic).
      { induction k as [|k IHk]; intros st l sn nn Hst Hlo; [discriminate|]. cbn [repeat drive_chunk].
        replace (Nat.min (length data) (Nat.max l (length h + length d + length data))) with (length data) by lia.
        replace (length data - (length h + length d))%nat with 0%nat by lia. cbn [firstn].
        assert (HD' : Z.of_nat (length (d ++ [])) < 2 ^ 64) by (rewrite app_nil_r; exact HD).
        destruct (fc_find_alt p h d [] st Hg Hmin Hst N HD') as [->|[_ X]]; [|rewrite app_nil_r in X; contradiction].
        fold q. destruct (fc_find_spec q st h d [] Hq Hst N) as [(m & j & F & _)|(s2 & _ & -> & HR2)].
        - rewrite app_nil_r, E. exact Hl.
        - rewrite app_nil_r in F. exfalso. exact (N _ F).
        - cbn [bind length]. rewrite Nat.ltb_irrefl. rewrite Nat.add_0_r. apply IHk; [rewrite app_nil_r in HR2; exact HR2|lia]. }
      apply G; [exact HR|lia].
  Qed.
End Runs.
