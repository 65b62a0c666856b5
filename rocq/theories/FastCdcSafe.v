(** * FastCdcSafe: when a caller of FastCdc's [find_chunk_edge] is given an answer past the end of its buffer. *)

From Verif Require Import Base Api Tables Spec Lists Contract Step Words CutFacts FastCdc FastCdcProofs.

(** A buffer that ends [m] bytes into this chunk is answered with [m + 1]. *)
Definition fc_overrun (p : FastCdc) (h d : list byte) (m : nat) : Prop := (m <= length d)%nat /\ fc_first p h (firstn m d) m.

Lemma fc_overrun_iff : forall p h d, 0 <= fc_min_size p ->
  ((exists m, fc_overrun p h d m) <->
   (fc_min_size p < fc_max_size p <= Z.of_nat (length d) /\
    forall i, fc_min_size p <= Z.of_nat i < fc_max_size p -> ~ fc_hit p d i)).
Proof.
  intros p h d Hmin. split.
  - intros (m & Hm & F). destruct F as (F1 & F2 & F3 & F4). rewrite firstn_length, Nat.min_l in F1, F2 by lia.
    assert (G : fc_max_size p <= Z.of_nat m) by (destruct F3 as [F3|[F3 _]]; [lia|rewrite firstn_length in F3; lia]).
    assert (G2 : Z.of_nat m <= fc_max_size p \/ fc_max_size p <= fc_min_size p).
    { destruct (Z.le_gt_cases (Z.of_nat m) (fc_max_size p)) as [X|X]; [now left|right].
      destruct (Z.le_gt_cases (fc_max_size p) (fc_min_size p)) as [Y|Y]; [exact Y|]. exfalso.
      apply (F4 (Z.to_nat (fc_max_size p))); [lia|left; lia]. }
    assert (G3 : fc_min_size p < fc_max_size p).
    { destruct (Z.le_gt_cases (fc_max_size p) (fc_min_size p)) as [Y|Y]; [|exact Y]. exfalso.
      apply (F4 (Z.to_nat (fc_min_size p))); [lia|left; lia]. }
    split; [lia|]. intros i Hi X. apply (F4 i); [lia|]. right. rewrite firstn_length. split; [lia|].
    rewrite <- (firstn_skipn m d) in X. unfold fc_hit in X. rewrite fc_fingerprint_app in X by (rewrite firstn_length; lia). exact X.
  - intros ((H1 & H2) & H3). exists (Z.to_nat (fc_max_size p)). split; [lia|].
    assert (Lm : length (firstn (Z.to_nat (fc_max_size p)) d) = Z.to_nat (fc_max_size p)) by (rewrite firstn_length; lia).
    split; [lia|]. split; [lia|]. split; [left; lia|]. intros i Hi [X|[X Y]]; [lia|].
    apply (H3 i); [lia|]. unfold fc_hit. rewrite <- (firstn_skipn (Z.to_nat (fc_max_size p)) d), fc_fingerprint_app by lia. exact Y.
Qed.

(** Every call of every caller: an answer inside the buffer, the right one, or an overrun. *)
Lemma fc_drive_trace : forall p shrink data, fastcdc_ok p -> below_2_64 (length data) -> forall sched s h c base lo seen none,
  fc_rel p s c -> (forall n, ~ fc_first p h c n) -> firstn base data = h ++ c -> base = length (h ++ c) ->
  (base <= lo <= length data)%nat -> (none = true -> seen = base) ->
  (exists r h', drive_chunk shrink (fastcdc_find_chunk_edge p) data sched s base lo seen none = Ok r /\
     cut_path (fc_edge p) h (skipn (length h) data) (r_cuts r) h' (skipn (length h') data) /\
     (r_none r = true -> (length h' <= r_seen r <= length data)%nat /\ forall n, ~ fc_first p h' (skipn (length h') (firstn (r_seen r) data)) n)) \/
  (drive_chunk shrink (fastcdc_find_chunk_edge p) data sched s base lo seen none = Panic /\
   exists cs h' m, cut_path (fc_edge p) h (skipn (length h) data) cs h' (skipn (length h') data) /\ fc_overrun p h' (skipn (length h') data) m).
Proof.
  intros p shrink data Hp Hl. assert (L := fc_edge_laws p (proj1 (proj2 Hp))).
  induction sched as [|g sched IH]; intros s h c base lo seen none HR HN HE HB HL HS.
  - left. cbn [drive_chunk]. eexists. exists h. split; [reflexivity|]. split; [constructor|]. cbn [r_none r_seen]. intros X. rewrite (HS X).
    rewrite app_length in HB. split; [lia|]. rewrite HE. intros n. rewrite skipn_app_ge, Nat.sub_diag by lia. apply HN.
  - cbn [drive_chunk]. set (hi := Nat.min (length data) (Nat.max lo (base + g))).
    assert (Hhi : (base <= hi <= length data)%nat) by (unfold hi; lia).
    set (d := firstn (hi - base) (skipn base data)) in *.
    assert (Ld : length d = (hi - base)%nat) by (unfold d; rewrite firstn_length, skipn_length; lia).
    assert (Ehi : firstn hi data = h ++ c ++ d).
    { rewrite (skipn_firstn_split _ base hi) by lia. now rewrite HE, <- app_assoc. }
    assert (Esk : skipn (length h) data = (c ++ d) ++ skipn hi data).
    { rewrite <- (firstn_skipn hi data) at 1. rewrite Ehi, <- app_assoc, skipn_app_ge, Nat.sub_diag by lia. reflexivity. }
    assert (Hlim : below_2_64 (length (h ++ c ++ d))).
    { rewrite <- Ehi. eapply below_down; [|exact Hl]. rewrite firstn_length. lia. }
    destruct (fc_find_spec p s h c d Hp HR HN Hlim) as [(n & k & F & En & Ef)|(s' & N & Ef & HR')]; rewrite Ef; cbn [bind].
    + assert (Hn := fl_len _ (fc_laws p (proj1 (proj2 Hp))) _ _ _ F). rewrite (app_length c) in Hn.
      destruct (Nat.ltb_spec (length d) (k + 1)) as [G|G].
      { right. split; [reflexivity|]. exists [], h, n. split; [constructor|]. split; [rewrite Esk, !app_length; lia|].
        rewrite Esk. replace (firstn n ((c ++ d) ++ skipn hi data)) with (c ++ d); [exact F|].
        rewrite firstn_app_le by (rewrite app_length; lia). symmetry. apply firstn_all2. rewrite app_length. lia. }
      rewrite app_length in HB.
      assert (Hh' : length (h ++ firstn (S n) (c ++ d)) = (length h + S n)%nat) by (rewrite app_length, firstn_length, app_length; lia).
      assert (Fe : fc_edge p h (skipn (length h) data) (S n)).
      { rewrite Esk. apply (fl_ext _ L). exists n. split; [reflexivity|]. split; [rewrite app_length; lia|exact F]. }
      assert (EP : h ++ firstn (S n) (c ++ d) = h ++ firstn (S n) (skipn (length h) data)).
      { f_equal. rewrite Esk. symmetry. apply firstn_app_le. rewrite app_length. lia. }
      edestruct (IH fastcdc_state_default (h ++ firstn (S n) (c ++ d)) [] (base + (k + 1))%nat) as [(r & h' & E & P & Q)|(E & cs & h' & m & P & Q)].
      * apply fc_default_rel.
      * intros m Fm. apply (fl_nil _ (fc_laws p (proj1 (proj2 Hp))) _ _ Fm).
      * rewrite app_nil_r. replace (base + (k + 1))%nat with (length h + S n)%nat by lia. rewrite <- Hh'.
        assert (Y : firstn (length (h ++ firstn (S n) (c ++ d))) data = firstn (length (h ++ firstn (S n) (c ++ d))) (firstn hi data)).
        { rewrite firstn_firstn, Nat.min_l; [reflexivity|]. rewrite Hh'. lia. }
        rewrite Y, Ehi. rewrite <- (firstn_skipn (S n) (c ++ d)) at 2. rewrite app_assoc.
        rewrite firstn_app_le by lia. apply firstn_all2. lia.
      * rewrite app_nil_r. lia.
      * instantiate (1 := if shrink then (base + (k + 1))%nat else hi). destruct shrink; lia.
      * instantiate (1 := hi). instantiate (1 := false). discriminate.
      * left. rewrite E. cbn [bind]. eexists. exists h'. split; [reflexivity|]. cbn [add_cut r_cuts r_none r_seen]. split; [|exact Q].
        replace (base + (k + 1))%nat with (length h + S n)%nat by lia. econstructor; [exact Fe|].
        rewrite skipn_skipn', <- Hh', <- EP. exact P.
      * right. rewrite E. cbn [bind]. split; [reflexivity|]. exists ((length h + S n)%nat :: cs), h', m. split; [|exact Q].
        econstructor; [exact Fe|]. rewrite skipn_skipn', <- Hh', <- EP. exact P.
    + destruct (Nat.ltb_spec (length d) (length d)) as [G|G]; [lia|].
      apply (IH _ h (c ++ d)); [exact HR'|exact N| | |lia|lia].
      * replace (base + length d)%nat with hi by lia. exact Ehi.
      * rewrite app_assoc, (app_length (h ++ c)). lia.
Qed.

(** Showing everything that is left, again and again, ends with a "no cut" on the whole input. *)
Lemma fc_drive_drain : forall p shrink data, fastcdc_ok p -> below_2_64 (length data) -> forall n s h c base lo seen none r,
  fc_rel p s c -> (forall n, ~ fc_first p h c n) -> firstn base data = h ++ c -> base = length (h ++ c) ->
  (base <= lo <= length data)%nat -> (length data < base + n)%nat ->
  drive_chunk shrink (fastcdc_find_chunk_edge p) data (repeat (length data) n) s base lo seen none = Ok r ->
  r_none r = true /\ r_seen r = length data.
Proof.
  intros p shrink data Hp Hl. induction n as [|n IH]; intros s h c base lo seen none r HR HN HE HB HL Hn E; [lia|].
  cbn [repeat drive_chunk] in E.
  replace (Nat.min (length data) (Nat.max lo (base + length data))) with (length data) in E by lia.
  set (d := firstn (length data - base) (skipn base data)) in *.
  assert (Ld : length d = (length data - base)%nat) by (unfold d; rewrite firstn_length, skipn_length; lia).
  assert (Ed : data = h ++ c ++ d).
  { rewrite <- (firstn_skipn base data) at 1. rewrite HE, <- app_assoc. do 2 f_equal. unfold d. symmetry. apply firstn_all2. rewrite skipn_length. lia. }
  assert (Hlim : below_2_64 (length (h ++ c ++ d))) by (rewrite <- Ed; exact Hl).
  destruct (fc_find_spec p s h c d Hp HR HN Hlim) as [(m & k & F & En & Ef)|(s' & N & Ef & HR')]; rewrite Ef in E; cbn [bind] in E.
  - destruct (Nat.ltb_spec (length d) (k + 1)) as [G|G]; [discriminate|].
    apply bind_inv in E. destruct E as (r2 & E2 & E3). injection E3 as E3. rewrite <- E3. cbn [add_cut r_none r_seen].
    rewrite app_length in HB.
    assert (Hh' : length (h ++ firstn (S m) (c ++ d)) = (length h + S m)%nat) by (rewrite app_length, firstn_length, app_length; lia).
    refine (IH _ (h ++ firstn (S m) (c ++ d)) [] _ _ _ _ _ (fc_default_rel p) _ _ _ _ _ E2).
    + intros j Fj. apply (fl_nil _ (fc_laws p (proj1 (proj2 Hp))) _ _ Fj).
    + rewrite app_nil_r. replace (base + (k + 1))%nat with (length h + S m)%nat by lia.
      rewrite Ed. rewrite firstn_app_ge by lia. do 2 f_equal. lia.
    + rewrite app_nil_r. lia.
    + destruct shrink; lia.
    + lia.
  - destruct (Nat.ltb_spec (length d) (length d)) as [G|G]; [lia|].
    destruct n as [|n].
    + cbn [repeat drive_chunk] in E. injection E as <-. cbn. auto.
    + refine (IH _ h (c ++ d) _ _ _ _ _ HR' N _ _ _ _ E).
      * replace (base + length d)%nat with (length data) by lia. rewrite firstn_all. exact Ed.
      * rewrite <- Ed. lia.
      * lia.
      * lia.
Qed.

Lemma fc_drive_end : forall p shrink data n, fastcdc_ok p -> below_2_64 (length data) -> (length data < n)%nat -> forall sched s h c base lo seen none r,
  fc_rel p s c -> (forall n, ~ fc_first p h c n) -> firstn base data = h ++ c -> base = length (h ++ c) ->
  (base <= lo <= length data)%nat ->
  drive_chunk shrink (fastcdc_find_chunk_edge p) data (sched ++ repeat (length data) n) s base lo seen none = Ok r ->
  r_none r = true /\ r_seen r = length data.
Proof.
  intros p shrink data n0 Hp Hl Hn. induction sched as [|g sched IH]; intros s h c base lo seen none r HR HN HE HB HL E.
  { refine (fc_drive_drain p shrink data Hp Hl n0 s h c base lo seen none r HR HN HE HB HL _ E). lia. }
  cbn [app drive_chunk] in E. set (hi := Nat.min (length data) (Nat.max lo (base + g))) in E.
  assert (Hhi : (base <= hi <= length data)%nat) by (unfold hi; lia).
  set (d := firstn (hi - base) (skipn base data)) in *.
  assert (Ld : length d = (hi - base)%nat) by (unfold d; rewrite firstn_length, skipn_length; lia).
  assert (Ehi : firstn hi data = h ++ c ++ d).
  { rewrite (skipn_firstn_split _ base hi) by lia. now rewrite HE, <- app_assoc. }
  assert (Hlim : below_2_64 (length (h ++ c ++ d))).
  { rewrite <- Ehi. eapply below_down; [|exact Hl]. rewrite firstn_length. lia. }
  destruct (fc_find_spec p s h c d Hp HR HN Hlim) as [(m & k & F & En & Ef)|(s' & N & Ef & HR')]; rewrite Ef in E; cbn [bind] in E.
  - destruct (Nat.ltb_spec (length d) (k + 1)) as [G|G]; [discriminate|].
    apply bind_inv in E. destruct E as (r2 & E2 & E3). injection E3 as E3. rewrite <- E3. cbn [add_cut r_none r_seen].
    rewrite app_length in HB.
    assert (Hh' : length (h ++ firstn (S m) (c ++ d)) = (length h + S m)%nat) by (rewrite app_length, firstn_length, app_length; lia).
    refine (IH _ (h ++ firstn (S m) (c ++ d)) [] _ _ _ _ _ (fc_default_rel p) _ _ _ _ E2).
    + intros j Fj. apply (fl_nil _ (fc_laws p (proj1 (proj2 Hp))) _ _ Fj).
    + rewrite app_nil_r. replace (base + (k + 1))%nat with (length h + S m)%nat by lia.
      replace (firstn (length h + S m) data) with (firstn (length h + S m) (firstn hi data)) by (rewrite firstn_firstn, Nat.min_l by lia; reflexivity).
      rewrite Ehi. rewrite firstn_app_ge by lia. do 2 f_equal. lia.
    + rewrite app_nil_r. lia.
    + destruct shrink; lia.
  - destruct (Nat.ltb_spec (length d) (length d)) as [G|G]; [lia|].
    refine (IH _ h (c ++ d) _ _ _ _ _ HR' N _ _ _ E).
    + replace (base + length d)%nat with hi by lia. exact Ehi.
    + rewrite app_assoc, (app_length (h ++ c)). lia.
    + lia.
Qed.

(** ** The two sides of the equivalence *)
Definition fc_forced (p : FastCdc) (data : list byte) : Prop :=
  exists cs h d, cut_path (fc_edge p) [] data cs h d /\ exists m, fc_overrun p h d m.

Lemma fc_start : forall p n, 0 <= fc_min_size p -> ~ fc_first p [] [] n.
Proof. intros p n H F. apply (fl_nil _ (fc_laws p H) _ _ F). Qed.

Lemma cut_path_skip : forall (first : first_rel) d cs h' d', cut_path first [] d cs h' d' -> d' = skipn (length h') d.
Proof.
  intros first d cs h' d' P. apply cut_path_app in P. cbn in P. rewrite P, skipn_app_ge, Nat.sub_diag by lia. reflexivity.
Qed.

(** Any caller, on any input: the right cuts or a panic; and a panic only on inputs with a forced cut. *)
Lemma fc_run_trace : forall p shrink data sched, fastcdc_ok p -> below_2_64 (length data) ->
  (exists r h, run_chunk shrink (fastcdc_chunk p) data sched = Ok r /\ cut_path (fc_edge p) [] data (r_cuts r) h (skipn (length h) data) /\
     (r_none r = true -> (length h <= r_seen r <= length data)%nat /\ forall n, ~ fc_first p h (skipn (length h) (firstn (r_seen r) data)) n)) \/
  (run_chunk shrink (fastcdc_chunk p) data sched = Panic /\ fc_forced p data).
Proof.
  intros p shrink data sched Hp Hl.
  destruct (fc_drive_trace p shrink data Hp Hl sched fastcdc_state_default [] [] 0%nat 0%nat 0%nat false) as [(r & h & E & P & Q)|(E & cs & h & m & P & Q)].
  - apply fc_default_rel.
  - intros n. apply fc_start. exact (proj1 (proj2 Hp)).
  - reflexivity.
  - reflexivity.
  - lia.
  - discriminate.
  - left. exists r, h. auto.
  - right. split; [exact E|]. exists cs, h, (skipn (length h) data). split; [exact P|]. exists m. exact Q.
Qed.

Lemma fc_run_end : forall p shrink data sched r, fastcdc_ok p -> below_2_64 (length data) ->
  run_chunk shrink (fastcdc_chunk p) data (sched ++ drain data) = Ok r -> r_none r = true /\ r_seen r = length data.
Proof.
  intros p shrink data sched r Hp Hl E.
  refine (fc_drive_end p shrink data (S (length data)) Hp Hl _ sched fastcdc_state_default [] [] 0%nat 0%nat 0%nat false r (fc_default_rel p) _ _ _ _ E).
  - lia.
  - intros n. apply fc_start. exact (proj1 (proj2 Hp)).
  - reflexivity.
  - reflexivity.
  - lia.
Qed.

(** The cuts of what a caller has been shown. *)
Lemma fc_run_cuts : forall p shrink data sched r, fastcdc_ok p -> below_2_64 (length data) ->
  run_chunk shrink (fastcdc_chunk p) data sched = Ok r -> r_none r = true -> cuts_of (fc_edge p) [] (firstn (r_seen r) data) (r_cuts r).
Proof.
  intros p shrink data sched r Hp Hl E HN.
  destruct (fc_run_trace p shrink data sched Hp Hl) as [(r' & h & E' & P & Q)|(E' & _)]; rewrite E' in E; [|discriminate].
  injection E as ->. destruct (Q HN) as [Q1 Q2].
  assert (Eh : data = h ++ skipn (length h) data) by (exact (cut_path_app _ _ _ _ _ _ P)).
  assert (Es : skipn (length h) data = skipn (length h) (firstn (r_seen r) data) ++ skipn (r_seen r) data).
  { rewrite <- (firstn_skipn (r_seen r) data) at 1. rewrite skipn_app. f_equal. rewrite firstn_length.
    replace (length h - Nat.min (r_seen r) (length data))%nat with 0%nat by lia. reflexivity. }
  destruct (cut_path_trunc _ (fc_edge_laws p (proj1 (proj2 Hp))) (fc_edge_local p (proj1 (proj2 Hp))) _ _ _ _ _ P _ _ Es) as (d0 & E0 & P0).
  assert (Ed0 : d0 = firstn (r_seen r) data).
  { rewrite <- (firstn_skipn (r_seen r) data) in E0 at 1. now apply app_inv_tail in E0. }
  rewrite <- Ed0. rewrite <- (app_nil_r (r_cuts r)). eapply cut_path_cuts; [exact P0|]. constructor.
  intros m (n & _ & _ & F). exact (Q2 n F).
Qed.

(** *** A forced cut makes some caller panic *)
Lemma fc_drive_path : forall p shrink data, fastcdc_ok p -> below_2_64 (length data) -> forall cs h d h' d' tail,
  cut_path (fc_edge p) h d cs h' d' -> h ++ d = data ->
  forall seen none, exists sched seen' none', 
  (forall X, drive_chunk shrink (fastcdc_find_chunk_edge p) data tail fastcdc_state_default (length h') (length h') seen' none' = X ->
   match X with Panic => drive_chunk shrink (fastcdc_find_chunk_edge p) data (sched ++ tail) fastcdc_state_default (length h) (length h) seen none = Panic | _ => True end).
Proof.
  intros p shrink data Hp Hl cs h d h' d' tail P. induction P as [h d|h d m cs h' d' F P IH]; intros E seen none.
  - exists [], seen, none. intros [| |] X; auto.
  - destruct F as (n & -> & Hn & F).
    assert (Lf : length (firstn (S n) d) = S n) by (rewrite firstn_length; lia).
    destruct (IH ltac:(rewrite <- app_assoc, firstn_skipn; exact E) (length h + S n)%nat false) as (sched & seen' & none' & H).
    exists (S n :: sched), seen', none'. intros X EX. specialize (H X EX). destruct X; [exact I| |exact I].
    cbn [app drive_chunk].
    assert (LE : length data = (length h + length d)%nat) by (rewrite <- E; apply app_length).
    replace (Nat.min (length data) (Nat.max (length h) (length h + S n))) with (length h + S n)%nat by lia.
    replace (length h + S n - length h)%nat with (S n) by lia.
    assert (Es : firstn (S n) (skipn (length h) data) = firstn (S n) d).
    { rewrite <- E, skipn_app_ge, Nat.sub_diag by lia. reflexivity. }
    rewrite Es.
    assert (Hlim : below_2_64 (length (h ++ [] ++ firstn (S n) d))).
    { eapply below_down; [|exact Hl]. cbn [app]. rewrite app_length. lia. }
    assert (F' : fc_first p h ([] ++ firstn (S n) d) n).
    { cbn [app]. apply (fl_mono _ (fc_laws p (proj1 (proj2 Hp))) _ _ (skipn (S n) d)); [rewrite firstn_skipn; exact F|lia]. }
    destruct (fc_find_spec p fastcdc_state_default h [] (firstn (S n) d) Hp (fc_default_rel p)) as [(n2 & k & F2 & En & ->)|(s' & N & _)].
    + intros j Fj. apply (fl_nil _ (fc_laws p (proj1 (proj2 Hp))) _ _ Fj).
    + exact Hlim.
    + assert (n2 = n) by (eapply (fl_fun _ (fc_laws p (proj1 (proj2 Hp)))); eauto). cbn [length] in En. subst n2. assert (k = n) as -> by lia.
      cbn [bind]. rewrite Lf. destruct (Nat.ltb_spec (S n) (n + 1)) as [G|G]; [lia|].
      rewrite (app_length h), Lf in H. replace (length h + (n + 1))%nat with (length h + S n)%nat by lia.
      destruct shrink; rewrite H; reflexivity.
    + exfalso. exact (N n F').
Qed.

Lemma fc_forced_panics : forall p shrink data, fastcdc_ok p -> below_2_64 (length data) -> fc_forced p data ->
  exists sched, run_chunk shrink (fastcdc_chunk p) data sched = Panic.
Proof.
  intros p shrink data Hp Hl (cs & h & d & P & m & Hm & F).
  assert (E := cut_path_app _ _ _ _ _ _ P). cbn [app] in E.
  destruct (fc_drive_path p shrink data Hp Hl cs [] data h d [m] P eq_refl 0%nat false) as (sched & seen' & none' & H).
  exists (sched ++ [m]). apply (H Panic). cbn [drive_chunk].
  assert (LE : length data = (length h + length d)%nat) by (rewrite E; apply app_length).
  replace (Nat.min (length data) (Nat.max (length h) (length h + m))) with (length h + m)%nat by lia.
  replace (length h + m - length h)%nat with m by lia.
  assert (Es : firstn m (skipn (length h) data) = firstn m d).
  { rewrite E, skipn_app_ge, Nat.sub_diag by lia. reflexivity. }
  rewrite Es.
  assert (Hlim : below_2_64 (length (h ++ [] ++ firstn m d))).
  { eapply below_down; [|exact Hl]. cbn [app]. rewrite app_length, firstn_length. lia. }
  destruct (fc_find_spec p fastcdc_state_default h [] (firstn m d) Hp (fc_default_rel p)) as [(n2 & k & F2 & En & ->)|(s' & N & _)].
  - intros j Fj. apply (fl_nil _ (fc_laws p (proj1 (proj2 Hp))) _ _ Fj).
  - exact Hlim.
  - assert (n2 = m) by (eapply (fl_fun _ (fc_laws p (proj1 (proj2 Hp)))); eauto). cbn [length] in En. subst n2. assert (k = m) as -> by lia.
    cbn [bind]. rewrite firstn_length. destruct (Nat.ltb_spec (Nat.min m (length d)) (m + 1)) as [G|G]; [reflexivity|lia].
  - exfalso. exact (N m F).
Qed.

(** ** A caller that always shows everything *)
Lemma fc_overrun_first : forall p h d m, 0 <= fc_min_size p -> fc_overrun p h d m -> fc_first p h d m.
Proof. intros p h d m H (Hm & F). rewrite <- (firstn_skipn m d). now apply (fl_ext _ (fc_laws p H)). Qed.

Lemma fc_path_none : forall p h d cs h' d', (forall n, ~ fc_first p h d n) -> cut_path (fc_edge p) h d cs h' d' -> h' = h /\ d' = d.
Proof. intros p h d cs h' d' N P. destruct P as [|h d m cs h' d' (n & _ & _ & F) P]; [auto|]. exfalso. exact (N n F). Qed.

Lemma fc_drive_all : forall p shrink data, fastcdc_ok p -> below_2_64 (length data) -> forall n h d lo seen none,
  h ++ d = data -> (length h <= lo <= length data)%nat -> (length d < n)%nat ->
  (drive_chunk shrink (fastcdc_find_chunk_edge p) data (repeat (length data) n) fastcdc_state_default (length h) lo seen none = Panic <->
   exists cs h' d', cut_path (fc_edge p) h d cs h' d' /\ fc_overrun p h' d' (length d')).
Proof.
  intros p shrink data Hp Hl. assert (H0 := proj1 (proj2 Hp)). assert (L := fc_laws p H0).
  induction n as [|n IH]; intros h d lo seen none E HL Hn; [lia|].
  assert (LE : length data = (length h + length d)%nat) by (rewrite <- E; apply app_length).
  cbn [repeat drive_chunk]. replace (Nat.min (length data) (Nat.max lo (length h + length data))) with (length data) by lia.
  assert (Es : firstn (length data - length h) (skipn (length h) data) = d).
  { rewrite <- E at 2. rewrite skipn_app_ge, Nat.sub_diag by lia. apply firstn_all2. cbn. lia. }
  rewrite Es.
  destruct (fc_find_spec p fastcdc_state_default h [] d Hp (fc_default_rel p)) as [(m & k & F & En & ->)|(s' & N & -> & HR)].
  - intros j Fj. apply (fl_nil _ L _ _ Fj).
  - cbn [app]. rewrite E. exact Hl.
  - cbn [length app] in *. assert (k = m) as -> by lia. clear En. cbn [bind].
    assert (Hm := fl_len _ L _ _ _ F).
    destruct (Nat.ltb_spec (length d) (m + 1)) as [G|G].
    + assert (m = length d) as -> by lia. split; [|reflexivity]. intros _. exists [], h, d. split; [constructor|]. split; [lia|]. now rewrite firstn_all.
    + assert (Fe : fc_edge p h d (S m)) by (exists m; split; [reflexivity|split; [lia|exact F]]).
      assert (Lf : length (h ++ firstn (S m) d) = (length h + (m + 1))%nat) by (rewrite app_length, firstn_length; lia).
      assert (I2 := fun lo seen => IH (h ++ firstn (S m) d) (skipn (S m) d) lo seen false).
      rewrite Lf in I2. rewrite <- app_assoc, firstn_skipn, skipn_length in I2.
      specialize (I2 (if shrink then (length h + (m + 1))%nat else length data) (length data) E).
      specialize (I2 ltac:(destruct shrink; lia) ltac:(lia)).
      split.
      * intros X. destruct (drive_chunk shrink (fastcdc_find_chunk_edge p) data (repeat (length data) n) fastcdc_state_default (length h + (m + 1))
          (if shrink then (length h + (m + 1))%nat else length data) (length data) false) as [r2| |] eqn:E2; try discriminate X.
        destruct (proj1 I2 eq_refl) as (cs & h' & d' & P & Q). exists ((length h + S m)%nat :: cs), h', d'. split; [|exact Q]. econstructor; eauto.
      * intros (cs & h' & d' & P & Q). inversion P as [|? ? m' cs' ? ? F' P']; subst.
        { exfalso. apply (fc_overrun_first _ _ _ _ H0) in Q. assert (X := fl_fun _ L _ _ _ _ F Q). lia. }
        assert (m' = S m) as -> by (eapply (fl_fun _ (fc_edge_laws p H0)); eauto).
        rewrite (proj2 I2); [reflexivity|]. exists cs', h', d'. auto.
  - cbn [app length] in *. cbn [bind]. rewrite Nat.ltb_irrefl.
    destruct (fc_drive_trace p shrink data Hp Hl (repeat (length data) n) s' h d (length h + length d) (length data) (length data) true HR N) as [(r & h' & E2 & _)|(E2 & cs & h' & m & P & Q)].
    + rewrite <- LE, firstn_all. now symmetry.
    + rewrite app_length. reflexivity.
    + lia.
    + lia.
    + rewrite E2. split; [discriminate|]. intros (cs & h2 & d2 & P & Q). exfalso.
      destruct (fc_path_none p h d cs h2 d2 N P) as [-> ->]. exact (N _ (fc_overrun_first _ _ _ _ H0 Q)).
    + exfalso. replace (skipn (length h) data) with d in P by (rewrite <- E, skipn_app_ge, Nat.sub_diag by lia; reflexivity).
      destruct (fc_path_none p h d cs h' _ N P) as [-> X]. rewrite X in Q. exact (N _ (fc_overrun_first _ _ _ _ H0 Q)).
Qed.
