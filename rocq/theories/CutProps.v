(** * CutProps: sizes, independence and resynchronisation of the cuts that callers see. *)

From Verif Require Import Base Api Tables Range Spec Lists Contract Step Words Rot CutFacts IterProofs.
From Verif Require Import Mii Ram Gear Pigz Gzip FastCdc Bup BuzHash Zpaq Zstd.
From Verif Require Import MiiProofs RamProofs GearProofs PigzProofs GzipProofs FastCdcProofs FastCdcTotal BupProofs BupAny BuzProofs ZpaqProofs ZpaqCtor ZstdProofs.
From Verif Require Import Builtin BuiltinProofs IterAll Agree Totality Answers.

(** ** Empty chunks *)

(** Only FastCdc can report an empty chunk, and only with [min_size = 0]. *)
Definition nonempty_good (c : config) : Prop :=
  match c with
  | CfgFastCdc g min normal max =>
      1 <= min \/ ((0 < normal \/ 0 < max) /\ forall b, ~ bits_clear (table_at g b) (fastcdc_mask normal 0))
  | _ => True
  end.

Lemma fc_push_resets : forall p s d s' k, fastcdc_state_push p s d = Ok (s', Some k) -> s' = fastcdc_state_default.
Proof.
  intros p s d s' k E. unfold fastcdc_state_push in E. cbv zeta in E.
  match type of E with bind ?x _ = _ => destruct x as [ge| |]; cbn [bind] in E; try discriminate end.
  destruct (ge <=? fc_min_size p); [discriminate|].
  match type of E with bind ?x _ = _ => destruct x as [[gi i]| |]; cbn [bind] in E; try discriminate end.
  match type of E with bind ?x _ = _ => destruct x as [[y|y k1|y]| |]; cbn [bind] in E; try discriminate end; [|now inversion E|];
    (match type of E with bind ?x _ = _ => destruct x as [[z|z k2|z]| |]; cbn [bind] in E; try discriminate end; now inversion E).
Qed.

Lemma fc_min0_above : forall p, length (fc_gear p) = 256%nat -> (forall x, In x (fc_gear p) -> is_u64 x) -> fc_min_size p = 0 ->
  (0 < fc_normal_size p \/ 0 < fc_max_size p) ->
  (forall b, ~ bits_clear (table_at (fc_gear p) b) (fastcdc_mask (fc_normal_size p) 0)) ->
  forall data, below_2_64 (length data) -> forall sched s base start seen none r,
  ((start < base)%nat \/ (start <= base)%nat /\ s = fastcdc_state_default) ->
  drive_push 0 (fastcdc_state_push p) data sched s base seen none = Ok r -> strictly_above start (r_cuts r).
Proof.
  intros p Tg Tu E0 Hs Hb data Hl. induction sched as [|g sched IH]; intros s base start seen none r HI E; cbn [drive_push] in E.
  - inversion E; subst r. exact I.
  - set (d := firstn g (skipn base data)) in *.
    destruct (fastcdc_state_push p s d) as [[s' o]| |] eqn:Ep; cbn [bind] in E; try discriminate.
    assert (F : (start <= base)%nat /\ (start < base \/ s = fastcdc_state_default)%nat) by (destruct HI as [HI|[HI ->]]; split; try lia; auto).
    destruct F as [F1 F2]. assert (Ld : (length d <= length data)%nat) by (unfold d; rewrite firstn_length, skipn_length; lia).
    destruct o as [k|].
    + destruct (Nat.ltb_spec (length d) (k + 0)) as [G|G]; [discriminate|].
      match type of E with bind ?x _ = _ => destruct x as [r1| |] eqn:E1; cbn [bind] in E; try discriminate end.
      inversion E; subst r. cbn [r_cuts add_cut strictly_above].
      assert (K : (start < base + k + 0)%nat /\ s' = fastcdc_state_default).
      { assert (Sd : s' = fastcdc_state_default).
        { exact (fc_push_resets _ _ _ _ _ Ep). }
        split; [|exact Sd]. destruct F2 as [F2|F2]; [lia|]. subst s.
        destruct d as [|b d'] eqn:Ed.
        { unfold fastcdc_state_push in Ep. rewrite E0 in Ep. cbn in Ep. discriminate. }
        destruct (fc_min0_push p Tg Tu E0 b d') as (s2 & o & X & Y); [unfold below_2_64 in Hl; lia|].
        rewrite X in Ep. inversion Ep; subst s2 o. destruct Y as (_ & _ & Y).
        assert (k <> 0%nat) by (intros ->; destruct (Y eq_refl) as [Z|Z]; [lia|exact (Hb b Z)]). lia. }
      destruct K as [K1 K2]. split; [exact K1|]. eapply IH; [|exact E1]. right. split; [lia|exact K2].
    + eapply IH; [|exact E]. destruct F2 as [F2|F2]; [left; lia|]. subst s. destruct d as [|b d'] eqn:Ed.
      * right. split; [cbn [length]; lia|]. unfold fastcdc_state_push in Ep. rewrite E0 in Ep. cbn in Ep. inversion Ep. reflexivity.
      * left. cbn [length]. lia.
Qed.

Theorem incr_strict_iff : forall c C, typed c -> incr_of c = Ok C ->
  ((forall data sched r, stream_len (length data) -> run_incr (incr_adj c) C data sched = Ok r -> strictly_above 0 (r_cuts r)) <-> nonempty_good c).
Proof.
  intros c C T E. split.
  - intros H. destruct c; cbn [nonempty_good]; try exact I. cbn [incr_of] in E. inversion E; subst C. clear E.
    destruct T as (Tg & Tu & Tmin & Tn & Tm). unfold is_u64 in *. set (p := fastcdc_new gear min normal max) in *.
    destruct (Z.le_gt_cases 1 min) as [G|G]; [now left|right]. assert (E0 : fc_min_size p = 0) by (cbn; lia).
    assert (K : forall b, ~ ((normal <= 0 /\ max <= 0) \/ bits_clear (table_at gear b) (fastcdc_mask normal 0))).
    { intros b X. assert (Q := fc_min0_stuck p Tg Tu E0 b X).
      assert (Y : run_incr 0 (fastcdc_incr p) [b] [1%nat] = Ok (add_cut 0
        {| r_cuts := []; r_state := fastcdc_state_default; r_base := 0; r_seen := 1; r_none := false |})).
      { unfold run_incr. cbn [drive_push skipn firstn incr_push fastcdc_incr incr_new]. rewrite Q. reflexivity. }
      apply H in Y; [|unfold stream_len; cbn; lia]. cbn [add_cut r_cuts strictly_above] in Y. lia. }
    split.
    + destruct (Z.le_gt_cases normal 0); [|lia]. destruct (Z.le_gt_cases max 0); [|lia]. exfalso. apply (K x00). left. lia.
    + intros b X. apply (K b). now right.
  - intros G data sched r Hl Er. destruct c; try (apply (incr_cuts_order _ C data sched r E) in Er; apply Er).
    cbn [incr_of] in E. inversion E; subst C. clear E. destruct T as (Tg & Tu & Tmin & Tn & Tm). unfold is_u64 in *.
    set (p := fastcdc_new gear min normal max) in *. apply stream_below in Hl. cbn [nonempty_good] in G.
    destruct (Z.le_gt_cases 1 min) as [G1|G1].
    + destruct (fastcdc_incr_total p data sched Tg ltac:(cbn; lia) Hl) as (r' & X & _ & _ & _ & Y).
      cbn [incr_adj] in Er. rewrite X in Er. inversion Er; subst r'. apply Y. exact G1.
    + destruct G as [G|[Ga Gb]]; [lia|]. unfold run_incr in Er.
      eapply (fc_min0_above p Tg Tu ltac:(cbn; lia) Ga Gb data Hl); [|exact Er]. right. split; [lia|reflexivity].
Qed.

(** ** Sizes *)
Lemma mii_first_size : forall w h d n, ends_at (per_chunk (mii_rule w)) h d n -> w + 1 <= Z.of_nat n.
Proof.
  intros w h d n (Hn & (_ & pre & tail & E & L & _) & _). apply (f_equal (@length byte)) in E. rewrite firstn_length, app_length in E. lia.
Qed.

Lemma ram_first_size : forall w h d n, ends_at (per_chunk (ram_rule w)) h d n -> w + 2 <= Z.of_nat n.
Proof. intros w h d n (Hn & H & _). apply ram_rule_len in H. rewrite firstn_length in H. lia. Qed.

Lemma ram_before_size : forall w h d n, ends_before (per_chunk (ram_rule w)) h d n -> w + 1 <= Z.of_nat n.
Proof. intros w h d n (Hn & H & _). apply ram_rule_len in H. rewrite firstn_length in H. lia. Qed.

Lemma buz_first_size : forall hv k mask max h d n, 0 <= max -> ends_at (per_chunk (buz_incr_rule hv k mask max)) h d n -> Z.of_nat n <= max + 1.
Proof.
  intros hv k mask max h d n Hm (Hn & _ & H). destruct (Z.le_gt_cases (Z.of_nat n) (max + 1)) as [G|G]; [exact G|].
  exfalso. apply (H (n - 1)%nat ltac:(lia)). right. rewrite firstn_length. lia.
Qed.

Lemma fc_edge_size : forall p h d n, 0 <= fc_min_size p <= fc_max_size p -> fc_edge p h d n ->
  fc_min_size p + 1 <= Z.of_nat n <= fc_max_size p + 1.
Proof. intros p h d n Hp (m & -> & _ & H). apply fc_first_bounds in H; lia. Qed.

Theorem fc_chunk_sizes : forall p sh data sched r, fastcdc_ok p -> fc_min_size p <= fc_max_size p -> below_2_64 (length data) ->
  run_chunk sh (fastcdc_chunk p) data sched = Ok r ->
  Forall (fun n => fc_min_size p + 1 <= Z.of_nat n <= fc_max_size p + 1) (sizes 0 (r_cuts r)).
Proof.
  intros p sh data sched r Hp Hm Hl E. destruct (fc_chunk_partial p sh data sched r Hp Hl E) as (h & X).
  apply (cut_path_sizes (fc_edge p) _ (fun h d n H => fc_edge_size p h d n (conj (proj1 (proj2 Hp)) Hm) H) (fc_edge_laws p (proj1 (proj2 Hp))) _ _ _ _ _ X).
Qed.

(** A range with an inclusive lower and an exclusive upper bound, as [with_average_size_pow_2] and [with_max_size] make it. *)
Lemma zpaq_size_window : forall lo hi extra n, zpaq_size_ok (Included lo, Excluded hi) extra n -> (1 <= n)%nat -> 2 <= hi - extra -> lo <= hi ->
  lo <= Z.of_nat n + extra <= hi.
Proof.
  intros lo hi extra n [H1 H2] Hn Hh Hl. unfold below_range, above_range, start_bound, end_bound in *. cbn [fst snd] in *.
  destruct (Nat.eq_dec n 1) as [->|N]; [lia|]. specialize (H2 ltac:(lia)). lia.
Qed.

(** ** After a cut *)
Definition history_free (first : first_rel) : Prop := forall h h' d n, first h d n -> first h' d n.

Lemma history_free_at : forall r, history_free (ends_at (per_chunk r)).
Proof. intros r h h' d n H. exact H. Qed.
Lemma history_free_fc : forall g min normal max, history_free (fastcdc_first g min normal max).
Proof. intros g min normal max h h' d n H. exact H. Qed.

Lemma cuts_of_shift : forall first, history_free first -> first_laws first -> forall h d cs, cuts_of first h d cs ->
  forall h', cuts_of first h' d (map (fun q => length h' + (q - length h))%nat cs).
Proof.
  intros first HF L h d cs H. induction H as [h d N|h d n cs F H IH]; intros h'.
  - cbn. constructor. intros n X. exact (N n (HF _ _ _ _ X)).
  - cbn [map]. replace (length h' + (length h + n - length h))%nat with (length h' + n)%nat by lia.
    apply cuts_some; [exact (HF _ _ _ _ F)|]. assert (Hn := fl_len _ L _ _ _ F).
    replace (map (fun q => (length h' + (q - length h))%nat) cs) with
      (map (fun q => (length (h' ++ firstn n d) + (q - length (h ++ firstn n d)))%nat) cs); [apply IH|].
    apply map_ext_in. intros q Hq. rewrite !app_length, firstn_length.
    assert (G : (length h + n <= q)%nat).
    { assert (X := H). clear -X Hq L Hn. remember (h ++ firstn n d) as h1. remember (skipn n d) as d1.
      assert (B : forall q, In q cs -> (length h1 <= q)%nat).
      { clear Heqh1 Heqd1 Hq. induction X as [|h0 d0 n0 cs0 F X IH]; intros q0 Q; [contradiction|]. destruct Q as [<-|Q]; [lia|].
        specialize (IH q0 Q). rewrite app_length in IH. lia. }
      specialize (B q Hq). subst h1. rewrite app_length, firstn_length in B. lia. }
    lia.
Qed.

Lemma cuts_after_fresh_gen : forall first, first_laws first -> progressive first -> history_free first -> forall a b cs,
  cuts_of first [] (a ++ b) cs -> In (length a) cs -> cuts_of first [] b (cuts_after (length a) cs).
Proof.
  intros first L P HF a b cs H Hin.
  destruct (cuts_of_split first L P [] (a ++ b) cs H (length a) Hin) as (cs1 & cs2 & -> & Hr & H2 & A & B).
  rewrite (cuts_after_split _ _ _ A B). cbn [app] in H2.
  rewrite firstn_app, skipn_app, Nat.sub_diag, firstn_all, skipn_all in H2. cbn [firstn skipn] in H2. rewrite app_nil_r in H2. cbn [app] in H2.
  apply (cuts_of_shift first HF L) with (h' := []) in H2. cbn [length Nat.add] in H2. exact H2.
Qed.

(** *** [find_chunk_edge] *)
Section ChunkTail.
  Variables (c : config) (C : Chunk) (rule : list byte -> Prop).
  Hypothesis T : typed c.
  Hypothesis E : chunk_of c = Ok C.
  Hypothesis S : chunk_sound c.
  Hypothesis R : chunk_rule c = Some rule.

  Lemma chunk_complete : forall sh data sched r, stream_len (length data) -> run_chunk sh C data (sched ++ drain data) = Ok r ->
    cuts_of (ends_at (per_chunk rule)) [] data (r_cuts r).
  Proof.
    intros sh data sched r Hl Er. exact (chunk_final _ _ sh C _ (chunk_all c C rule sh T E S R) data sched r Hl Er).
  Qed.

  Theorem chunk_restart : forall sh1 sh2 a b sched1 sched2 r1 r2, stream_len (length (a ++ b)) ->
    run_chunk sh1 C (a ++ b) (sched1 ++ drain (a ++ b)) = Ok r1 -> run_chunk sh2 C b (sched2 ++ drain b) = Ok r2 ->
    In (length a) (r_cuts r1) -> cuts_after (length a) (r_cuts r1) = r_cuts r2.
  Proof.
    intros sh1 sh2 a b sched1 sched2 r1 r2 Hl E1 E2 Hin. apply chunk_complete in E1; [|exact Hl].
    apply chunk_complete in E2; [|rewrite app_length in Hl; unfold stream_len in *; lia].
    apply cuts_after_fresh in E1; [|exact Hin]. exact (cuts_of_fun _ (ends_at_laws _) _ _ _ E1 _ E2).
  Qed.

  Theorem chunk_same_tail : forall sh1 sh2 a1 a2 b sched1 sched2 r1 r2, stream_len (length (a1 ++ b)) -> stream_len (length (a2 ++ b)) ->
    run_chunk sh1 C (a1 ++ b) (sched1 ++ drain (a1 ++ b)) = Ok r1 -> run_chunk sh2 C (a2 ++ b) (sched2 ++ drain (a2 ++ b)) = Ok r2 ->
    In (length a1) (r_cuts r1) -> In (length a2) (r_cuts r2) ->
    cuts_after (length a1) (r_cuts r1) = cuts_after (length a2) (r_cuts r2).
  Proof.
    intros sh1 sh2 a1 a2 b sched1 sched2 r1 r2 Hl1 Hl2 E1 E2 H1 H2. apply chunk_complete in E1; [|exact Hl1]. apply chunk_complete in E2; [|exact Hl2].
    exact (cuts_after_same _ (ends_at_laws _) (ends_at_progressive _) (forgets_per_chunk rule) _ _ _ _ _ E1 E2 H1 H2).
  Qed.
End ChunkTail.

(** *** [push] *)
Definition incr_resets (c : config) : Prop :=
  match c with CfgMii _ | CfgRollSum _ | CfgZstd _ => False | _ => True end.

Section IncrTail.
  Variables (c : config) (C : Incr).
  Hypothesis T : typed c.
  Hypothesis E : incr_of c = Ok C.
  Hypothesis S : incr_sound c.

  Lemma incr_complete : forall data sched r, stream_len (length data) -> run_incr (incr_adj c) C data (sched ++ drain data) = Ok r ->
    cuts_of (incr_first c) [] data (r_cuts r).
  Proof.
    intros data sched r Hl Er. exact (incr_final _ _ (incr_adj c) C (incr_all c C T E S) data sched r Hl Er).
  Qed.

  Lemma incr_first_free : incr_resets c -> history_free (incr_first c).
  Proof. intros R. destruct c; cbn in R; try contradiction; cbn [incr_first]; intros h h' d n H; exact H. Qed.

  Theorem incr_restart : forall a b sched1 sched2 r1 r2, incr_resets c -> stream_len (length (a ++ b)) ->
    run_incr (incr_adj c) C (a ++ b) (sched1 ++ drain (a ++ b)) = Ok r1 -> run_incr (incr_adj c) C b (sched2 ++ drain b) = Ok r2 ->
    In (length a) (r_cuts r1) -> cuts_after (length a) (r_cuts r1) = r_cuts r2.
  Proof.
    intros a b sched1 sched2 r1 r2 R Hl E1 E2 Hin. apply incr_complete in E1; [|exact Hl].
    apply incr_complete in E2; [|rewrite app_length in Hl; unfold stream_len in *; lia].
    apply (cuts_after_fresh_gen _ (incr_first_laws c T) (incr_first_progressive c S) (incr_first_free R)) in E1; [|exact Hin].
    exact (cuts_of_fun _ (incr_first_laws c T) _ _ _ E1 _ E2).
  Qed.

  (** Mii too: its chunks after the first all behave alike. *)
  Theorem incr_same_tail : forall a1 a2 b sched1 sched2 r1 r2, incr_resets c \/ (exists w, c = CfgMii w) ->
    stream_len (length (a1 ++ b)) -> stream_len (length (a2 ++ b)) ->
    run_incr (incr_adj c) C (a1 ++ b) (sched1 ++ drain (a1 ++ b)) = Ok r1 -> run_incr (incr_adj c) C (a2 ++ b) (sched2 ++ drain (a2 ++ b)) = Ok r2 ->
    In (length a1) (r_cuts r1) -> In (length a2) (r_cuts r2) ->
    cuts_after (length a1) (r_cuts r1) = cuts_after (length a2) (r_cuts r2).
  Proof.
    intros a1 a2 b sched1 sched2 r1 r2 R Hl1 Hl2 E1 E2 H1 H2. apply incr_complete in E1; [|exact Hl1]. apply incr_complete in E2; [|exact Hl2].
    refine (cuts_after_same _ (incr_first_laws c T) (incr_first_progressive c S) _ _ _ _ _ _ E1 E2 H1 H2).
    destruct R as [R|[w Ew]]; [intros h h' d n _ _ X; exact (incr_first_free R _ _ _ _ X)|].
    rewrite Ew. cbn [incr_first]. intros h h' d n N N' X. unfold ends_at, mii_incr_rule in *. destruct h; [congruence|]. destruct h'; [congruence|]. exact X.
  Qed.
End IncrTail.

(** ** Resynchronisation *)

(** The window of the rule of [find_chunk_edge], where there is one. *)
Definition chunk_window (c : config) : option nat :=
  match c with
  | CfgMii w => Some (Z.to_nat w + 1)%nat
  | CfgGear _ => Some 32%nat
  | CfgPigz b => Some (Z.to_nat b)
  | CfgGzip w _ => Some w
  | CfgRollSum w => Some w
  | CfgBuzHash k _ _ _ => if Nat.ltb (k mod 32) 8 then Some k else None
  | _ => None
  end.

Lemma chunk_window_rule : forall c rule w, typed c -> chunk_rule c = Some rule -> chunk_window c = Some w -> window_rule w rule.
Proof.
  intros c rule w T R W. destruct c; cbn [chunk_rule chunk_window typed] in *; try discriminate.
  - inversion R; inversion W; subst. apply mii_window.
  - inversion R; inversion W; subst. apply gear_window.
  - inversion R; inversion W; subst. apply pigz_window. lia.
  - inversion R; inversion W; subst. apply gzip_window.
  - inversion R; inversion W; subst. apply bup_window.
  - destruct (Nat.ltb_spec (capacity mod 32) 8) as [G|G]; [|discriminate]. inversion R; inversion W; subst. apply buz_window; [|exact G].
    destruct T as (_ & _ & T). intros b. unfold value_of. destruct (T b) as (v & -> & Hv). exact Hv.
Qed.

Theorem chunk_resync : forall c C rule w, typed c -> chunk_of c = Ok C -> chunk_sound c -> chunk_rule c = Some rule -> chunk_window c = Some w ->
  forall sh1 sh2 a1 a2 b sched1 sched2 r1 r2, stream_len (length (a1 ++ b)) -> stream_len (length (a2 ++ b)) ->
  run_chunk sh1 C (a1 ++ b) (sched1 ++ drain (a1 ++ b)) = Ok r1 -> run_chunk sh2 C (a2 ++ b) (sched2 ++ drain (a2 ++ b)) = Ok r2 ->
  forall q, (1 <= q <= length b)%nat -> (w <= q)%nat ->
  no_cut_between (length a1 + q - w) (length a1 + q) (r_cuts r1) -> no_cut_between (length a2 + q - w) (length a2 + q) (r_cuts r2) ->
  In (length a1 + q)%nat (r_cuts r1) ->
  In (length a2 + q)%nat (r_cuts r2) /\ cuts_after (length a1 + q) (r_cuts r1) = cuts_after (length a2 + q) (r_cuts r2).
Proof.
  intros c C rule w T E S R W sh1 sh2 a1 a2 b sched1 sched2 r1 r2 Hl1 Hl2 E1 E2 q Hq Hw N1 N2 Hin.
  apply (chunk_complete c C rule T E S R) in E1; [|exact Hl1]. apply (chunk_complete c C rule T E S R) in E2; [|exact Hl2].
  exact (resync w rule (chunk_window_rule c rule w T R W) a1 a2 b _ _ q E1 E2 Hq Hw N1 N2 Hin).
Qed.

(** [push] with a rule of its own that looks at the chunk only. *)
Definition incr_window (c : config) : option (nat * (list byte -> Prop)) :=
  match c with
  | CfgGear n => Some (32%nat, gear_rule n)
  | CfgPigz b => Some (Z.to_nat b, pigz_rule b)
  | CfgGzip w m => Some (w, gzip_rule w m)
  | _ => None
  end.

Lemma incr_window_rule : forall c w rule, typed c -> incr_window c = Some (w, rule) -> window_rule w rule /\ incr_first c = ends_at (per_chunk rule).
Proof.
  intros c w rule T W. destruct c; cbn [incr_window typed incr_first] in *; try discriminate; inversion W; subst; (split; [|reflexivity]).
  - apply gear_window.
  - apply pigz_window. lia.
  - apply gzip_window.
Qed.

Theorem incr_resync : forall c C rule w, typed c -> incr_of c = Ok C -> incr_sound c -> incr_window c = Some (w, rule) ->
  forall a1 a2 b sched1 sched2 r1 r2, stream_len (length (a1 ++ b)) -> stream_len (length (a2 ++ b)) ->
  run_incr (incr_adj c) C (a1 ++ b) (sched1 ++ drain (a1 ++ b)) = Ok r1 -> run_incr (incr_adj c) C (a2 ++ b) (sched2 ++ drain (a2 ++ b)) = Ok r2 ->
  forall q, (1 <= q <= length b)%nat -> (w <= q)%nat ->
  no_cut_between (length a1 + q - w) (length a1 + q) (r_cuts r1) -> no_cut_between (length a2 + q - w) (length a2 + q) (r_cuts r2) ->
  In (length a1 + q)%nat (r_cuts r1) ->
  In (length a2 + q)%nat (r_cuts r2) /\ cuts_after (length a1 + q) (r_cuts r1) = cuts_after (length a2 + q) (r_cuts r2).
Proof.
  intros c C rule w T E S W a1 a2 b sched1 sched2 r1 r2 Hl1 Hl2 E1 E2 q Hq Hw N1 N2 Hin.
  apply (incr_complete c C T E S) in E1; [|exact Hl1]. apply (incr_complete c C T E S) in E2; [|exact Hl2].
  destruct (incr_window_rule c w rule T W) as [Wr Ef]. rewrite Ef in E1, E2.
  exact (resync w rule Wr a1 a2 b _ _ q E1 E2 Hq Hw N1 N2 Hin).
Qed.

(** RollSumIncr and ZstdIncr do not notice their own cuts, so they resynchronise after one window, whatever the cuts. *)
Definition stream_window (c : config) (w : nat) : Prop :=
  match c with
  | CfgRollSum n => w = n /\ exists k, n = (2 ^ k)%nat
  | CfgZstd _ => w = 33%nat
  | _ => False
  end.

Theorem incr_resync_stream : forall c C w, typed c -> incr_of c = Ok C -> stream_window c w ->
  forall a1 a2 b sched1 sched2 r1 r2, stream_len (length (a1 ++ b)) -> stream_len (length (a2 ++ b)) ->
  run_incr (incr_adj c) C (a1 ++ b) (sched1 ++ drain (a1 ++ b)) = Ok r1 -> run_incr (incr_adj c) C (a2 ++ b) (sched2 ++ drain (a2 ++ b)) = Ok r2 ->
  forall q, (1 <= q <= length b)%nat -> (w <= q)%nat -> (In (length a1 + q)%nat (r_cuts r1) <-> In (length a2 + q)%nat (r_cuts r2)).
Proof.
  intros c C w T E W a1 a2 b sched1 sched2 r1 r2 Hl1 Hl2 E1 E2 q Hq Hw.
  assert (S : incr_sound c).
  { destruct c; cbn [stream_window incr_sound] in *; try contradiction; try exact I. destruct W as [_ [k ->]]. pose proof (Nat.pow_nonzero 2 k); lia. }
  apply (incr_complete c C T E S) in E1; [|exact Hl1]. apply (incr_complete c C T E S) in E2; [|exact Hl2].
  destruct c; cbn [stream_window] in W; try contradiction; cbn [incr_first] in E1, E2.
  - destruct W as [-> [k ->]]. apply (resync_stream (2 ^ k) (bup_incr_rule (2 ^ k))) with (b := b); [|exact E1|exact E2|exact Hq|exact Hw].
    intros a c Hc. rewrite !bup_incr_rule_pow2. now apply bup_window.
  - subst w. apply (resync_stream 33 (zstd_rule (bits_of target_section_size))) with (b := b); [apply zstd_window|exact E1|exact E2|exact Hq|exact Hw].
Qed.
