(** * PropsDedup: C65, equal chunks are cut alike. *)

From Verif Require Import Base Api Tables Spec Lists Contract CutFacts FastCdc FastCdcProofs FastCdcSafe FastCdcAny Builtin BuiltinProofs CutProps Cases Bup Gzip PropsBup.

(** ** From the specification *)
Section Alike.
  Variable first : first_rel.
  Hypothesis L : first_laws first.
  Hypothesis P : progressive first.
  Hypothesis Lo : local_first first.

  (** The cuts from a start on. *)
  Lemma cuts_from : forall x d cs, cuts_of first [] (x ++ d) cs -> x = [] \/ In (length x) cs ->
    exists cs1 cs2, cs = cs1 ++ cs2 /\ cuts_of first x d cs2 /\ (forall q, In q cs1 -> (q <= length x)%nat).
  Proof.
    intros x d cs H [->|I].
    - exists [], cs. split; [reflexivity|]. split; [exact H|]. intros q [].
    - destruct (cuts_of_split first L P [] (x ++ d) cs H (length x) I) as (cs1 & cs2 & E & _ & Hc & H1 & _). cbn [app] in Hc.
      rewrite firstn_app_le, firstn_all, skipn_app_ge, Nat.sub_diag in Hc by lia. exists (cs1 ++ [length x]), cs2. rewrite <- app_assoc. auto.
  Qed.

  Lemma chunk_first : forall x k t cs, cuts_of first [] (x ++ k ++ t) cs -> k <> [] -> is_chunk x k cs -> first x k (length k).
  Proof.
    intros x k t cs H Hk (S0 & Hi & Hn). assert (1 <= length k)%nat by (destruct k; [contradiction|cbn; lia]).
    destruct (cuts_from x (k ++ t) cs H S0) as (cs1 & cs2 & -> & Hc & Hle).
    apply in_app_iff in Hi. destruct Hi as [Hi|Hi]; [specialize (Hle _ Hi); lia|].
    inversion Hc as [|? ? n cs' F Hc' E1 E2 E3]; subst; [destruct Hi|].
    assert (Hp := P _ _ _ F).
    assert (n = length k).
    { destruct Hi as [Hi|Hi]; [lia|].
      assert (G := cuts_of_ge _ _ _ _ Hc' _ Hi). rewrite app_length, firstn_length in G.
      assert (Hl := fl_len _ L _ _ _ F).
      destruct (Nat.eq_dec n (length k)) as [X|X]; [exact X|exfalso]. apply (Hn (length x + n)%nat); [apply in_app_iff; right; now left|lia]. }
    subst n. apply Lo in F. rewrite firstn_app_le, firstn_all in F by lia. exact F.
  Qed.

  Lemma first_chunk : forall x k t cs, cuts_of first [] (x ++ k ++ t) cs -> x = [] \/ In (length x) cs -> first x k (length k) -> is_chunk x k cs.
  Proof.
    intros x k t cs H S0 F. split; [exact S0|]. destruct (cuts_from x (k ++ t) cs H S0) as (cs1 & cs2 & -> & Hc & Hle).
    apply (fl_ext _ L _ _ t) in F. inversion Hc as [? ? N|? ? n cs' F' Hc' E1 E2 E3]; subst; [exfalso; exact (N _ F)|].
    assert (n = length k) as -> by (eapply (fl_fun _ L); eauto). split; [apply in_app_iff; right; now left|].
    intros q Hq. apply in_app_iff in Hq. destruct Hq as [Hq|[Hq|Hq]]; [specialize (Hle _ Hq); lia|lia|].
    assert (G := cuts_of_ge _ _ _ _ Hc' _ Hq). rewrite app_length, firstn_length, app_length in G. lia.
  Qed.

  Lemma alike : forall x1 x2 k t1 t2 cs1 cs2, cuts_of first [] (x1 ++ k ++ t1) cs1 -> cuts_of first [] (x2 ++ k ++ t2) cs2 -> k <> [] ->
    (first x1 k (length k) -> first x2 k (length k)) ->
    is_chunk x1 k cs1 -> x2 = [] \/ In (length x2) cs2 -> is_chunk x2 k cs2.
  Proof.
    intros x1 x2 k t1 t2 cs1 cs2 H1 H2 Hk T C1 S2. eapply first_chunk; [exact H2|exact S2|]. apply T. eapply chunk_first; eauto.
  Qed.
End Alike.

(** ** [find_chunk_edge] *)

(** A chunk of one stream, met at the start of a chunk of another (or of the same) stream, is a chunk there, whatever follows. *)
Theorem C65_edge_alike : forall c C rule sh1 sh2, typed c -> chunk_of c = Ok C -> chunk_sound c -> chunk_rule c = Some rule ->
  forall x1 x2 k t1 t2 sched1 sched2 r1 r2, stream_len (length (x1 ++ k ++ t1)) -> stream_len (length (x2 ++ k ++ t2)) -> k <> [] ->
  run_chunk sh1 C (x1 ++ k ++ t1) (sched1 ++ drain (x1 ++ k ++ t1)) = Ok r1 ->
  run_chunk sh2 C (x2 ++ k ++ t2) (sched2 ++ drain (x2 ++ k ++ t2)) = Ok r2 ->
  is_chunk x1 k (r_cuts r1) -> x2 = [] \/ In (length x2) (r_cuts r2) -> is_chunk x2 k (r_cuts r2).
Proof.
  intros c C rule sh1 sh2 T E S R x1 x2 k t1 t2 sched1 sched2 r1 r2 L1 L2 Hk E1 E2.
  apply (alike (ends_at (per_chunk rule)) (ends_at_laws _) (ends_at_progressive _) (ends_at_local _) x1 x2 k t1 t2); [| |exact Hk|].
  - exact (chunk_complete c C rule T E S R sh1 _ _ _ L1 E1).
  - exact (chunk_complete c C rule T E S R sh2 _ _ _ L2 E2).
  - apply history_free_at.
Qed.
Print Assumptions C65_edge_alike.

(** FastCdc, for callers that are not made to panic. *)
Theorem C65_fastcdc_edge_alike : forall g min normal max sh1 sh2, length g = 256%nat -> 0 <= min ->
  let C := fastcdc_chunk (fastcdc_new g min normal max) in
  forall x1 x2 k t1 t2 sched1 sched2 r1 r2, below_2_64 (length (x1 ++ k ++ t1)) -> below_2_64 (length (x2 ++ k ++ t2)) -> k <> [] ->
  run_chunk sh1 C (x1 ++ k ++ t1) (sched1 ++ drain (x1 ++ k ++ t1)) = Ok r1 ->
  run_chunk sh2 C (x2 ++ k ++ t2) (sched2 ++ drain (x2 ++ k ++ t2)) = Ok r2 ->
  is_chunk x1 k (r_cuts r1) -> x2 = [] \/ In (length x2) (r_cuts r2) -> is_chunk x2 k (r_cuts r2).
Proof.
  intros g min normal max sh1 sh2 Hg Hm C x1 x2 k t1 t2 sched1 sched2 r1 r2 L1 L2 Hk E1 E2.
  set (p := fastcdc_new g min normal max) in *. assert (Hp : fastcdc_ok (fc_up p)) by (apply fc_up_ok; assumption).
  assert (F : forall sh data sched r, below_2_64 (length data) -> run_chunk sh (fastcdc_chunk p) data (sched ++ drain data) = Ok r -> cuts_of (fc_edge (fc_up p)) [] data (r_cuts r)).
  { intros sh data sched r Hl Er. destruct (fc_run_alt p sh data Hg Hm Hl (sched ++ drain data)) as [X|[X _]]; apply (eq_trans (eq_sym X)) in Er; [|discriminate Er].
    destruct (fc_run_end (fc_up p) sh data sched r Hp Hl Er) as [A B].
    assert (K := fc_run_cuts (fc_up p) sh data _ r Hp Hl Er A). rewrite B, firstn_all in K. exact K. }
  apply (alike (fc_edge (fc_up p)) (fc_edge_laws (fc_up p) Hm) (fc_edge_progressive (fc_up p)) (fc_edge_local (fc_up p) Hm) x1 x2 k t1 t2); [exact (F sh1 _ _ _ L1 E1)|exact (F sh2 _ _ _ L2 E2)|exact Hk|].
  intros (n & Q). exists n. exact Q.
Qed.
Print Assumptions C65_fastcdc_edge_alike.

(** ** [push], where the chunker resets at a cut.  Mii treats the first chunk of a stream in its own way. *)
Theorem C65_push_alike : forall c C, typed c -> incr_of c = Ok C -> incr_sound c ->
  match c with CfgRollSum _ | CfgZstd _ | CfgFastCdc _ _ _ _ => False | _ => True end ->
  forall x1 x2 k t1 t2 sched1 sched2 r1 r2, stream_len (length (x1 ++ k ++ t1)) -> stream_len (length (x2 ++ k ++ t2)) -> k <> [] ->
  match c with CfgMii _ => (x1 = [] <-> x2 = []) | _ => True end ->
  run_incr (incr_adj c) C (x1 ++ k ++ t1) (sched1 ++ drain (x1 ++ k ++ t1)) = Ok r1 ->
  run_incr (incr_adj c) C (x2 ++ k ++ t2) (sched2 ++ drain (x2 ++ k ++ t2)) = Ok r2 ->
  is_chunk x1 k (r_cuts r1) -> x2 = [] \/ In (length x2) (r_cuts r2) -> is_chunk x2 k (r_cuts r2).
Proof.
  intros c C T E S R x1 x2 k t1 t2 sched1 sched2 r1 r2 L1 L2 Hk HM E1 E2.
  assert (Lo : local_first (incr_first c)) by (destruct c; cbn [incr_first]; try contradiction; apply ends_at_local).
  apply (alike (incr_first c) (incr_first_laws c T) (incr_first_progressive c S) Lo x1 x2 k t1 t2); [| |exact Hk|].
  - exact (incr_complete c C T E S _ _ _ L1 E1).
  - exact (incr_complete c C T E S _ _ _ L2 E2).
  - destruct c; cbn [incr_first]; try contradiction; try apply history_free_at.
    assert (X : forall d, mii_incr_rule w x1 d <-> mii_incr_rule w x2 d).
    { intros d. unfold mii_incr_rule. destruct x1, x2; try tauto; exfalso; [assert (Y := proj1 HM eq_refl)|assert (Y := proj2 HM eq_refl)]; discriminate Y. }
    intros (A & B & D). split; [exact A|]. split; [apply X; exact B|]. intros m Hm Q. apply (D m Hm). now apply X.
Qed.
Print Assumptions C65_push_alike.

(** RollSumIncr does not reset, and FastCdcIncr looks at the byte after the chunk: the same bytes after a cut are a chunk in one stream, not in the other. *)
Theorem C65_rollsum_push_refuted : exists x k r1 r2,
  run_incr 0 (rollsum_incr 8) (x ++ k) (drain (x ++ k)) = Ok r1 /\ run_incr 0 (rollsum_incr 8) k (drain k) = Ok r2 /\
  is_chunk x k (r_cuts r1) /\ ~ is_chunk [] k (r_cuts r2).
Proof.
  destruct (cuts_seen_inv _ (run_incr 0 (rollsum_incr 8) (firstn 8 bup_demo ++ [nth 8 bup_demo x00]) (drain (firstn 8 bup_demo ++ [nth 8 bup_demo x00]))) [8; 9]%nat ltac:(vm_compute; reflexivity)) as (r1 & E1 & H1).
  destruct (cuts_seen_inv _ (run_incr 0 (rollsum_incr 8) [nth 8 bup_demo x00] (drain [nth 8 bup_demo x00])) []%nat ltac:(vm_compute; reflexivity)) as (r2 & E2 & H2).
  exists (firstn 8 bup_demo), [nth 8 bup_demo x00], r1, r2. split; [exact E1|]. split; [exact E2|]. rewrite H1, H2. split.
  - split; [right; vm_compute; auto|]. split; [vm_compute; auto|]. intros q Hq. vm_compute in Hq. cbn. lia.
  - intros (_ & [] & _).
Qed.
Print Assumptions C65_rollsum_push_refuted.

Theorem C65_fastcdc_push_refuted : exists k t1 t2 r1 r2, let C := fastcdc_incr (fastcdc_new GEAR_64 3 3 7) in
  run_incr 0 C (k ++ t1) (drain (k ++ t1)) = Ok r1 /\ run_incr 0 C (k ++ t2) (drain (k ++ t2)) = Ok r2 /\
  is_chunk [] k (r_cuts r1) /\ ~ is_chunk [] k (r_cuts r2).
Proof.
  set (C := fastcdc_incr (fastcdc_new GEAR_64 3 3 7)). set (k := [x00; x00; x00]).
  destruct (cuts_seen_inv _ (run_incr 0 C (k ++ [x75]) (drain (k ++ [x75]))) [3]%nat ltac:(vm_compute; reflexivity)) as (r1 & E1 & H1).
  destruct (cuts_seen_inv _ (run_incr 0 C (k ++ [x00]) (drain (k ++ [x00]))) []%nat ltac:(vm_compute; reflexivity)) as (r2 & E2 & H2).
  exists k, [x75], [x00], r1, r2. cbv zeta. split; [exact E1|]. split; [exact E2|]. rewrite H1, H2. split.
  - split; [now left|]. split; [now left|]. intros q Hq. cbn in Hq. cbn. lia.
  - intros (_ & [] & _).
Qed.
Print Assumptions C65_fastcdc_push_refuted.

(** The chunk 03 02 of one stream, met again after another first chunk. *)
Example C65_case : let C := gzip_chunk (gzip_with_window_and_modulus 2 5) in
  let x1 := [x01; x02; x01; x02; x04; x01] in let x2 := [x04; x01] in let k := [x03; x02] in
  cuts_seen (run_chunk false C (x1 ++ k ++ [x09; x01]) (drain (x1 ++ k ++ [x09; x01]))) = Some [6; 8; 10]%nat /\ is_chunk x1 k [6; 8; 10]%nat /\
  cuts_seen (run_chunk false C (x2 ++ k ++ [x07]) (drain (x2 ++ k ++ [x07]))) = Some [2; 4]%nat /\ is_chunk x2 k [2; 4]%nat.
Proof.
  split; [vm_compute; reflexivity|]. split; [split; [right; cbn; auto|split; [cbn; auto|intros q Hq; cbn in Hq |- *; lia]]|].
  split; [vm_compute; reflexivity|]. split; [right; cbn; auto|split; [cbn; auto|intros q Hq; cbn in Hq |- *; lia]].
Qed.
