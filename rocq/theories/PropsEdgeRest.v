(** * PropsEdgeRest: C60, C61 and C64 for the two [find_chunk_edge] that follow no buffering-independent rule. *)

From Verif Require Import Base Api Tables Spec Lists Contract CutFacts Stable Unbounded Force Zstd FastCdc FastCdcProofs FastCdcTotal FastCdcSafe FastCdcAny DriverFast.
From Verif Require Import Builtin BuiltinProofs Cases ZstdProofs PropsZstd PropsFastCdcSafe PropsForce.

(** ** FastCdc *)
Section Fast.
  Variables (g : list Z) (min normal max : Z).
  Hypothesis Hg : length g = 256%nat.
  Hypothesis Hmin : 0 <= min.
  Let p := fastcdc_new g min normal max.
  Let q := fc_up p.
  Let Hq : fastcdc_ok q := fc_up_ok p Hg Hmin.
  Let L : first_laws (fc_edge q) := fc_edge_laws q Hmin.

  Lemma fast_complete : forall sh data sched r, below_2_64 (length data) ->
    run_chunk sh (fastcdc_chunk p) data (sched ++ drain data) = Ok r -> cuts_of (fc_edge q) [] data (r_cuts r).
  Proof. intros sh data sched r Hl E. exact (proj1 (proj2 (C27_fastcdc_exact_partial g min normal max sh data Hg Hmin Hl)) sched r E). Qed.

  Lemma fast_edge_capped : capped (fc_edge q) (fc_cap p + 1) /\ forall h d, (forall n, ~ fc_edge q h d n) -> Z.of_nat (length d) <= fc_cap p.
  Proof.
    assert (C := fastcdc_capped g min normal (fc_top p) Hmin). assert (T : Z.max min (fc_top p) = fc_cap p) by reflexivity. rewrite T in C.
    assert (K : forall h d, (forall n, ~ fc_edge q h d n) -> Z.of_nat (length d) <= fc_cap p).
    { intros h d N. destruct (Z.leb_spec (Z.of_nat (length d)) (fc_cap p)) as [G|G]; [exact G|]. exfalso.
      enough (X : Z.of_nat (length d) <= fc_cap p) by lia. apply (C h d). intros n F. assert (B := proj1 (C h d) n F). apply (N (S n)). exists n. split; [reflexivity|]. split; [lia|exact F]. }
    split; [|exact K]. intros h d. split; [intros m (n & -> & _ & F); assert (B := proj1 (C h d) n F); lia|]. intros N. specialize (K h d N). lia.
  Qed.

  Lemma fast_edge_dec : forall h d, below_2_64 (length d) -> (exists n, fc_edge q h d n) \/ (forall n, ~ fc_edge q h d n).
  Proof.
    intros h d Hl. destruct (first_dec q Hq d Hl) as [[n F]|F].
    - specialize (F h). destruct (Nat.lt_ge_cases n (length d)) as [G|G]; [left; exists (S n), n; auto|].
      right. intros m (k & -> & Hk & Fk). assert (n = k) by (exact (fl_fun _ (fc_laws q Hmin) _ _ _ _ F Fk)). lia.
    - right. intros m (k & -> & _ & Fk). exact (F h k Fk).
  Qed.

  Lemma fast_path : forall m h d, (length d < m)%nat -> below_2_64 (length d) -> exists cs h' d', cut_path (fc_edge q) h d cs h' d' /\ forall n, ~ fc_edge q h' d' n.
  Proof.
    induction m as [|m IH]; intros h d Hm Hl; [lia|]. destruct (fast_edge_dec h d Hl) as [[n F]|F]; [|exists [], h, d; split; [constructor|exact F]].
    assert (B := fl_len _ L _ _ _ F). assert (P := fc_edge_progressive q _ _ _ F).
    destruct (IH (h ++ firstn n d) (skipn n d)) as (cs & h' & d' & X & N); [rewrite skipn_length; lia|unfold below_2_64 in *; rewrite skipn_length; lia|].
    exists ((length h + n)%nat :: cs), h', d'. split; [now apply path_cons|exact N].
  Qed.

  Lemma path_more : forall h d cs h' d' e, cut_path (fc_edge q) h d cs h' d' -> cut_path (fc_edge q) h (d ++ e) cs h' (d' ++ e).
  Proof.
    intros h d cs h' d' e P. induction P as [h d|h d n cs h' d' F P IH]; [constructor|]. assert (B := fl_len _ L _ _ _ F).
    apply path_cons; [now apply (fl_ext _ L)|]. rewrite firstn_app_le, skipn_app_le by lia. exact IH.
  Qed.

  (** Where everything is cut, the caller who shows everything does not panic. *)
  Lemma fast_all_cut : forall sh data cs, below_2_64 (length data) -> cuts_of (fc_edge q) [] data cs -> last cs 0%nat = length data ->
    exists r, run_chunk sh (fastcdc_chunk p) data (drain data) = Ok r.
  Proof.
    intros sh data cs Hl H Hlast. destruct (proj1 (C27_fastcdc_exact_partial g min normal max sh data Hg Hmin Hl) (drain data)) as [E|(r & E & _)]; [|exists r; exact E].
    exfalso. apply (C27_fastcdc_one_buffer_partial g min normal max sh data Hg Hmin Hl) in E. destruct E as (cs1 & h & d & P & B1 & B2 & B3).
    change (cut_path (fc_edge q) [] data cs1 h d) in P.
    assert (Cl : fc_cliff p d) by exact (conj B1 (conj B2 B3)).
    assert (Hd : below_2_64 (length d)).
    { unfold below_2_64 in *. assert (X := f_equal (@length _) (cut_path_app _ _ _ _ _ _ P)). rewrite !app_length in X. cbn [length] in X. lia. }
    destruct (fast_edge_dec h d Hd) as [[n F]|F]; [exact (fc_cliff_edge p Hg h d n F Cl)|].
    assert (X := cut_path_cuts _ _ _ _ _ _ P [] (cuts_none _ _ _ F)). rewrite app_nil_r in X. assert (cs = cs1) by exact (cuts_of_fun _ L _ _ _ H _ X). subst cs1.
    assert (Y := cut_path_app _ _ _ _ _ _ P). cbn [app] in Y. apply (f_equal (@length _)) in Y. rewrite app_length in Y.
    assert (Z : length h = last cs 0%nat).
    { clear - P L. change 0%nat with (length (@nil byte)). revert P. generalize (@nil byte) as h0. intros h0 P. induction P as [h0 d0|h0 d0 n cs h' d' F P IH]; [reflexivity|].
      assert (B := fl_len _ L _ _ _ F). rewrite IH. rewrite app_length, firstn_length, Nat.min_l by lia. destruct cs as [|c cs]; [reflexivity|].
      change (last ((length h0 + n)%nat :: c :: cs) (length h0)) with (last (c :: cs) (length h0)). apply last_other. discriminate. }
    lia.
  Qed.
End Fast.

(** C60: with [find_chunk_edge] every chunk of FastCdc, the tail included, has at most [max + 1] bytes (sizes in any order). *)
Theorem C60_fastcdc_edge : forall g min normal max sh data sched r, length g = 256%nat -> 0 <= min -> below_2_64 (length data) ->
  run_chunk sh (fastcdc_chunk (fastcdc_new g min normal max)) data (sched ++ drain data) = Ok r ->
  Forall (fun n => Z.of_nat n <= Z.max min (Z.max normal max) + 1) (sizes 0 (r_cuts r ++ [length data])).
Proof.
  intros g min normal max sh data sched r Hg Hmin Hl E.
  exact (capped_sizes _ _ (proj1 (fast_edge_capped g min normal max Hg Hmin)) (fc_edge_laws (fc_up (fastcdc_new g min normal max)) Hmin) [] data _ (fast_complete g min normal max Hg Hmin sh data sched r Hl E)).
Qed.
Print Assumptions C60_fastcdc_edge.

(** C60: none for Zstd. *)
Theorem C60_zstd_edge : forall t p sh n, 0 <= t < 2 ^ 64 -> zstd_with_target_section_size t = Ok p ->
  forall sched, exists r, run_chunk sh (zstd_chunk p) (repeat x00 n) sched = Ok r /\ r_cuts r = [].
Proof.
  intros t p sh n Ht E sched. destruct (C48_zstd_total_partial t p sh (repeat x00 n) sched Ht E) as (r & Er & _). exists r. split; [exact Er|].
  assert (X := C48_zstd_first_partial t p sh _ sched r Ht E Er). destruct (r_cuts r) as [|c cs]; [reflexivity|]. exfalso.
  destruct (zstd_new_inv t p Ht E) as [_ B]. assert (U := uncut_none_stream _ _ (zstd_uncut (bits_of t) n ltac:(lia))). inversion U as [h d N|]; subst. exact (N c X).
Qed.
Print Assumptions C60_zstd_edge.

(** C61: FastCdc, for callers that are not made to panic. *)
Theorem C61_fastcdc_edge : forall g min normal max sh1 sh2 a b sched1 sched2 r1 r2, length g = 256%nat -> 0 <= min -> below_2_64 (length (a ++ b)) ->
  let C := fastcdc_chunk (fastcdc_new g min normal max) in
  run_chunk sh1 C a (sched1 ++ drain a) = Ok r1 -> run_chunk sh2 C (a ++ b) (sched2 ++ drain (a ++ b)) = Ok r2 ->
  exists later, r_cuts r2 = r_cuts r1 ++ later /\ forall p, In p later -> (length a < p)%nat.
Proof.
  intros g min normal max sh1 sh2 a b sched1 sched2 r1 r2 Hg Hmin Hl C E1 E2.
  assert (Ha : below_2_64 (length a)) by (unfold below_2_64 in *; rewrite app_length in Hl; lia).
  exact (cuts_append_local _ (fc_edge_laws (fc_up (fastcdc_new g min normal max)) Hmin) (fc_edge_local (fc_up (fastcdc_new g min normal max)) Hmin) (fc_edge_progressive _) _ _ _ (fast_complete g min normal max Hg Hmin _ _ _ _ Ha E1) b _
    (fast_complete g min normal max Hg Hmin _ _ _ _ Hl E2)).
Qed.
Print Assumptions C61_fastcdc_edge.

(** Whatever the chunker, after the last call of [drain] everything has been shown. *)
Lemma drive_seen : forall St sh (find : St -> list byte -> res (St * (option nat * nat))) data g, (length data <= g)%nat -> forall sched s base lo seen none r,
  drive_chunk sh find data (sched ++ [g]) s base lo seen none = Ok r -> r_seen r = length data.
Proof.
  intros St sh find data g Hg. induction sched as [|g0 sched IH]; intros s base lo seen none r E; cbn [app drive_chunk] in E.
  - destruct (find s _) as [[s' [[c|] d]]| |]; cbn [bind] in E; try discriminate;
      repeat match type of E with (if ?b then _ else _) = _ => destruct b; try discriminate end; cbn [bind] in E; injection E as <-; cbn [add_cut r_seen]; lia.
  - destruct (find s _) as [[s' [[c|] d]]| |]; cbn [bind] in E; try discriminate;
      repeat match type of E with (if ?b then _ else _) = _ => destruct b; try discriminate end.
    + destruct (drive_chunk _ _ _ _ _ _ _ _ _) as [r0| |] eqn:E0 in E; cbn [bind] in E; try discriminate. injection E as <-. cbn [add_cut r_seen]. exact (IH _ _ _ _ _ _ E0).
    + exact (IH _ _ _ _ _ _ E).
Qed.

Lemma run_seen : forall sh C data sched r, run_chunk sh C data (sched ++ drain data) = Ok r -> r_seen r = length data.
Proof.
  intros sh C data sched r E. unfold drain in E. replace (S (length data)) with (length data + 1)%nat in E by lia. rewrite repeat_app, app_assoc in E. cbn [repeat] in E.
  exact (drive_seen _ _ _ _ _ (le_n _) _ _ _ _ _ _ _ E).
Qed.

(** C61: of Zstd's cuts the first stays, for every two callers ... *)
Theorem C61_zstd_edge_first : forall t p sh1 sh2 a b sched1 sched2 r1 r2, 0 <= t < 2 ^ 64 -> zstd_with_target_section_size t = Ok p ->
  run_chunk sh1 (zstd_chunk p) a (sched1 ++ drain a) = Ok r1 -> run_chunk sh2 (zstd_chunk p) (a ++ b) (sched2 ++ drain (a ++ b)) = Ok r2 ->
  match r_cuts r1, r_cuts r2 with
  | q1 :: _, q2 :: _ => q1 = q2
  | _ :: _, [] => False
  | [], q2 :: _ => (length a < q2)%nat
  | [], [] => True
  end.
Proof.
  intros t p sh1 sh2 a b sched1 sched2 r1 r2 Ht E E1 E2.
  assert (X1 := C48_zstd_first_partial t p sh1 _ _ r1 Ht E E1). assert (X2 := C48_zstd_first_partial t p sh2 _ _ r2 Ht E E2).
  assert (S1 := run_seen _ _ _ _ _ E1). assert (S2 := run_seen _ _ _ _ _ E2). rewrite S1, firstn_all in X1. rewrite S2, firstn_all in X2.
  assert (L := ends_at_laws (per_stream (zstd_rule (bits_of t)))).
  destruct (r_cuts r1) as [|q1 cs1], (r_cuts r2) as [|q2 cs2]; [exact I| | |].
  - destruct (Nat.lt_ge_cases (length a) q2) as [G|G]; [exact G|]. exfalso. apply (X1 q2). apply (ends_at_local (per_stream (zstd_rule (bits_of t)))) in X2.
    rewrite firstn_app_le in X2 by exact G. apply (fl_ext _ L _ _ (skipn q2 a)) in X2. now rewrite firstn_skipn in X2.
  - apply (X2 q1). now apply (fl_ext _ L).
  - apply (fl_ext _ L _ _ b) in X1. exact (fl_fun _ L _ _ _ _ X1 X2).
Qed.
Print Assumptions C61_zstd_edge_first.

(** ... but the second does not, when the buffers differ. *)
Theorem C61_zstd_edge_refuted : exists t p a b sched1 sched2 r1 r2, zstd_with_target_section_size t = Ok p /\
  run_chunk false (zstd_chunk p) a (sched1 ++ drain a) = Ok r1 /\ run_chunk false (zstd_chunk p) (a ++ b) (sched2 ++ drain (a ++ b)) = Ok r2 /\
  r_cuts r1 = [33; 36]%nat /\ r_cuts r2 = [33]%nat /\ length a = 36%nat.
Proof.
  destruct (zstd_with_target_section_size (2 ^ 20)) as [p| |] eqn:E; try (vm_compute in E; discriminate).
  assert (P := E). vm_compute in P. injection P as P.
  destruct (cuts_seen_inv _ (run_chunk false (zstd_chunk p) zstd_demo (repeat 33%nat 36 ++ drain zstd_demo)) [33; 36]%nat ltac:(rewrite <- P; vm_compute; reflexivity)) as (r1 & E1 & H1).
  destruct (cuts_seen_inv _ (run_chunk false (zstd_chunk p) (zstd_demo ++ [x00]) ([] ++ drain (zstd_demo ++ [x00]))) [33]%nat ltac:(rewrite <- P; vm_compute; reflexivity)) as (r2 & E2 & H2).
  exists (2 ^ 20), p, zstd_demo, [x00], (repeat 33%nat 36), [], r1, r2. auto 10.
Qed.
Print Assumptions C61_zstd_edge_refuted.

(** C64: after any stream some bytes lead to a cut of FastCdc; and then the caller who shows everything is not made to panic. *)
Theorem C64_fastcdc_edge : forall g min normal max data, length g = 256%nat -> 0 <= min ->
  let top := Z.max min (Z.max normal max) in Z.of_nat (length data) + top + 1 < 2 ^ 64 ->
  let C := fastcdc_chunk (fastcdc_new g min normal max) in
  exists ext, Z.of_nat (length ext) <= top + 1 /\ (1 <= length ext)%nat /\
  (forall sh sched r, run_chunk sh C (data ++ ext) (sched ++ drain (data ++ ext)) = Ok r -> In (length (data ++ ext)) (r_cuts r)) /\
  (forall sh, exists r, run_chunk sh C (data ++ ext) (drain (data ++ ext)) = Ok r).
Proof.
  intros g min normal max data Hg Hmin top Hl C. set (p := fastcdc_new g min normal max) in *. set (q := fc_up p).
  assert (Hq : fastcdc_ok q) by exact (fc_up_ok p Hg Hmin). assert (L := fc_edge_laws q Hmin : first_laws (fc_edge q)).
  assert (Ht : 0 <= top) by (unfold top; lia).
  destruct (fast_path g min normal max Hg Hmin (S (length data)) [] data ltac:(lia) ltac:(unfold below_2_64; lia)) as (cs & h & d & P & N).
  fold p q in P, N. set (word := repeat x00 (Z.to_nat (top + 1))).
  assert (Ed : data = h ++ d) by exact (cut_path_app _ _ _ _ _ _ P).
  assert (Ld := f_equal (@length _) Ed). rewrite app_length in Ld.
  assert (Lw : length word = Z.to_nat (top + 1)) by apply repeat_length.
  assert (Hw : below_2_64 (length (d ++ word))) by (unfold below_2_64; rewrite app_length, Lw; lia).
  destruct (fast_edge_dec g min normal max Hg Hmin h (d ++ word) Hw) as [[n F]|F].
  2:{ exfalso. apply (proj2 (fast_edge_capped g min normal max Hg Hmin)) in F. rewrite app_length, Lw in F. unfold fc_cap in F. cbn in F. fold top in F. lia. }
  fold p q in F. assert (B := fl_len _ L _ _ _ F). rewrite app_length, Lw in B.
  assert (Hn : (length d < n)%nat).
  { destruct (Nat.lt_ge_cases (length d) n) as [G|G]; [exact G|]. exfalso. apply (N n). apply (fc_edge_local q Hmin) in F. rewrite firstn_app_le in F by exact G.
    apply (fl_ext _ L _ _ (skipn n d)) in F. now rewrite firstn_skipn in F. }
  set (ext := firstn (n - length d) word). assert (Le : length ext = (n - length d)%nat) by (unfold ext; rewrite firstn_length; lia).
  exists ext. rewrite Le. split; [lia|]. split; [lia|].
  apply (fc_edge_local q Hmin) in F. rewrite firstn_app_ge in F by lia. fold ext in F.
  assert (X : cuts_of (fc_edge q) [] (data ++ ext) (cs ++ [length (data ++ ext)])).
  { apply (cut_path_cuts _ _ _ _ _ _ (path_more g min normal max Hg Hmin _ _ _ _ _ ext P)).
    replace (length (data ++ ext)) with (length h + n)%nat by (rewrite app_length, Le; lia). apply cuts_some; [exact F|].
    rewrite skipn_all2 by (rewrite app_length, Le; lia). constructor. apply (fl_nil _ L). }
  assert (Hb : below_2_64 (length (data ++ ext))) by (unfold below_2_64; rewrite app_length, Le; lia).
  split.
  - intros sh sched r E. assert (Y := fast_complete g min normal max Hg Hmin sh _ sched r Hb E). assert (W : cs ++ [length (data ++ ext)] = r_cuts r) by exact (cuts_of_fun _ L _ _ _ X _ Y). rewrite <- W. apply in_or_app. right. now left.
  - intros sh. apply (fast_all_cut g min normal max Hg Hmin sh _ _ Hb X). apply last_last.
Qed.
Print Assumptions C64_fastcdc_edge.

(** C64: Zstd, for callers who show 33 bytes at a time. *)
Theorem C64_zstd_edge : forall t p, 0 <= t < 2 ^ 64 -> zstd_with_target_section_size t = Ok p ->
  forall data n r, (length (data ++ zstd_word) <= n)%nat -> run_chunk false (zstd_chunk p) (data ++ zstd_word) (repeat 33%nat n) = Ok r ->
  exists q, In q (r_cuts r) /\ (length data < q <= length data + length zstd_word)%nat.
Proof.
  intros t p Ht E data n r Hn Er. destruct (zstd_new_inv t p Ht E) as [_ B].
  assert (A : Forall (fun g => (g <= 33)%nat) (repeat 33%nat n)) by (apply Forall_forall; intros x Hx; apply repeat_spec in Hx; lia).
  assert (A' : Forall (fun g => g = 33%nat) (repeat 33%nat n)) by (apply Forall_forall; intros x Hx; now apply repeat_spec in Hx).
  destruct (C48_zstd_small_partial t p (data ++ zstd_word) _ Ht E A) as (r' & Er' & _ & _ & X & Y). assert (r' = r) by congruence. subst r'.
  rewrite Y, firstn_all in X; [|exact A'|rewrite repeat_length; exact Hn].
  refine (forcing_at _ zstd_word _ _ data _ X); [discriminate|]. intros h c. unfold per_stream. rewrite app_assoc. apply zstd_word_rule. lia.
Qed.
Print Assumptions C64_zstd_edge.

Example C64_edge_case : let C := fastcdc_chunk (fastcdc_new GEAR_64 1 2 4) in
  cuts_seen (run_chunk false C (repeat x00 3) (drain (repeat x00 3))) = Some [] /\
  cuts_seen (run_chunk false C (repeat x00 5) (drain (repeat x00 5))) = Some [5]%nat /\
  panics (run_chunk false C (repeat x00 4) (drain (repeat x00 4))) = true.
Proof. vm_compute. repeat split; reflexivity. Qed.
