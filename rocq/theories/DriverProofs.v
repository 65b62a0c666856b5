(** * DriverProofs: the repository's own callers of the traits. *)

From Verif Require Import Base Api Spec Lists Contract CutFacts Drivers.

(** ** A run of [find_chunk_edge], one call at a time *)

(** The earliest end of the next window, for a caller who may start over after a cut. *)
Definition low_end {St} (r : run St) : nat := if r_none r then r_seen r else r_base r.

Lemma drive_chunk_cons : forall St (find : St -> list byte -> res (St * (option nat * nat))) data g sched (s : St) base lo seen (none : bool),
  drive_chunk true find data (g :: sched) s base lo seen none =
  (let hi := Nat.min (length data) (Nat.max lo (base + g)) in
   let buf := firstn (hi - base) (skipn base data) in
   '(s', (edge, d)) <- find s buf ;;
   if Nat.ltb (length buf) d then Panic
   else match edge with
        | Some c => if Nat.ltb (length buf) c then Panic
                    else r <- drive_chunk true find data sched s' (base + d) (base + d) hi false ;; Ok (add_cut (base + c) r)
        | None => drive_chunk true find data sched s' (base + d) hi hi true
        end).
Proof. reflexivity. Qed.

Lemma drive_chunk_snoc : forall St (find : St -> list byte -> res (St * (option nat * nat))) data g sched (s : St) base lo seen (none : bool), lo = (if none then seen else base) ->
  drive_chunk true find data (sched ++ [g]) s base lo seen none =
  (r <- drive_chunk true find data sched s base lo seen none ;;
   r2 <- drive_chunk true find data [g] (r_state r) (r_base r) (low_end r) (r_seen r) (r_none r) ;;
   Ok {| r_cuts := r_cuts r ++ r_cuts r2; r_state := r_state r2; r_base := r_base r2; r_seen := r_seen r2; r_none := r_none r2 |}).
Proof.
  intros St find data g; induction sched as [|g0 sched IH]; intros s base lo seen none Hlo.
  - subst lo. cbn [app]. set (lo := if none then seen else base).
    set (X := drive_chunk true find data [g] s base lo seen none).
    change (X = (r2 <- X ;; Ok {| r_cuts := r_cuts r2; r_state := r_state r2; r_base := r_base r2; r_seen := r_seen r2; r_none := r_none r2 |})).
    destruct X as [[]| |]; reflexivity.
  - cbn [app]. rewrite (drive_chunk_cons _ _ _ g0 (sched ++ [g])), (drive_chunk_cons _ _ _ g0 sched). cbv zeta.
    set (hi := Nat.min (length data) (Nat.max lo (base + g0))).
    destruct (find s (firstn (hi - base) (skipn base data))) as [[s' [edge d]]| |]; cbn [bind]; try reflexivity.
    destruct (Nat.ltb _ d); [reflexivity|]. destruct edge as [c|].
    + destruct (Nat.ltb _ c); [reflexivity|]. rewrite IH by reflexivity.
      destruct (drive_chunk true find data sched s' (base + d) (base + d) hi false) as [r| |]; cbn [bind]; try reflexivity.
      set (Y := drive_chunk true find data [g] (r_state r) (r_base r) (low_end r) (r_seen r) (r_none r)).
      change (drive_chunk true find data [g] (r_state (add_cut (base + c) r)) (r_base (add_cut (base + c) r))
        (low_end (add_cut (base + c) r)) (r_seen (add_cut (base + c) r)) (r_none (add_cut (base + c) r))) with Y.
      destruct Y as [r2| |]; reflexivity.
    + rewrite IH by reflexivity. reflexivity.
Qed.

(** ** Callers that show windows of their own choice *)
Section Callers.
  Variable C : Chunk.
  Variable first : first_rel.
  Variable lim : nat -> Prop.
  Variable keep : nat.
  Hypothesis L : first_laws first.
  Hypothesis Pr : progressive first.
  Hypothesis H : chunk_conforms true C first lim keep.
  (** After a cut everything up to the cut is discarded. *)
  Hypothesis Hd : forall s buf s' k d, find_chunk_edge C s buf = Ok (s', (Some k, d)) -> d = k.

  Variable data : list byte.
  Variable cs : list nat.
  Hypothesis Hlim : lim (length data).
  Hypothesis Hcs : cuts_of first [] data cs.

  (** [r] is where some caller has got to. *)
  Definition got (r : run (search_state C)) : Prop := exists sched, run_chunk true C data sched = Ok r.

  Lemma got_start : got {| r_cuts := []; r_state := to_search_state C; r_base := 0; r_seen := 0; r_none := false |}.
  Proof. now exists []. Qed.

  Lemma got_facts : forall r, got r -> (r_base r <= r_seen r <= length data)%nat /\ (exists later, cs = r_cuts r ++ later) /\
    (r_none r = true -> cuts_of first [] (firstn (r_seen r) data) (r_cuts r)).
  Proof.
    intros r [sched E]. destruct (H data Hlim) as (cs' & Hc & Hs). rewrite <- (cuts_of_fun _ L _ _ _ Hcs _ Hc) in *.
    destruct (Hs sched) as [(r' & E' & B & [t P] & N) _]. rewrite E in E'. inversion E'; subst r'.
    split; [exact B|]. split; [now exists t|]. intros Hn. exact (proj1 (N Hn)).
  Qed.

  (** One more call, with the window [base .. hi]. *)
  Lemma got_call : forall r hi, got r -> (low_end r <= hi <= length data)%nat -> (r_base r <= hi)%nat ->
    exists s' edge d, find_chunk_edge C (r_state r) (firstn (hi - r_base r) (skipn (r_base r) data)) = Ok (s', (edge, d)) /\
    (d <= hi - r_base r)%nat /\
    match edge with
    | Some k => d = k /\ got {| r_cuts := r_cuts r ++ [r_base r + k]%nat; r_state := s'; r_base := r_base r + d; r_seen := hi; r_none := false |}
    | None => got {| r_cuts := r_cuts r; r_state := s'; r_base := r_base r + d; r_seen := hi; r_none := true |}
    end.
  Proof.
    intros r hi [sched E] Hh Hb. assert (Hg : exists g, g = (hi - r_base r)%nat) by eauto. destruct Hg as [g Hg].
    destruct (H data Hlim) as (cs' & _ & Hs). destruct (Hs (sched ++ [g])) as [(r2 & E2 & _) _]. clear Hs.
    unfold run_chunk in E, E2. rewrite drive_chunk_snoc in E2 by reflexivity. rewrite E in E2. cbn [bind] in E2. rewrite drive_chunk_cons in E2. cbv zeta in E2. cbn [drive_chunk] in E2.
    replace (Nat.min (length data) (Nat.max (low_end r) (r_base r + g))) with hi in E2 by lia.
    assert (Hlen : length (firstn (hi - r_base r) (skipn (r_base r) data)) = (hi - r_base r)%nat).
    { rewrite firstn_length, skipn_length. lia. }
    destruct (find_chunk_edge C (r_state r) (firstn (hi - r_base r) (skipn (r_base r) data))) as [[s' [edge d]]| |] eqn:Ef;
      cbn [bind] in E2; try discriminate.
    rewrite Hlen in E2. destruct (Nat.ltb_spec (hi - r_base r) d) as [|Hle]; [discriminate|].
    exists s', edge, d. split; [reflexivity|]. split; [exact Hle|]. destruct edge as [k|].
    - destruct (Nat.ltb_spec (hi - r_base r) k) as [|Hk]; [discriminate|]. cbn [bind add_cut r_cuts] in E2.
      split; [eapply Hd; eauto|]. exists (sched ++ [g]). unfold run_chunk. rewrite drive_chunk_snoc by reflexivity. rewrite E.
      cbn [bind]. rewrite drive_chunk_cons. cbv zeta. cbn [drive_chunk]. replace (Nat.min (length data) (Nat.max (low_end r) (r_base r + g))) with hi by lia.
      rewrite Ef. cbn [bind]. rewrite Hlen. destruct (Nat.ltb_spec (hi - r_base r) d); [lia|].
      destruct (Nat.ltb_spec (hi - r_base r) k); [lia|]. reflexivity.
    - exists (sched ++ [g]). unfold run_chunk. rewrite drive_chunk_snoc by reflexivity. rewrite E.
      cbn [bind]. rewrite drive_chunk_cons. cbv zeta. cbn [drive_chunk]. replace (Nat.min (length data) (Nat.max (low_end r) (r_base r + g))) with hi by lia.
      rewrite Ef. cbn [bind]. rewrite Hlen. destruct (Nat.ltb_spec (hi - r_base r) d); [lia|].
      cbn [bind r_cuts r_state r_base r_seen r_none]. now rewrite app_nil_r.
  Qed.

  Lemma cs_order : forall a q b, cs = a ++ q :: b -> (last a 0 < q <= length data)%nat.
  Proof.
    intros a q b E. destruct (cuts_of_increasing _ L Pr _ _ _ Hcs) as [S F]. cbn [length] in *. rewrite E in S, F.
    split.
    - destruct a as [|x a]; [cbn in *; lia|]. eapply strictly_above_app_lt; [exact S| |now left].
      destruct (exists_last (l := x :: a)) as (l & y & ->); [discriminate|]. rewrite last_last. apply in_or_app. right. now left.
    - rewrite Forall_forall in F. specialize (F q). cbn in F. apply F. apply in_or_app. right. now left.
  Qed.

  (** Shown everything, with no cut: no cuts are left. *)
  Lemma got_end : forall r, got r -> r_none r = true -> r_seen r = length data -> cs = r_cuts r.
  Proof.
    intros r G N S. destruct (got_facts r G) as (_ & _ & F). specialize (F N). rewrite S, firstn_all in F.
    eapply cuts_of_fun; eauto.
  Qed.

  (** Everything discarded: no cuts are left either. *)
  Lemma got_end_base : forall r, got r -> r_base r = length data ->
    (r_none r = false -> r_base r = last (r_cuts r) 0%nat) -> cs = r_cuts r.
  Proof.
    intros r G B N. destruct (got_facts r G) as (F & [t P] & _). destruct (r_none r) eqn:E.
    - apply got_end; auto; lia.
    - destruct t as [|q t]; [now rewrite app_nil_r in P|]. apply cs_order in P. specialize (N eq_refl). lia.
  Qed.

  Lemma count_below : forall l lo hi, strictly_above lo l -> Forall (fun q => q <= hi)%nat l -> (length l <= hi - lo)%nat.
  Proof.
    induction l as [|q l IH]; intros lo hi S F; [cbn; lia|]. inversion F; subst. destruct S as [S1 S2]. specialize (IH q hi S2 H3). cbn [length]. lia.
  Qed.

  Lemma few_cuts : (length cs <= length data)%nat.
  Proof. destruct (cuts_of_increasing _ L Pr _ _ _ Hcs) as [S F]. pose proof (count_below cs _ _ S F) as N. cbn [length] in N. lia. Qed.

  (** *** tests/cuts_qc.rs *)
  Variable buf_sizes : list nat.
  Hypothesis Hne : buf_sizes <> [].
  Hypothesis Hpos : Forall (fun n => 1 <= n)%nat buf_sizes.

  Lemma next_size : forall i, exists n, (match length buf_sizes with O => Panic | m => index buf_sizes (i mod m) end) = Ok n /\ (1 <= n)%nat.
  Proof.
    intros i. destruct (length buf_sizes) as [|m] eqn:E; [destruct buf_sizes; [now elim Hne|discriminate]|].
    assert (Hlt : (i mod S m < length buf_sizes)%nat) by (rewrite E; apply Nat.mod_upper_bound; lia).
    unfold index. destruct (nth_error buf_sizes (i mod S m)) as [n|] eqn:En; [|apply nth_error_None in En; lia].
    exists n. split; [reflexivity|]. rewrite Forall_forall in Hpos. apply Hpos. eapply nth_error_In; eauto.
  Qed.

  Definition fce_measure (r : run (search_state C)) : nat :=
    ((length cs - length (r_cuts r)) * (length data + 2) + (if r_none r then length data - r_seen r else length data + 1))%nat.

  Lemma splits_fce_loop : forall n r i prev later, got r -> cs = r_cuts r ++ later -> (fce_measure r < n)%nat ->
    (if r_none r then (r_seen r <= r_base r + prev)%nat else (prev = 0 /\ r_base r = last (r_cuts r) 0)%nat) ->
    splits_fce_from C n data buf_sizes i (r_state r) (last (r_cuts r) 0%nat) (r_base r) prev = Ok (sizes (last (r_cuts r) 0%nat) later).
  Proof.
    induction n as [|n IH]; intros r i prev later G P M I; [lia|].
    destruct (got_facts r G) as (B & _ & _). cbn [splits_fce_from].
    destruct (Nat.eqb_spec (length data) (r_base r)) as [E|E].
    { assert (Q : cs = r_cuts r) by (apply got_end_base; [assumption|lia|intros N; now rewrite N in I]).
      rewrite Q in P. destruct later; [reflexivity|]. exfalso. apply (f_equal (@length nat)) in P. rewrite app_length in P. cbn in P. lia. }
    destruct (next_size i) as (sz & -> & Hsz). cbn [bind]. unfold sub_usize at 1.
    destruct (Nat.leb_spec (r_base r) (length data)); [|lia]. cbn [bind].
    set (bs := Nat.min (sz + prev) (length data - r_base r)). set (hi := (r_base r + bs)%nat).
    assert (Hlow : (low_end r <= hi <= length data)%nat) by (unfold low_end; destruct (r_none r); subst hi bs; lia).
    unfold sub_slice. destruct (Nat.leb_spec (r_base r) (bs + r_base r)); [|lia].
    destruct (Nat.leb_spec (bs + r_base r) (length data)); [|subst bs; lia]. cbn [andb bind].
    replace (bs + r_base r - r_base r)%nat with (hi - r_base r)%nat by (subst hi; lia).
    destruct (got_call r hi G Hlow ltac:(subst hi; lia)) as (s' & edge & d & -> & Hdle & Hedge). cbn [bind].
    destruct edge as [k|].
    - destruct Hedge as [-> G']. set (q := (r_base r + k)%nat) in *.
      destruct (got_facts _ G') as (_ & [t P'] & _). cbn [r_cuts] in P'.
      rewrite P in P'. rewrite <- app_assoc in P'. apply app_inv_head in P'. cbn [app] in P'. subst later.
      assert (O := cs_order _ _ _ P). unfold sub_usize. destruct (Nat.leb_spec (last (r_cuts r) 0%nat) q); [|lia]. cbn [bind].
      specialize (IH _ (i + 1)%nat 0%nat t G'). cbn [r_cuts r_none r_state r_base r_seen] in IH. rewrite last_last in IH.
      fold q in IH. rewrite IH.
      + reflexivity.
      + now rewrite <- app_assoc.
      + unfold fce_measure in *. cbn [r_cuts r_none]. rewrite P in M |- *. rewrite !app_length in *. cbn [length] in *.
        replace (length (r_cuts r) + S (length t) - length (r_cuts r))%nat with (S (length t)) in M by lia.
        replace (length (r_cuts r) + S (length t) - (length (r_cuts r) + 1))%nat with (length t) by lia. nia.
      + lia.
    - destruct (Nat.eqb_spec bs (length data - r_base r)) as [E2|E2].
      + assert (Q : cs = r_cuts r) by (apply (got_end _ Hedge); [reflexivity|]; cbn [r_seen]; subst hi; lia).
        rewrite Q in P. destruct later; [reflexivity|]. exfalso. apply (f_equal (@length nat)) in P. rewrite app_length in P. cbn in P. lia.
      + specialize (IH _ (i + 1)%nat bs later Hedge). cbn [r_cuts r_none r_state r_base r_seen] in IH. apply IH; [exact P| |].
        * unfold fce_measure in *. cbn [r_cuts r_none r_seen]. destruct (r_none r); subst hi bs; lia.
        * subst hi. lia.
  Qed.

  (** No more rounds than the square of the length. *)
  Theorem splits_fce_sizes : forall fuel, ((length data + 2) * (length data + 2) <= fuel)%nat ->
    splits_fce C fuel data buf_sizes = Ok (sizes 0 cs).
  Proof.
    intros fuel Hf. unfold splits_fce. refine (splits_fce_loop _ _ 0%nat 0%nat cs got_start eq_refl _ (conj eq_refl eq_refl)).
    unfold fce_measure. cbn [r_cuts r_none length]. pose proof few_cuts. nia.
  Qed.

  (** *** tests/cuts.rs *)
  Lemma whole_splits_loop : forall n r later, got r -> cs = r_cuts r ++ later -> (length later < n)%nat ->
    (last (r_cuts r) 0 <= r_base r)%nat ->
    whole_splits_from C n data (r_state r) (r_base r) (last (r_cuts r) 0%nat) = Ok (sizes (last (r_cuts r) 0%nat) later).
  Proof.
    induction n as [|n IH]; intros r later G P M I; [lia|].
    destruct (got_facts r G) as (B & _ & _). cbn [whole_splits_from]. unfold sub_slice.
    destruct (Nat.leb_spec (r_base r) (length data)); [|lia]. rewrite Nat.leb_refl. cbn [andb bind].
    assert (Hlow : (low_end r <= length data <= length data)%nat) by (unfold low_end; destruct (r_none r); lia).
    destruct (got_call r (length data) G Hlow ltac:(lia)) as (s' & edge & d & -> & Hdle & Hedge). cbn [bind].
    destruct edge as [k|].
    - destruct Hedge as [-> G']. set (q := (r_base r + k)%nat) in *.
      destruct (got_facts _ G') as (_ & [t P'] & _). cbn [r_cuts] in P'.
      rewrite P in P'. rewrite <- app_assoc in P'. apply app_inv_head in P'. cbn [app] in P'. subst later.
      assert (O := cs_order _ _ _ P). destruct (Nat.ltb_spec q (last (r_cuts r) 0%nat)); [lia|].
      specialize (IH _ t G'). cbn [r_cuts r_none r_state r_base r_seen] in IH. rewrite last_last in IH.
      fold q in IH. rewrite IH.
      + reflexivity.
      + now rewrite <- app_assoc.
      + cbn in M. lia.
      + lia.
    - assert (Q : cs = r_cuts r) by (apply (got_end _ Hedge); reflexivity).
      rewrite Q in P. destruct later; [reflexivity|]. exfalso. apply (f_equal (@length nat)) in P. rewrite app_length in P. cbn in P. lia.
  Qed.

  Theorem whole_splits_sizes : forall fuel, (length data < fuel)%nat -> whole_splits C fuel data = Ok (sizes 0 cs).
  Proof.
    intros fuel Hf. exact (whole_splits_loop _ _ cs got_start eq_refl (Nat.le_lt_trans _ _ _ few_cuts Hf) (le_n _)).
  Qed.

  (** *** The loop in the documentation *)
  Lemma doc_loop_loop : forall n r later, got r -> cs = r_cuts r ++ later -> (length later < n)%nat ->
    (last (r_cuts r) 0 <= r_base r)%nat ->
    exists chunks dropped remain, doc_loop_from C n data (r_state r) (skipn (r_base r) data) (last (r_cuts r) 0%nat) = Ok (chunks, remain) /\
      map (@length byte) chunks = sizes (last (r_cuts r) 0%nat) later /\
      skipn (last (r_cuts r) 0%nat) data = concat chunks ++ dropped ++ remain /\ (length remain <= keep)%nat.
  Proof.
    induction n as [|n IH]; intros r later G P M I; [lia|].
    destruct (got_facts r G) as (B & _ & _). cbn [doc_loop_from].
    assert (Hlow : (low_end r <= length data <= length data)%nat) by (unfold low_end; destruct (r_none r); lia).
    assert (Hw : firstn (length data - r_base r) (skipn (r_base r) data) = skipn (r_base r) data).
    { apply firstn_all2. rewrite skipn_length. lia. }
    destruct (got_call r (length data) G Hlow ltac:(lia)) as (s' & edge & d & Ef & Hdle & Hedge). rewrite Hw in Ef. rewrite Ef. cbn [bind].
    destruct edge as [k|].
    - destruct Hedge as [-> G']. set (q := (r_base r + k)%nat) in *.
      destruct (got_facts _ G') as (_ & [t P'] & _). cbn [r_cuts] in P'.
      rewrite P in P'. rewrite <- app_assoc in P'. apply app_inv_head in P'. cbn [app] in P'. subst later.
      assert (O := cs_order _ _ _ P). unfold sub_usize. rewrite skipn_length.
      destruct (Nat.leb_spec (length data - r_base r) (k + length data)); [|lia]. cbn [bind].
      replace (k + length data - (length data - r_base r))%nat with q by (subst q; lia).
      unfold sub_slice. destruct (Nat.leb_spec (last (r_cuts r) 0%nat) q); [|lia].
      destruct (Nat.leb_spec q (length data)); [|lia]. cbn [andb bind].
      destruct (Nat.leb_spec k (length data - r_base r)); [|lia].
      rewrite skipn_length. rewrite Nat.leb_refl. cbn [andb bind].
      rewrite (firstn_all2 (n := length data - r_base r - k)) by (rewrite !skipn_length; lia).
      rewrite skipn_skipn'. fold q.
      specialize (IH _ t G'). cbn [r_cuts r_none r_state r_base r_seen] in IH. rewrite last_last in IH.
      fold q in IH. destruct IH as (chunks & dropped & remain & -> & E1 & E2 & E3).
      + now rewrite <- app_assoc.
      + cbn in M. lia.
      + lia.
      + cbn [bind]. eexists _, dropped, remain. split; [reflexivity|]. cbn [map sizes concat]. split.
        * rewrite E1. f_equal. rewrite firstn_length, skipn_length. lia.
        * split; [|assumption]. rewrite <- app_assoc, <- E2.
          rewrite <- (firstn_skipn (q - last (r_cuts r) 0%nat) (skipn (last (r_cuts r) 0%nat) data)) at 1.
          f_equal. rewrite skipn_skipn'. f_equal. lia.
    - assert (Q : cs = r_cuts r) by (apply (got_end _ Hedge); reflexivity).
      assert (later = []). { rewrite Q in P. destruct later; [reflexivity|]. exfalso. apply (f_equal (@length nat)) in P. rewrite app_length in P. cbn in P. lia. }
      subst later. unfold sub_slice. rewrite skipn_length. destruct (Nat.leb_spec d (length data - r_base r)); [|lia].
      rewrite Nat.leb_refl. cbn [andb bind].
      rewrite (firstn_all2 (n := length data - r_base r - d)) by (rewrite !skipn_length; lia).
      exists [], (firstn (d + r_base r - last (r_cuts r) 0%nat) (skipn (last (r_cuts r) 0%nat) data)), (skipn d (skipn (r_base r) data)).
      split; [reflexivity|]. split; [reflexivity|]. split.
      + cbn [concat app]. rewrite <- (firstn_skipn (d + r_base r - last (r_cuts r) 0%nat) (skipn (last (r_cuts r) 0%nat) data)) at 1.
        f_equal. rewrite !skipn_skipn'. f_equal. lia.
      + destruct Hedge as [sched E]. destruct (H data Hlim) as (cs' & _ & Hs). destruct (Hs sched) as [(r' & E' & _ & _ & N) _].
        rewrite E in E'. inversion E'; subst r'. cbn [r_none r_seen r_base] in N. destruct (N eq_refl) as [_ N'].
        rewrite !skipn_length. lia.
  Qed.

  Theorem doc_loop_prints : forall fuel, (length data < fuel)%nat ->
    exists chunks dropped remain, doc_loop C fuel data = Ok (chunks, remain) /\ map (@length byte) chunks = sizes 0 cs /\
      data = concat chunks ++ dropped ++ remain /\ (length remain <= keep)%nat.
  Proof.
    intros fuel Hf. exact (doc_loop_loop _ _ cs got_start eq_refl (Nat.le_lt_trans _ _ _ few_cuts Hf) (le_n _)).
  Qed.
End Callers.

(** ** A caller that pushes one byte at a time *)
Section Bytes.
  Variable C : Incr.
  Variable adj : nat.
  (** An answer is a position after the first byte and within what was pushed. *)
  Hypothesis Ha : forall s d s' k, incr_push C s d = Ok (s', Some k) -> (1 <= k + adj <= length d)%nat.

  Lemma push_nothing : forall data tail s base seen none r, (length data <= base)%nat ->
    drive_push adj (incr_push C) data tail s base seen none = Ok r -> r_cuts r = [].
  Proof.
    intros data tail; induction tail as [|g tail IH]; intros s base seen none r Hb E; cbn [drive_push] in E.
    - inversion E. reflexivity.
    - rewrite skipn_all2 in E by assumption. rewrite firstn_nil in E.
      destruct (incr_push C s []) as [[s' [k|]]| |] eqn:Ep; cbn [bind] in E; try discriminate.
      + apply Ha in Ep. cbn in Ep. lia.
      + cbn [length] in E. rewrite Nat.add_0_r in E. now apply IH in E.
  Qed.

  Lemma byte_splits_run : forall data rest i tail s seen none r p, skipn i data = rest -> (p <= i)%nat ->
    drive_push adj (incr_push C) data (repeat 1%nat (length rest) ++ tail) s i seen none = Ok r ->
    byte_splits_from C s p i rest = Ok (sizes p (r_cuts r)).
  Proof.
    intros data rest; induction rest as [|v rest IH]; intros i tail s seen none r p Hr Hp E.
    - cbn [length repeat app] in E. apply push_nothing in E.
      + rewrite E. reflexivity.
      + apply (f_equal (@length byte)) in Hr. rewrite skipn_length in Hr. cbn in Hr. lia.
    - assert (Hr' : skipn (i + 1) data = rest).
      { rewrite <- skipn_skipn', Hr. reflexivity. }
      cbn [length repeat app drive_push byte_splits_from] in *. rewrite Hr in E. cbn [firstn] in E.
      destruct (incr_push C s [v]) as [[s' [k|]]| |] eqn:Ep; cbn [bind] in E |- *; try discriminate.
      + apply Ha in Ep. cbn [length] in *. destruct (Nat.ltb_spec 1 (k + adj)); [lia|].
        replace (i + k + adj)%nat with (i + 1)%nat in E by lia.
        destruct (drive_push adj (incr_push C) data (repeat 1%nat (length rest) ++ tail) s' (i + 1) (i + 1) false) as [r0| |] eqn:E0;
          cbn [bind] in E; try discriminate. inversion E; subst r.
        unfold sub_usize. destruct (Nat.leb_spec p (i + 1)); [|lia]. cbn [bind].
        rewrite (IH _ _ _ _ _ _ (i + 1)%nat Hr' (le_n _) E0). reflexivity.
      + cbn [length] in E. eapply IH; eauto. lia.
  Qed.

  Theorem byte_splits_sizes : forall first lim data cs, incr_conforms adj C first lim -> first_laws first -> lim (length data) ->
    cuts_of first [] data cs -> byte_splits C data = Ok (sizes 0 cs).
  Proof.
    intros first lim data cs H L Hl Hc. destruct (H data Hl) as (cs' & Hc' & Hs).
    rewrite (cuts_of_fun _ L _ _ _ Hc _ Hc').
    destruct (Hs (repeat 1%nat (length data))) as [_ (r & E & <- & _)].
    unfold byte_splits. eapply byte_splits_run; eauto. reflexivity.
  Qed.
End Bytes.
