(** * PropsCallers: C73, the callers in tests/ and in the documentation, executed as text.

    [DriverText.v] is their text (written by tools/transcribe.py) and runs together with the text of the crate: the test
    functions call the constructors' values, [find_chunk_edge] and [push] of the source itself.  [u] is what is neither in
    the crate nor in the tests: [test_data], [thread_rng] and a user's [BuzHashHash]. *)

From Coq Require Import String ZifyBool ZifyNat.
From Verif Require Import Base Api Lists Spec Range Mii Ram Gear Pigz Gzip FastCdc Bup BuzHash Zpaq Zstd Tables Builtin BuiltinProofs Contract CutFacts Answers Agree AgreeExact.
From Verif Require Import Rust RustText RustSim RustLib RustConfig RustMeta DriverText Drivers DriverSim PropsBuilds StateFacts Feed PropsDrivers PropsAgree PropsAgree PropsLoops.
From Verif Require Import RustMii RustRam RustGear RustPigz RustGzip RustFastCdc RustBup RustBuzHash RustRange RustZpaq RustZstd.
Open Scope list_scope.
Open Scope Z_scope.

Lemma find_near : forall c C, chunk_of c = Ok C -> answers_near C.
Proof.
  intros c C EC s buf s' [k|] d E.
  - destruct (find_answer c C s buf s' k d EC E) as [A B]. assert (past_end c <= 1)%nat by (destruct c; cbn; lia). destruct c; lia.
  - split; [|exact I]. destruct (keeps_at_most c C s buf s' d EC E). lia.
Qed.

Lemma chunk_driver : forall u hv c C, typed c -> fits (crate (drivers u)) hv c -> chunk_of c = Ok C ->
  exists pv enc Inv, text_instance (crate (drivers u)) 120 hv c = Ok pv /\ computes_chunk (crate (drivers u)) pv C enc Inv.
Proof.
  intros u hv c C HT HF EC. pose proof (chunk_text_all (drivers u) 120 hv c HT HF (le_n _)) as H. rewrite EC in H.
  destruct H as (pv & enc & Inv & Ei & Hf & HI & H0 & Hs). exists pv, enc, Inv. split; [exact Ei|].
  split; [exact Hf|].
  assert (P : (exists x y, params_of (crate (drivers u)) (append (type_of pv) "::find_chunk_edge") = [("self"%string, false); (x, true); (y, false)]) /\
    params_of (crate (drivers u)) (append (type_of pv) "::to_search_state") = [("self"%string, false)]).
  { rewrite (text_instance_all (drivers u)) in Ei by (assumption || lia). clear - Ei.
    destruct c; cbn [instance_value rmap bind] in Ei; 
      try (match type of Ei with context [rmap _ ?x] => destruct x; cbn [rmap bind] in Ei; try discriminate end); injection Ei as <-; split; [do 2 eexists| | do 2 eexists| | do 2 eexists| | do 2 eexists| | do 2 eexists| | do 2 eexists| | do 2 eexists| | do 2 eexists| | do 2 eexists| | do 2 eexists| ]; reflexivity. }
  destruct P as [P1 P2]. split; [exact P1|]. split; [exact P2|]. split; [|split; assumption].
  intros n Hn. unfold method in Hs. cbn [append] in Hs. rewrite (C72_more_fuel _ 120 n) by (assumption || (rewrite Hs; discriminate)). exact Hs.
Qed.

Lemma incr_driver : forall u hv c C, typed c -> fits (crate (drivers u)) hv c -> incr_of c = Ok C ->
  exists pv T enc Inv, text_instance (crate (drivers u)) 120 hv c = Ok pv /\ computes_incr (crate (drivers u)) pv T C enc Inv.
Proof.
  intros u hv c C HT HF EC. pose proof (incr_text_all (drivers u) 120 hv c HT HF (le_n _)) as H. rewrite EC in H.
  destruct H as (pv & T & enc & Inv & Ei & Hf & HI & H0 & Hs). exists pv, T, enc, Inv. split; [exact Ei|].
  split; [exact Hf|].
  assert (P : params_of (crate (drivers u)) (append (type_of pv) "::to_chunk_incr") = [("self"%string, false)]).
  { rewrite (text_instance_all (drivers u)) in Ei by (assumption || lia). clear - Ei.
    destruct c; cbn [instance_value rmap bind] in Ei;
      try (match type of Ei with context [rmap _ ?x] => destruct x; cbn [rmap bind] in Ei; try discriminate end); injection Ei as <-; reflexivity. }
  split; [exact P|]. split; [|split; assumption].
  intros n Hn. unfold method in Hs. cbn [append] in Hs. rewrite (C72_more_fuel _ 120 n) by (assumption || (rewrite Hs; discriminate)). exact Hs.
Qed.

(** A chunker made by the text: the model has one too. *)
Lemma instance_chunk : forall u hv c pv, typed c -> fits (crate (drivers u)) hv c -> text_instance (crate (drivers u)) 120 hv c = Ok pv ->
  exists C enc Inv, chunk_of c = Ok C /\ answers_near C /\ computes_chunk (crate (drivers u)) pv C enc Inv.
Proof.
  intros u hv c pv HT HF Ei. pose proof (chunk_text_all (drivers u) 120 hv c HT HF (le_n _)) as H.
  destruct (chunk_of c) as [C| |] eqn:EC; try congruence.
  destruct (chunk_driver u hv c C HT HF EC) as (pv' & enc & Inv & Ei' & HC). assert (pv' = pv) as -> by congruence.
  exists C, enc, Inv. split; [reflexivity|]. split; [exact (find_near c C EC)|exact HC].
Qed.

Lemma instance_incr : forall u hv c pv, typed c -> fits (crate (drivers u)) hv c -> text_instance (crate (drivers u)) 120 hv c = Ok pv ->
  exists C T enc Inv, incr_of c = Ok C /\ computes_incr (crate (drivers u)) pv T C enc Inv.
Proof.
  intros u hv c pv HT HF Ei. pose proof (incr_text_all (drivers u) 120 hv c HT HF (le_n _)) as H.
  destruct (incr_of c) as [C| |] eqn:EC; try congruence.
  destruct (incr_driver u hv c C HT HF EC) as (pv' & T & enc & Inv & Ei' & HC). assert (pv' = pv) as -> by congruence.
  exists C, T, enc, Inv. auto.
Qed.

(** ** Every caller computes what its model computes

    For every chunker and every configuration; the models are those of Drivers.v, on which C54 - C57 and C62 rest.  [fuel] is the
    number of rounds the model's loop may take; while that is not enough nothing is said. *)

(** src/lib.rs, the example in the documentation of [find_chunk_edge]: what it prints. *)
Theorem C73_doc_example_model : forall u hv c C pv n fuel data, typed c -> fits (crate (drivers u)) hv c -> chunk_of c = Ok C ->
  text_instance (crate (drivers u)) 120 hv c = Ok pv -> (200 + fuel + length data <= n)%nat -> Z.of_nat (length data) < 2 ^ 62 ->
  match doc_loop C fuel data with
  | Ok (chunks, remain) =>
      call (crate (drivers u)) n "doc_example" [pv; vbytes data; VList []] =
      Done ([pv; vbytes data; VList (printed chunks ++ printed_end remain)], VUnit)
  | Panic => call (crate (drivers u)) n "doc_example" [pv; vbytes data; VList []] = Panics
  | Diverge => True
  end.
Proof.
  intros u hv c C pv n fuel data HT HF EC Ei Hn HL. destruct (instance_chunk u hv c pv HT HF Ei) as (C' & enc & Inv & EC' & HA & HC).
  assert (C' = C) as -> by congruence. exact (src_doc_example u pv C enc Inv HC HA n fuel data [] Hn HL).
Qed.
Print Assumptions C73_doc_example_model.

(** tests/cuts.rs, where [test_data] may give any data. *)
Definition gives (u : program) (data : list byte) : Prop :=
  u "test_data"%string = Some (Given [("seed"%string, false); ("size"%string, false)] (fun vs => Done (vs, vbytes data))).

Lemma gives_all : forall u data, gives u data -> forall seed size, gives_data u seed size data.
Proof. intros u data H seed size. split; [unfold params_of; now rewrite H|]. intros n _. enter. rewrite H. reflexivity. Qed.

Lemma cut_test_sz_model : forall u hv c CI CC pv n fuel data seed size expected, typed c -> fits (crate (drivers u)) hv c ->
  incr_of c = Ok CI -> chunk_of c = Ok CC -> text_instance (crate (drivers u)) 120 hv c = Ok pv ->
  gives_data u seed size data -> (200 + fuel + length data <= n)%nat -> Z.of_nat (length data) < 2 ^ 62 ->
  let args := [seed; size; pv; vsizes expected] in
  match whole_splits CC fuel data with
  | Ok a =>
      call (crate (drivers u)) n "cut_test_sz" args =
      match byte_splits CI data with
      | Ok b => if sizes_eqb a b && sizes_eqb expected a then Done (args, VUnit) else Panics
      | Panic => Panics
      | Diverge => NoFuel
      end
  | Panic => call (crate (drivers u)) n "cut_test_sz" args = Panics
  | Diverge => True
  end.
Proof.
  intros u hv c CI CC pv n fuel data seed size expected HT HF EI EC Ei Hu Hn HL.
  destruct (instance_chunk u hv c pv HT HF Ei) as (C' & enc & Inv & EC' & HA & HC). assert (C' = CC) as -> by congruence.
  destruct (instance_incr u hv c pv HT HF Ei) as (CI' & T & encI & InvI & EI' & HI). assert (CI' = CI) as -> by congruence.
  exact (src_cut_test_sz u pv CC enc Inv HC HA T CI encI InvI HI data HL n fuel seed size expected Hu Hn).
Qed.

Lemma cut_test_model : forall u hv c CI CC pv n fuel data seed expected, typed c -> fits (crate (drivers u)) hv c ->
  incr_of c = Ok CI -> chunk_of c = Ok CC -> text_instance (crate (drivers u)) 120 hv c = Ok pv ->
  gives_data u seed (VInt Usize 32768) data -> (210 + fuel + length data <= n)%nat -> Z.of_nat (length data) < 2 ^ 62 ->
  let args := [seed; pv; vsizes expected] in
  match whole_splits CC fuel data with
  | Ok a =>
      call (crate (drivers u)) n "cut_test" args =
      match byte_splits CI data with
      | Ok b => if sizes_eqb a b && sizes_eqb expected a then Done (args, VUnit) else Panics
      | Panic => Panics
      | Diverge => NoFuel
      end
  | Panic => call (crate (drivers u)) n "cut_test" args = Panics
  | Diverge => True
  end.
Proof.
  intros u hv c CI CC pv n fuel data seed expected HT HF EI EC Ei Hu Hn HL.
  destruct (instance_chunk u hv c pv HT HF Ei) as (C' & enc & Inv & EC' & HA & HC). assert (C' = CC) as -> by congruence.
  destruct (instance_incr u hv c pv HT HF Ei) as (CI' & T & encI & InvI & EI' & HI). assert (CI' = CI) as -> by congruence.
  exact (src_cut_test u pv CC enc Inv HC HA T CI encI InvI HI data HL n fuel seed expected Hu Hn).
Qed.

Theorem C73_cut_test_model : forall u hv c CI CC pv n fuel data seed expected, typed c -> fits (crate (drivers u)) hv c ->
  incr_of c = Ok CI -> chunk_of c = Ok CC -> text_instance (crate (drivers u)) 120 hv c = Ok pv ->
  gives u data -> (210 + fuel + length data <= n)%nat -> Z.of_nat (length data) < 2 ^ 62 ->
  let args := [seed; pv; vsizes expected] in
  match whole_splits CC fuel data with
  | Ok a =>
      call (crate (drivers u)) n "cut_test" args =
      match byte_splits CI data with
      | Ok b => if sizes_eqb a b && sizes_eqb expected a then Done (args, VUnit) else Panics
      | Panic => Panics
      | Diverge => NoFuel
      end
  | Panic => call (crate (drivers u)) n "cut_test" args = Panics
  | Diverge => True
  end.
Proof. intros u hv c CI CC pv n fuel data seed expected HT HF EI EC Ei Hu. exact (cut_test_model u hv c CI CC pv n fuel data seed expected HT HF EI EC Ei (gives_all u data Hu _ _)). Qed.
Print Assumptions C73_cut_test_model.

(** [cut_test_incr] takes a chunker that is ready for [push], here what [to_chunk_incr] returned. *)
Lemma cut_test_incr_model : forall u hv c CI pv iv n data seed size expected, typed c -> fits (crate (drivers u)) hv c ->
  incr_of c = Ok CI -> text_instance (crate (drivers u)) 120 hv c = Ok pv ->
  method (crate (drivers u)) 120 pv "to_chunk_incr" [] = Done ([pv], iv) ->
  gives_data u seed size data -> (200 <= n)%nat -> Z.of_nat (length data) < 2 ^ 62 ->
  let args := [seed; size; iv; vsizes expected] in
  call (crate (drivers u)) n "cut_test_incr" args =
  match byte_splits CI data with
  | Ok ns => if sizes_eqb expected ns then Done (args, VUnit) else Panics
  | Panic => Panics
  | Diverge => NoFuel
  end.
Proof.
  intros u hv c CI pv iv n data seed size expected HT HF EI Ei Em Hu Hn HL.
  destruct (instance_incr u hv c pv HT HF Ei) as (CI' & T & enc & Inv & EI' & Hp & _ & Hm & H0 & HI). assert (CI' = CI) as -> by congruence.
  unfold method in Em. cbn [append] in Em. rewrite Hm in Em by lia. injection Em as <-.
  exact (src_cut_test_incr u T CI enc Inv Hp H0 HI data HL n seed size expected Hu Hn).
Qed.

Theorem C73_cut_test_incr_model : forall u hv c CI pv iv n data seed size expected, typed c -> fits (crate (drivers u)) hv c ->
  incr_of c = Ok CI -> text_instance (crate (drivers u)) 120 hv c = Ok pv ->
  method (crate (drivers u)) 120 pv "to_chunk_incr" [] = Done ([pv], iv) ->
  gives u data -> (200 <= n)%nat -> Z.of_nat (length data) < 2 ^ 62 ->
  let args := [seed; size; iv; vsizes expected] in
  call (crate (drivers u)) n "cut_test_incr" args =
  match byte_splits CI data with
  | Ok ns => if sizes_eqb expected ns then Done (args, VUnit) else Panics
  | Panic => Panics
  | Diverge => NoFuel
  end.
Proof. intros u hv c CI pv iv n data seed size expected HT HF EI Ei Em Hu. exact (cut_test_incr_model u hv c CI pv iv n data seed size expected HT HF EI Ei Em (gives_all u data Hu _ _)). Qed.
Print Assumptions C73_cut_test_incr_model.

(** tests/cuts_qc.rs; numbers so large that a sum of two could overflow are left out. *)
Theorem C73_splits_fce_model : forall u hv c C pv n fuel data buf_sizes, typed c -> fits (crate (drivers u)) hv c -> chunk_of c = Ok C ->
  text_instance (crate (drivers u)) 120 hv c = Ok pv -> (200 + fuel + length data <= n)%nat -> Z.of_nat (length data) < 2 ^ 62 ->
  Forall (fun k => Z.of_nat k < 2 ^ 62) buf_sizes -> Z.of_nat fuel < 2 ^ 62 ->
  let args := [pv; vbytes data; vsizes buf_sizes] in
  match splits_fce C fuel data buf_sizes with
  | Ok ns => call (crate (drivers u)) n "splits_fce" args = Done (args, vsizes ns)
  | Panic => call (crate (drivers u)) n "splits_fce" args = Panics
  | Diverge => True
  end.
Proof.
  intros u hv c C pv n fuel data buf_sizes HT HF EC Ei Hn HL HB HF2. destruct (instance_chunk u hv c pv HT HF Ei) as (C' & enc & Inv & EC' & HA & HC).
  assert (C' = C) as -> by congruence. exact (src_splits_fce u pv C enc Inv HC HA n fuel data buf_sizes Hn HL HB HF2).
Qed.
Print Assumptions C73_splits_fce_model.

(** ** What they do, without a model

    The chunk sizes are those of the algorithm's rule. *)

Theorem C73_doc_example : forall u hv c pv rule data, typed c -> fits (crate (drivers u)) hv c -> chunk_sound c -> chunk_rule c = Some rule ->
  text_instance (crate (drivers u)) 120 hv c = Ok pv -> Z.of_nat (length data) < 2 ^ 62 ->
  exists cs chunks dropped remain, cuts_of (ends_at (per_chunk rule)) [] data cs /\
    map (@length byte) chunks = sizes 0 cs /\ data = concat chunks ++ dropped ++ remain /\ (length remain <= look_back c)%nat /\
    forall n, (201 + 2 * length data <= n)%nat ->
      call (crate (drivers u)) n "doc_example" [pv; vbytes data; VList []] =
      Done ([pv; vbytes data; VList (printed chunks ++ printed_end remain)], VUnit).
Proof.
  intros u hv c pv rule data HT HF HS ER Ei HL. destruct (instance_chunk u hv c pv HT HF Ei) as (C & enc & Inv & EC & HA & HC).
  destruct (C54_documented_loop_partial c C rule data HT EC HS ER) as (cs & Hcs & H); [unfold stream_len; lia|].
  destruct (H (S (length data)) (le_n _)) as (chunks & dropped & remain & E & Hc & Hd & Hr).
  exists cs, chunks, dropped, remain. split; [exact Hcs|]. split; [exact Hc|]. split; [exact Hd|]. split; [exact Hr|].
  intros n Hn. pose proof (C73_doc_example_model u hv c C pv n (S (length data)) data HT HF EC Ei ltac:(lia) HL) as G. rewrite E in G. exact G.
Qed.
Print Assumptions C73_doc_example.

Lemma sizes_eqb_spec : forall a b, sizes_eqb a b = true <-> a = b.
Proof. intros a b. unfold sizes_eqb. destruct (list_eq_dec Nat.eq_dec a b); split; intros; congruence. Qed.

(** [cut_test] passes exactly when the two APIs agree on the data (C55: [agree_exactly]) and their chunk sizes were expected;
    otherwise it panics. *)
Theorem C73_cut_test : forall u hv c pv rule data, typed c -> fits (crate (drivers u)) hv c -> incr_sound c -> chunk_rule c = Some rule ->
  text_instance (crate (drivers u)) 120 hv c = Ok pv -> gives u data -> Z.of_nat (length data) < 2 ^ 62 ->
  exists cs1 cs2, cuts_of (incr_first c) [] data cs1 /\ cuts_of (ends_at (per_chunk rule)) [] data cs2 /\
    forall n seed expected, (211 + 2 * length data <= n)%nat ->
      let args := [seed; pv; vsizes expected] in
      (agree_exactly c data cs1 cs2 /\ expected = sizes 0 cs1 -> call (crate (drivers u)) n "cut_test" args = Done (args, VUnit)) /\
      (~ (agree_exactly c data cs1 cs2 /\ expected = sizes 0 cs1) -> call (crate (drivers u)) n "cut_test" args = Panics).
Proof.
  intros u hv c pv rule data HT HF HS ER Ei Hu HL. assert (Hl : stream_len (length data)) by (unfold stream_len; lia).
  destruct (instance_chunk u hv c pv HT HF Ei) as (CC & _ & _ & EC & _ & _). destruct (instance_incr u hv c pv HT HF Ei) as (CI & _ & _ & _ & EI & _).
  destruct (C55_cut_test_partial c CI CC rule data HT HS EI EC ER Hl) as (cs1 & cs2 & H1 & H2 & Hb & Hw & _).
  exists cs1, cs2. split; [exact H1|]. split; [exact H2|]. intros n seed expected Hn args.
  pose proof (C73_cut_test_model u hv c CI CC pv n (S (length data)) data seed expected HT HF EI EC Ei Hu ltac:(lia) HL) as G. cbv zeta in G. rewrite (Hw _ (le_n _)), Hb in G.
  assert (A : agree_exactly c data cs1 cs2 <-> sizes 0 cs2 = sizes 0 cs1).
  { rewrite <- (agree_iff c rule data cs1 cs2 HT HS ER H1 H2). split; [now intros ->|]. intros E.
    destruct (cuts_of_increasing _ (incr_first_laws c HT) (incr_first_progressive c HS) _ _ _ H1) as [I1 _].
    destruct (cuts_of_increasing _ (ends_at_laws _) (ends_at_progressive _) _ _ _ H2) as [I2 _]. exact (sizes_inj cs1 cs2 0 I1 I2 (eq_sym E)). }
  unfold args. rewrite G. split.
  - intros [B1 B2]. apply A in B1. rewrite (proj2 (sizes_eqb_spec (sizes 0 cs2) (sizes 0 cs1))), (proj2 (sizes_eqb_spec expected (sizes 0 cs2))) by congruence. reflexivity.
  - intros N. destruct (sizes_eqb (sizes 0 cs2) (sizes 0 cs1)) eqn:B; cbn [andb]; [|reflexivity]. apply sizes_eqb_spec in B.
    destruct (sizes_eqb expected (sizes 0 cs2)) eqn:B2; [|reflexivity]. apply sizes_eqb_spec in B2. exfalso. apply N. split; [apply A; exact B|congruence].
Qed.
Print Assumptions C73_cut_test.

(** [splits_fce] returns the chunk sizes whatever the buffer sizes are, which is what the test compares. *)
Theorem C73_splits_fce : forall u hv c pv rule data, typed c -> fits (crate (drivers u)) hv c -> chunk_sound c -> chunk_rule c = Some rule ->
  text_instance (crate (drivers u)) 120 hv c = Ok pv -> Z.of_nat (length data) < 2 ^ 30 ->
  exists cs, cuts_of (ends_at (per_chunk rule)) [] data cs /\
    forall buf_sizes n, buf_sizes <> [] -> Forall (fun k => (1 <= k)%nat /\ Z.of_nat k < 2 ^ 62) buf_sizes ->
      (200 + (length data + 2) * (length data + 2) + length data <= n)%nat ->
      let args := [pv; vbytes data; vsizes buf_sizes] in
      call (crate (drivers u)) n "splits_fce" args = Done (args, vsizes (sizes 0 cs)).
Proof.
  intros u hv c pv rule data HT HF HS ER Ei HL. destruct (instance_chunk u hv c pv HT HF Ei) as (C & enc & Inv & EC & HA & HC).
  destruct (C56_fce_self_consistent c C rule data HT EC HS ER) as (cs & Hcs & H); [unfold stream_len; lia|].
  exists cs. split; [exact Hcs|]. intros buf_sizes n Hne Hall Hn args.
  assert (Hall1 : Forall (fun k => (1 <= k)%nat) buf_sizes) by (eapply Forall_impl; [|exact Hall]; cbn; tauto).
  assert (Hall2 : Forall (fun k => Z.of_nat k < 2 ^ 62) buf_sizes) by (eapply Forall_impl; [|exact Hall]; cbn; tauto).
  pose proof (C73_splits_fce_model u hv c C pv n ((length data + 2) * (length data + 2)) data buf_sizes HT HF EC Ei Hn ltac:(lia) Hall2 ltac:(nia)) as G.
  cbv zeta in G. rewrite (H buf_sizes Hne Hall1 _ (le_n _)) in G. exact G.
Qed.
Print Assumptions C73_splits_fce.

(** [oracle_1] and [oracle_1_test] pass on every input. *)
Theorem C73_oracle : forall u n data ty, (200 + length data <= n)%nat -> Z.of_nat (length data) < 2 ^ 64 ->
  let d := VStruct ty [("data"%string, vbytes data)] in
  call (crate (drivers u)) n "oracle_1" [d] = Done ([d], VBool true) /\
  call (crate (drivers u)) n "oracle_1_test" [vbytes data] = Done ([vbytes data], VUnit).
Proof. intros u n data ty Hn HL d. split; [exact (src_oracle_1 u n data ty Hn HL)|exact (src_oracle_1_test u n data Hn HL)]. Qed.
Print Assumptions C73_oracle.

(** [feed_until_5_chunks] with a generator that gives the blocks of a stream one after the other; the first is never used. *)
Definition generates (u : program) (blocks : nat -> list byte) : Prop :=
  u "thread_rng"%string = Some (Given [] (fun vs => Done (vs, vrng 0))) /\
  u "Rng::fill_bytes"%string = Some (Given [("self"%string, true); ("dest"%string, true)] (fun vs =>
    match vs with
    | [VStruct _ [(_, VInt Usize z)]; _] => Done ([vrng (S (Z.to_nat z)); vbytes (blocks (Z.to_nat z))], VUnit)
    | _ => Stuck
    end)) /\
  forall i, length (blocks i) = 256%nat.

(** It returns exactly when some number of blocks has more than five cuts that are not silent; it never panics. *)
Definition loud_cuts (cs : list nat) : nat :=
  length (filter (fun '(n, p) => negb (andb (Z.of_nat n =? 65536) (Nat.eqb (p mod 256) 0))) (combine (sizes 0 cs) cs)).

Theorem C73_feed : forall u blocks N cs, generates u blocks -> (256 * Z.of_nat N < 2 ^ 64) ->
  cuts_of (fastcdc_first GEAR_64 2048 8192 65536) [] (concat (map blocks (List.seq 1 N))) cs ->
  forall n, (758 <= n)%nat ->
  ((5 < loud_cuts cs)%nat -> (500 + N <= n)%nat -> call (crate (drivers u)) n "feed_until_5_chunks" [] = Done ([], VUnit)) /\
  ((loud_cuts cs <= 5)%nat -> (n <= N)%nat -> call (crate (drivers u)) n "feed_until_5_chunks" [] = NoFuel).
Proof.
  intros u blocks N cs (H1 & H2 & H3) HN Hcs n Hn.
  assert (F : Forall (fun d => length d = 256%nat) (map blocks (List.seq 1 N))) by (apply Forall_map, Forall_forall; intros; apply H3).
  assert (Len : length (concat (map blocks (List.seq 1 N))) = (256 * N)%nat).
  { rewrite <- (seq_length N 1) at 2. clear - H3. induction (List.seq 1 N) as [|i l IH]; [reflexivity|]. cbn [map concat length]. rewrite app_length, IH, H3. lia. }
  assert (B : below_2_64 (length (concat (map blocks (List.seq 1 N))))) by (unfold below_2_64; rewrite Len; lia).
  destruct (C62_feed_exact_partial _ 258 cs F B (le_n _) Hcs) as [s E]. fold (loud_cuts cs) in E.
  pose proof (src_feed_until_5_chunks u blocks H1 H2 H3 n 258 N ltac:(lia)) as G. rewrite E in G.
  destruct (Nat.ltb_spec 5 (loud_cuts cs)); split; intros; try lia; apply G; assumption.
Qed.
Print Assumptions C73_feed.

Lemma map_const : forall {A} (x : A) m a, map (fun _ => x) (List.seq a m) = repeat x m.
Proof. intros A x m. induction m as [|m IH]; intros a; [reflexivity|]. cbn [repeat List.seq map]. now rewrite IH. Qed.

(** Fed with zeros, it never returns. *)
Theorem C73_feed_zeros : forall u n, generates u (fun _ => repeat x00 256) -> call (crate (drivers u)) n "feed_until_5_chunks" [] = NoFuel.
Proof.
  intros u n (H1 & H2 & H3).
  assert (Big : forall m, (758 <= m)%nat -> call (crate (drivers u)) m "feed_until_5_chunks" [] = NoFuel).
  { intros m Hm. pose proof (src_feed_until_5_chunks u _ H1 H2 H3 m 258 m ltac:(lia)) as G.
    replace (map (fun _ => repeat x00 256) (List.seq 1 m)) with (repeat (repeat x00 256) m) in G by (symmetry; apply map_const).
    destruct (C62_feed_refuted m 257) as [s E]. rewrite E in G. apply G. lia. }
  assert (Dec : forall x : out (list value * value), x = NoFuel \/ x <> NoFuel) by (intros []; [right|right|right|left]; congruence).
  destruct (Dec (call (crate (drivers u)) n "feed_until_5_chunks" [])) as [E|D]; [exact E|].
  rewrite <- (C72_more_fuel (crate (drivers u)) n (n + 758) "feed_until_5_chunks" [] ltac:(lia) D). apply Big. lia.
Qed.
Print Assumptions C73_feed_zeros.

(** The example in the documentation, with its own chunker, prints no data at all (C54). *)
Theorem C73_doc_example_prints_none : forall u hv pv n, (211 <= n)%nat -> text_instance (crate (drivers u)) 120 hv (CfgMii 5) = Ok pv ->
  let data := [x68; x65; x6c; x6c; x6f] in
  call (crate (drivers u)) n "doc_example" [pv; vbytes data; VList []] =
  Done ([pv; vbytes data; VList (printed_end [])], VUnit).
Proof.
  intros u hv pv n Hn Ei data.
  assert (T : typed (CfgMii 5)) by (unfold typed, is_u64, is_u32; try exact I; lia).
  assert (F : fits (crate (drivers u)) hv (CfgMii 5)) by (cbn [fits]; try exact I; lia).
  pose proof (C73_doc_example_model u hv (CfgMii 5) _ pv n 6 data T F eq_refl Ei) as G. cbn [length data] in G. specialize (G ltac:(lia) ltac:(lia)).
  replace (doc_loop _ 6 data) with (Ok (@nil (list byte), @nil byte)) in G by (vm_compute; reflexivity). exact G.
Qed.
Print Assumptions C73_doc_example_prints_none.

(** Runs of the text. *)
Definition ten : list byte := [x01; x02; x03; x01; x02; x00; x05; x06; x07; x01].
Definition gives_ten : program := drivers (fun f => if String.eqb f "test_data" then Some (Given [("seed"%string, false); ("size"%string, false)] (fun vs => Done (vs, vbytes ten))) else None).
Definition pv_of (c : config) : value := match text_instance (crate gives_ten) 120 VUnit c with Ok v => v | _ => VUnit end.

Example C73_case :
  call (crate gives_ten) 300 "doc_example" [pv_of (CfgMii 2); vbytes ten; VList []] =
    Done ([pv_of (CfgMii 2); vbytes ten; VList (printed [[x01; x02; x03]; [x01; x02; x00; x05; x06]] ++ printed_end [])], VUnit) /\
  call (crate gives_ten) 300 "cut_test" [VUnit; pv_of (CfgGzip 2 4); vsizes [4; 6]%nat] = Done ([VUnit; pv_of (CfgGzip 2 4); vsizes [4; 6]%nat], VUnit) /\
  call (crate gives_ten) 300 "cut_test" [VUnit; pv_of (CfgGzip 2 4); vsizes [4; 5]%nat] = Panics /\
  (* here the two APIs disagree *)
  call (crate gives_ten) 300 "cut_test" [VUnit; pv_of (CfgMii 2); vsizes [3; 5]%nat] = Panics /\
  call (crate gives_ten) 300 "cut_test" [VUnit; pv_of (CfgMii 2); vsizes [3; 2; 3]%nat] = Panics /\
  call (crate gives_ten) 300 "splits_fce" [pv_of (CfgMii 2); vbytes ten; vsizes [2; 1]%nat] =
    Done ([pv_of (CfgMii 2); vbytes ten; vsizes [2; 1]%nat], vsizes [3; 5]%nat) /\
  call (crate gives_ten) 300 "oracle_1_test" [vbytes ten] = Done ([vbytes ten], VUnit).
Proof. vm_compute. repeat split; reflexivity. Qed.
