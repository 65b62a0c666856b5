(** * PropsGolden: C79, three of the tests of tests/cuts.rs pass with the generator they were written for. *)

From Coq Require Import String ZifyBool ZifyNat.
From Verif Require Import Base Api Spec CutFacts Contract Mii Ram Pigz Builtin BuiltinProofs Drivers PropsDrivers Agree AgreeExact Pcg Rust RustSim PropsCutTests.
Open Scope list_scope.
Open Scope Z_scope.

(** ** The data: 32 KiB from seed 0, in rows of 512 bytes *)
Fixpoint rows {A} (n : nat) (l : list A) : list (list A) := match n with O => [] | S n' => firstn 512 l :: rows n' (skipn 512 l) end.
Lemma rows_concat {A} n : forall l : list A, (length l <= 512 * n)%nat -> concat (rows n l) = l.
Proof.
  induction n as [|n IH]; intros l Hl; [destruct l; [reflexivity|cbn in Hl; lia]|]. cbn [rows concat]. rewrite IH by (rewrite skipn_length; lia). apply firstn_skipn.
Qed.
Definition seed_0 : list (list byte) := Eval vm_compute in rows 64 (pcg_words 0 STREAM (64 * 64)).
Lemma seed_0_rows : rows 64 (pcg_words 0 STREAM (64 * 64)) = seed_0.
Proof. vm_compute. reflexivity. Qed.
Definition data_0 : list byte := concat seed_0.
Lemma data_0_pcg : pcg_fill 0 STREAM (Z.to_nat 32768) = data_0.
Proof.
  replace (Z.to_nat 32768) with (8 * (64 * 64))%nat by lia. rewrite pcg_fill_words. unfold data_0. rewrite <- seed_0_rows. symmetry. apply rows_concat.
  rewrite <- pcg_fill_words, pcg_fill_length. lia.
Qed.

(** ** Byte by byte, counting in binary *)
Fixpoint counted (C : Incr) (s : incr_state C) (k : Z) (data : list byte) : res (list Z) :=
  match data with
  | [] => Ok []
  | v :: rest =>
      '(s', o) <- incr_push C s [v] ;;
      match o with Some _ => ns <- counted C s' 0 rest ;; Ok (k + 1 :: ns) | None => counted C s' (k + 1) rest end
  end.
Lemma counted_splits C data : forall s last i ns, (last <= i)%nat ->
  counted C s (Z.of_nat i - Z.of_nat last) data = Ok (map Z.of_nat ns) <-> byte_splits_from C s last i data = Ok ns.
Proof.
  induction data as [|v data IH]; intros s last i ns Hi; cbn [counted byte_splits_from].
  - split; intros E; injection E as E; [destruct ns; [reflexivity|discriminate]|subst; reflexivity].
  - destruct (incr_push C s [v]) as [[s' [k|]]| |]; cbn [bind]; try (split; discriminate).
    + unfold sub_usize. destruct (Nat.leb_spec last (i + 1)); [|lia]. cbn [bind]. specialize (fun ns => IH s' (i + 1)%nat (i + 1)%nat ns (le_n _)).
      replace (Z.of_nat (i + 1) - Z.of_nat (i + 1)) with 0 in IH by lia.
      destruct (counted C s' 0 data) as [l| |] eqn:E1; destruct (byte_splits_from C s' (i + 1) (i + 1) data) as [l'| |] eqn:E2; cbn [bind];
        try (specialize (proj2 (IH l') eq_refl); discriminate);
        try (split; intros E; [|discriminate]; injection E as E; destruct ns as [|n ns]; [discriminate|]; injection E as E E'; subst l; specialize (proj1 (IH ns) eq_refl); discriminate);
        try (split; discriminate).
      assert (l = map Z.of_nat l') as -> by (specialize (proj2 (IH l') eq_refl); congruence). split; intros E.
      * injection E as E. destruct ns as [|n ns]; [discriminate|]. injection E as E E'. f_equal. f_equal; [lia|]. symmetry. revert E'. clear. revert ns.
        induction l' as [|a l' IH]; intros [|b ns] E; try discriminate; [reflexivity|]. cbn in E. injection E as E E'. f_equal; [lia|]. now apply IH.
      * injection E as <-. cbn [map]. f_equal. f_equal. lia.
    + rewrite <- (IH s' last (i + 1)%nat ns) by lia. replace (Z.of_nat (i + 1) - Z.of_nat last) with (Z.of_nat i - Z.of_nat last + 1) by lia. reflexivity.
Qed.

(** What the chunker itself does. *)
Lemma golden_list data c CI CC rule numbers : length data = Z.to_nat 32768 -> typed c -> incr_sound c -> incr_of c = Ok CI -> chunk_of c = Ok CC -> chunk_rule c = Some rule ->
  Forall (fun z => 0 <= z) numbers -> counted CI (incr_new CI) 0 data = Ok numbers ->
  (forall cs1 cs2, map Z.of_nat (sizes 0 cs1) = numbers -> agree_when c cs1 cs2) -> lists c data numbers.
Proof.
  intros HL HT HS EI EC ER FN E HA.
  destruct (C55_cut_test_partial c CI CC rule data HT HS EI EC ER ltac:(unfold stream_len; lia)) as (cs1 & cs2 & H1 & H2 & Hb & _ & HE).
  apply (proj2 (counted_splits CI data (incr_new CI) 0 0 (sizes 0 cs1) (le_n _))) in Hb. change (Z.of_nat 0 - Z.of_nat 0) with 0 in Hb. rewrite E in Hb. assert (numbers = map Z.of_nat (sizes 0 cs1)) as -> by congruence.
  rewrite <- (HE (HA cs1 cs2 eq_refl)) in H2. exists cs1. rewrite ER. split; [|split; [exact H2|reflexivity]].
  replace (seen c) with (incr_first c) by (destruct c; (reflexivity || discriminate ER)). exact H1.
Qed.

Lemma data_0_length : length data_0 = Z.to_nat 32768.
Proof. rewrite <- data_0_pcg. apply pcg_fill_length. Qed.

Theorem C79_passes : forall user x, In x ["mii_cuts_1"; "pigz_cuts_0"; "ram_cuts_0"]%string ->
  exists enough, forall n, (enough <= n)%nat -> call (cut_tested pcg_fill user) n x [] = Done ([], VUnit).
Proof.
  assert (H : forall user x seed size c numbers, In (x, seed, size, c, numbers) tests_of_cuts -> lists c (pcg_fill seed STREAM (Z.to_nat size)) numbers ->
    exists enough, forall n, (enough <= n)%nat -> call (cut_tested pcg_fill user) n x [] = Done ([], VUnit)).
  { intros user x seed size c numbers Hin L. destruct (C79_cut_tests pcg_fill user x seed size c numbers pcg_fill_length Hin) as [k K]. exists k. intros n Hn. exact (proj1 (K n Hn) L). }
  intros user x [<-|[<-|[<-|[]]]]; (eapply H; [unfold tests_of_cuts; cbn [In]; tauto|]); rewrite data_0_pcg.
  - eapply golden_list; [exact data_0_length|cbn; unfold is_u64; lia|exact I|reflexivity|reflexivity|reflexivity|repeat constructor; lia|vm_compute; reflexivity|].
    intros cs1 cs2 E. cbn [agree_when]. apply Forall_forall. intros k Hk. apply (in_map Z.of_nat) in Hk. rewrite E in Hk. revert Hk. generalize (Z.of_nat k). intros z Hk. cbn [In] in Hk. lia.
  - eapply golden_list; [exact data_0_length|cbn; lia|exact I|reflexivity|reflexivity|reflexivity|repeat constructor; lia|vm_compute; reflexivity|intros; exact I].
  - eapply golden_list; [exact data_0_length|cbn; unfold is_u64; lia|exact I|reflexivity|reflexivity|reflexivity|repeat constructor; lia|vm_compute; reflexivity|intros; exact I].
Qed.
Print Assumptions C79_passes.

(** The test can fail: a generator that writes zeros gives no chunk at all. *)
Theorem C79_case : forall user, exists enough, forall n, (enough <= n)%nat -> call (cut_tested (fun _ _ k => repeat x00 k) user) n "mii_cuts_1" [] = Panics.
Proof.
  intros user. edestruct (C79_cut_tests (fun _ _ k => repeat x00 k) user "mii_cuts_1" 0 32768) as [k K]; [intros; apply repeat_length|now left|].
  exists k. intros n Hn. apply (K n Hn). clear. intros (cs & H & _ & E). inversion H as [|h d m cs' F]; subst; [discriminate|].
  destruct F as (_ & (_ & pre & tail & E1 & L & I) & _).
  assert (Z0 : forall b, In b tail -> b = x00).
  { intros b Hb. assert (In b (firstn m (repeat x00 (Z.to_nat 32768)))) by (rewrite E1; apply in_or_app; now right).
    apply (repeat_spec (Z.to_nat 32768)). rewrite <- (firstn_skipn m). apply in_or_app. now left. }
  destruct tail as [|a [|b t]]; [cbn in L; lia|cbn in L; lia|].
  specialize (I 0%nat a b eq_refl eq_refl). rewrite (Z0 a), (Z0 b) in I by (cbn; auto). lia.
Qed.
Print Assumptions C79_case.
