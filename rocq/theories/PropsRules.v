(** * PropsRules: C78, the interpreter and the inference rules agree.

    [Rust.v] says what the text does by running it with a bound on the recursion; [RustRules.v] says it by rules without a
    bound.  Both were written out separately; here they are one. *)

From Coq Require Import String ZifyBool ZifyNat.
From Verif Require Import Base Rust RustRules RulesProofs.
From Verif Require Import Api Spec Lists Builtin Contract Agree AgreeExact RustText RustSim RustConfig DriverText Drivers DriverSim PropsBuilds PropsCallers.
Open Scope list_scope.
Open Scope Z_scope.

(** ** Expressions *)

Theorem C78_expressions : forall prog rho e,
  (forall rho' f, ends prog rho e (Ended rho' f) <-> exists n, eval prog n rho e = Done (rho', f)) /\
  (ends prog rho e Panicked <-> exists n, eval prog n rho e = Panics).
Proof.
  intros prog rho e. split; [intros rho' f|]; split.
  - intros H. destruct (eval_complete prog _ _ _ H) as [n E]. exists n. exact (E n (le_n _)).
  - intros [n E]. exact (eval_sound prog n rho e (Ended rho' f) E).
  - intros H. destruct (eval_complete prog _ _ _ H) as [n E]. exists n. exact (E n (le_n _)).
  - intros [n E]. exact (eval_sound prog n rho e Panicked E).
Qed.
Print Assumptions C78_expressions.

(** An expression comes to at most one end. *)
Theorem C78_one_end : forall prog rho e o o', ends prog rho e o -> ends prog rho e o' -> o = o'.
Proof.
  intros prog rho e o o' H H'. destruct (eval_complete prog _ _ _ H) as [n E], (eval_complete prog _ _ _ H') as [n' E'].
  apply gives_inj. rewrite <- (E (n + n')%nat), <- (E' (n + n')%nat) by lia. reflexivity.
Qed.
Print Assumptions C78_one_end.

(** ** Calls *)

Lemma calls_iff : forall prog f vs r, calls prog f vs r <-> exists n, forall m, (n <= m)%nat -> call prog m f vs = of_opt r.
Proof.
  intros prog f vs r. split.
  - destruct 1 as [f ps g vs r P G|f ps g vs P G|f g vs rho fl v P L H D|f g vs P L H].
    + exists 0%nat. intros m _. unfold call_with. now rewrite P.
    + exists 0%nat. intros m _. unfold call_with. now rewrite P.
    + destruct (eval_complete prog _ _ _ H) as [n E]. exists n. intros m Hm. unfold call_with. rewrite P, (proj2 (bind_iff _ _ _) (conj L eq_refl)). cbn [obind].
      change (lock m) with m. rewrite (E m Hm), <- seconds_map. destruct D as [-> | ->]; reflexivity.
    + destruct (eval_complete prog _ _ _ H) as [n E]. exists n. intros m Hm. unfold call_with. rewrite P, (proj2 (bind_iff _ _ _) (conj L eq_refl)). cbn [obind].
      change (lock m) with m. now rewrite (E m Hm).
  - intros [n E]. exact (sound_calls prog _ (eval_sound prog n) f vs r (E n (le_n _))).
Qed.
Lemma calls_run : forall prog n f vs r, call prog n f vs = of_opt r -> calls prog f vs r.
Proof. intros prog n f vs r E. exact (sound_calls prog _ (eval_sound prog n) f vs r E). Qed.

Theorem C78_calls : forall prog f vs,
  (forall r, calls prog f vs (Some r) <-> exists n, call prog n f vs = Done r) /\
  (calls prog f vs None <-> exists n, call prog n f vs = Panics) /\
  ((exists n, call prog n f vs = Stuck) \/ (forall n, call prog n f vs = NoFuel) -> forall r, ~ calls prog f vs r).
Proof.
  intros prog f vs. split; [|split].
  - intros r. split; [|intros [n E]; now apply (calls_run prog n)]. intros H. apply calls_iff in H as [n E]. exists n. exact (E n (le_n _)).
  - split; [|intros [n E]; now apply (calls_run prog n)]. intros H. apply calls_iff in H as [n E]. exists n. exact (E n (le_n _)).
  - intros [[n S]|S] r H; apply calls_iff in H as [m E].
    + specialize (E (n + m)%nat ltac:(lia)). rewrite (C72_more_fuel prog n (n + m) f vs ltac:(lia)), S in E by congruence. destruct r; discriminate E.
    + specialize (E m (le_n _)). rewrite S in E. destruct r; discriminate E.
Qed.
Print Assumptions C78_calls.

(** A call has an end, or is not a well-typed program, or runs for ever. *)
Theorem C78_three_ways : forall prog f vs, (forall ps g, prog f = Some (Given ps g) -> g vs <> NoFuel) ->
  (forall r, ~ calls prog f vs r) -> forall n, call prog n f vs = Stuck \/ call prog n f vs = NoFuel.
Proof.
  intros prog f vs _ N n. destruct (call prog n f vs) as [r| | |] eqn:E; [|exfalso|now left|now right].
  - exfalso. exact (N (Some r) (calls_run prog n f vs (Some r) E)).
  - exact (N None (calls_run prog n f vs None E)).
Qed.
Print Assumptions C78_three_ways.

(** ** Two operators in other words *)

Theorem C78_rotate : forall x n r, 0 <= x < 2 ^ 32 -> 0 <= n -> prim_means Protate_left [VInt U32 x; VInt U32 n] (Some (VInt U32 r)) ->
  0 <= r < 2 ^ 32 /\ forall i, 0 <= i < 32 -> Z.testbit r ((i + n) mod 32) = Z.testbit x i.
Proof.
  intros x n r Hx Hn H.
  assert (E : r = Z.lor (Z.shiftl x (n mod 32)) (Z.shiftr x (32 - n mod 32)) mod 2 ^ 32) by (inversion H; reflexivity).
  rewrite E. clear E H. split; [apply Z.mod_pos_bound; lia|]. intros i Hi.
  assert (Hk : 0 <= n mod 32 < 32) by (apply Z.mod_pos_bound; lia). rewrite <- Z.add_mod_idemp_r by lia. revert Hk. generalize (n mod 32). clear n Hn. intros k Hk.
  assert (High : forall j, 32 <= j -> Z.testbit x j = false).
  { intros j Hj. destruct (Z.eq_dec x 0) as [->|N]; [apply Z.bits_0|]. apply Z.bits_above_log2; [lia|]. assert (Z.log2 x < 32) by (apply Z.log2_lt_pow2; lia). lia. }
  destruct (Z_lt_le_dec (i + k) 32) as [L|L].
  - rewrite (Z.mod_small (i + k)) by lia. rewrite Z.mod_pow2_bits_low by lia. rewrite Z.lor_spec, Z.shiftl_spec, Z.shiftr_spec by lia.
    replace (i + k - k) with i by lia. rewrite (High (i + k + (32 - k))) by lia. apply Bool.orb_false_r.
  - replace ((i + k) mod 32) with (i + k - 32) by (apply (Z.mod_unique (i + k) 32 1 (i + k - 32)); lia).
    rewrite Z.mod_pow2_bits_low by lia. rewrite Z.lor_spec, Z.shiftl_spec, Z.shiftr_spec by lia.
    rewrite (Z.testbit_neg_r x (i + k - 32 - k)) by lia. rewrite Bool.orb_false_l. f_equal. lia.
Qed.
Print Assumptions C78_rotate.

Theorem C78_leading_zeros : forall x r, 0 <= x < 2 ^ 32 -> prim_means Pleading_zeros [VInt U32 x] (Some (VInt U32 r)) ->
  0 <= r <= 32 /\ x < 2 ^ (32 - r) /\ (r < 32 -> 2 ^ (31 - r) <= x).
Proof.
  intros x r Hx H. assert (E : (x = 0 /\ r = 32) \/ (x <> 0 /\ r = 31 - Z.log2 x)) by (inversion H; [left|right]; split; congruence || reflexivity).
  destruct E as [[-> ->]|[N ->]]; [cbn; lia|]. assert (Hp : 0 < x) by lia. pose proof (Z.log2_spec x Hp) as [A B].
  assert (Z.log2 x < 32) by (apply Z.log2_lt_pow2; lia). pose proof (Z.log2_nonneg x).
  replace (32 - (31 - Z.log2 x)) with (Z.succ (Z.log2 x)) by lia. replace (31 - (31 - Z.log2 x)) with (Z.log2 x) by lia. repeat split; try lia. 
Qed.
Print Assumptions C78_leading_zeros.

(** ** The crate's text by the rules

    C73 without a bound: the example of the documentation prints the chunks of the rule, and [cut_test] returns or panics. *)

Theorem C78_doc_example : forall u hv c pv rule data, typed c -> fits (crate (drivers u)) hv c -> chunk_sound c -> chunk_rule c = Some rule ->
  text_instance (crate (drivers u)) 120 hv c = Ok pv -> Z.of_nat (length data) < 2 ^ 62 ->
  exists cs chunks dropped remain, cuts_of (ends_at (per_chunk rule)) [] data cs /\
    map (@length byte) chunks = sizes 0 cs /\ data = concat chunks ++ dropped ++ remain /\ (length remain <= look_back c)%nat /\
    forall r, calls (crate (drivers u)) "doc_example" [pv; vbytes data; VList []] r <->
      r = Some ([pv; vbytes data; VList (printed chunks ++ printed_end remain)], VUnit).
Proof.
  intros u hv c pv rule data HT HF HS ER Ei HL.
  destruct (C73_doc_example u hv c pv rule data HT HF HS ER Ei HL) as (cs & chunks & dropped & remain & A & B & D & E & F).
  exists cs, chunks, dropped, remain. repeat split; try assumption.
  - intros H. apply calls_iff in H as [n H]. specialize (H (n + (201 + 2 * length data))%nat ltac:(lia)). rewrite F in H by lia.
    apply of_opt_inj. rewrite <- H. reflexivity.
  - intros ->. eapply (calls_run _ (201 + 2 * length data)). rewrite F by lia. reflexivity.
Qed.
Print Assumptions C78_doc_example.

Theorem C78_cut_test : forall u hv c pv rule data, typed c -> fits (crate (drivers u)) hv c -> incr_sound c -> chunk_rule c = Some rule ->
  text_instance (crate (drivers u)) 120 hv c = Ok pv -> PropsCallers.gives u data -> Z.of_nat (length data) < 2 ^ 62 ->
  exists cs1 cs2, cuts_of (incr_first c) [] data cs1 /\ cuts_of (ends_at (per_chunk rule)) [] data cs2 /\
    forall seed expected, let args := [seed; pv; vsizes expected] in
      (calls (crate (drivers u)) "cut_test" args (Some (args, VUnit)) <-> agree_exactly c data cs1 cs2 /\ expected = sizes 0 cs1) /\
      (calls (crate (drivers u)) "cut_test" args None <-> ~ (agree_exactly c data cs1 cs2 /\ expected = sizes 0 cs1)).
Proof.
  intros u hv c pv rule data HT HF HS ER Ei Hu HL.
  destruct (C73_cut_test u hv c pv rule data HT HF HS ER Ei Hu HL) as (cs1 & cs2 & A & B & F). exists cs1, cs2. split; [exact A|]. split; [exact B|].
  intros seed expected args. assert (N : (211 + 2 * length data <= 211 + 2 * length data)%nat) by lia.
  destruct (F (211 + 2 * length data)%nat seed expected N) as [F1 F2]. fold args in F1, F2.
  assert (D : agree_exactly c data cs1 cs2 /\ expected = sizes 0 cs1 \/ ~ (agree_exactly c data cs1 cs2 /\ expected = sizes 0 cs1)).
  { rewrite <- (agree_iff c rule data cs1 cs2 HT HS ER A B). destruct (list_eq_dec Nat.eq_dec cs1 cs2), (list_eq_dec Nat.eq_dec expected (sizes 0 cs1)); tauto. }
  assert (One : forall r, call (crate (drivers u)) (211 + 2 * length data) "cut_test" args = of_opt r -> forall r', calls (crate (drivers u)) "cut_test" args r' -> r' = r).
  { intros r E r' H. apply calls_iff in H as [n H]. specialize (H (n + (211 + 2 * length data))%nat ltac:(lia)). apply of_opt_inj. rewrite <- H, <- E.
    apply C72_more_fuel; [lia|]. rewrite E. destruct r; discriminate. }
  destruct D as [D|D].
  - specialize (F1 D). split; split; try tauto.
    + intros _. exact (calls_run _ _ _ _ (Some (args, VUnit)) F1).
    + intros H. discriminate (One (Some (args, VUnit)) F1 None H).
  - specialize (F2 D). split; split; try tauto.
    + intros H. discriminate (One None F2 _ H).
    + intros _. exact (calls_run _ _ _ _ None F2).
Qed.
Print Assumptions C78_cut_test.

(** Fed with zeros, [feed_until_5_chunks] has no end. *)
Theorem C78_feed_zeros : forall u r, generates u (fun _ => repeat x00 256) -> ~ calls (crate (drivers u)) "feed_until_5_chunks" [] r.
Proof.
  intros u r H. destruct (C78_calls (crate (drivers u)) "feed_until_5_chunks" []) as (_ & _ & N). apply N. right. intros n. now apply C73_feed_zeros.
Qed.
Print Assumptions C78_feed_zeros.

(** ** Cases: a loop with [break], an overflow, an ill-typed sum, an endless loop *)

Definition count_up : expr :=
  Block [Let "i" (Lit U8 0); Loop (Block [OpAssign Add (Var "i") (Lit U8 100); If (Bin Lt (Lit U8 150) (Var "i")) Break (Block [])]); Var "i"].

Example C78_case : forall prog,
  ends prog [] count_up (Ended [] (Value (VInt U8 200))) /\
  ends prog [("i"%string, VInt U8 200)] (OpAssign Add (Var "i") (Lit U8 100)) Panicked /\
  (forall o, ~ ends prog [] (Bin Add (Lit U8 1) (Lit U32 1)) o) /\
  (forall o, ~ ends prog [] (Loop (Block [])) o).
Proof.
  intros prog. split; [|split; [|split]].
  - apply (eval_sound prog 12). reflexivity.
  - apply (eval_sound prog 12). reflexivity.
  - intros o H. destruct (eval_complete prog _ _ _ H) as [n E]. specialize (E (2 + n)%nat ltac:(lia)). destruct o; discriminate E.
  - intros o H. destruct (eval_complete prog _ _ _ H) as [n E]. specialize (E (S (S n)) ltac:(lia)).
    assert (L : forall k, iter_loop k (fun rho => eval prog (lock (S n)) rho (Block [])) [] = NoFuel) by (induction k as [|k IH]; [reflexivity|exact IH]).
    change (iter_loop (S n) (fun rho => eval prog (lock (S n)) rho (Block [])) [] = RulesProofs.gives o) in E. rewrite L in E. destruct o; discriminate E.
Qed.

(** The rules by hand: [1 + 2]. *)
Example C78_by_hand : forall prog, ends prog [] (Bin Add (Lit U8 1) (Lit U8 2)) (Ended [] (Value (VInt U8 3))).
Proof.
  intros prog. assert (L : forall z, ends prog [] (Lit U8 z) (Ended [] (Value (VInt U8 z)))) by (intros z; eapply ends_act; constructor).
  eapply ends_act; [cbn; eapply args_cons; [apply L|eapply args_cons; [apply L|constructor]]|].
  eapply act_pure; [reflexivity|]. constructor. change 3 with (1 + 2). constructor. reflexivity.
Qed.
