(** * PropsGenData: C84, what examples/generate-test-data.rs prints. *)

From Coq Require Import String Zpow_facts.
From Verif Require Import Base Lists Pcg GenData Validation PropsGolden.
From Verif Require Import Rust RustText DriverText RustSim DriverSim PropsDriverAny PropsCutTests.
Open Scope list_scope.
Open Scope Z_scope.

(** ** Numerals *)

(** Decimal digits, the last one first in the order of the rules. *)
Inductive decimal : list byte -> Z -> Prop :=
| decimal_one : forall c d, b2z c = 48 + d -> 0 <= d <= 9 -> decimal [c] d
| decimal_more : forall s z c d, decimal s z -> b2z c = 48 + d -> 0 <= d <= 9 -> decimal (s ++ [c]) (10 * z + d).
(** A plus sign may come first. *)
Definition numeral (s : list byte) (z : Z) : Prop := decimal s z \/ exists r, s = x2b :: r /\ decimal r z.

Lemma digit_spec c d : digit c = Some d <-> b2z c = 48 + d /\ 0 <= d <= 9.
Proof.
  unfold digit. cbv zeta. destruct (Z.leb_spec 0 (b2z c - 48)), (Z.leb_spec (b2z c - 48) 9); cbn [andb]; (split; [intros E|intros [E1 E2]]); try discriminate; try lia.
  - injection E as <-. lia.
  - f_equal. lia.
Qed.

(** Digits, in front of which [acc] has been read. *)
Inductive continues (acc : Z) : list byte -> Z -> Prop :=
| continues_nil : continues acc [] acc
| continues_more : forall s z c d, continues acc s z -> b2z c = 48 + d -> 0 <= d <= 9 -> continues acc (s ++ [c]) (10 * z + d).
Lemma continues_cons acc c d r z : b2z c = 48 + d -> 0 <= d <= 9 -> (continues acc (c :: r) z <-> continues (10 * acc + d) r z).
Proof.
  intros Hc Hd. split.
  - revert z. induction r as [|e r IH] using rev_ind; intros z H.
    + inversion H as [|s y e f H1 H2 H3 E]; subst. change [c] with ([] ++ [c]) in E. apply app_inj_tail in E as [-> ->].
      inversion H1 as [|s' y' e' f' H1' ? ? E']; [|destruct s'; discriminate]. subst. replace f with d by lia. constructor.
    + inversion H as [|s y e' f H1 H2 H3 E]; subst. change (c :: r ++ [e]) with ((c :: r) ++ [e]) in E. apply app_inj_tail in E as [-> ->].
      constructor; [now apply IH|assumption|assumption].
  - induction 1 as [|s y e f H1 IH H2 H3].
    + change [c] with ([] ++ [c]). constructor; [constructor|assumption|assumption].
    + change (c :: s ++ [e]) with ((c :: s) ++ [e]). now constructor.
Qed.
Lemma continues_ge acc s z : 0 <= acc -> continues acc s z -> acc <= z.
Proof. induction 2; lia. Qed.
Lemma continues_first acc c r z : continues acc (c :: r) z -> exists d, b2z c = 48 + d /\ 0 <= d <= 9.
Proof.
  revert z. induction r as [|e r IH] using rev_ind; intros z H.
  - inversion H as [|s y e f H1 H2 H3 E]; subst. change [c] with ([] ++ [c]) in E. apply app_inj_tail in E as [-> ->]. now exists f.
  - inversion H as [|s y e' f H1 H2 H3 E]; subst. change (c :: r ++ [e]) with ((c :: r) ++ [e]) in E. apply app_inj_tail in E as [-> ->]. exact (IH _ H1).
Qed.
Lemma digits_spec lim s : forall acc z, 0 <= acc < lim -> (digits lim acc s = Some z <-> continues acc s z /\ z < lim).
Proof.
  induction s as [|c r IH]; intros acc z Ha; cbn [digits].
  - split; [intros E; injection E as <-; split; [constructor|lia]|]. intros [H _]. inversion H as [|s y e f ? ? ? E]; [reflexivity|destruct s; discriminate].
  - destruct (digit c) as [d|] eqn:E.
    + apply digit_spec in E as [Hc Hd]. cbv zeta. destruct (Z.ltb_spec (10 * acc + d) lim).
      * rewrite IH by lia. now rewrite (continues_cons acc c d r z Hc Hd).
      * split; [discriminate|]. intros [H1 H2]. apply (continues_cons acc c d r z Hc Hd) in H1. apply continues_ge in H1; lia.
    + split; [discriminate|]. intros [H _]. apply continues_first in H as (d & H). apply digit_spec in H. congruence.
Qed.
Lemma decimal_continues s z : decimal s z <-> s <> [] /\ continues 0 s z.
Proof.
  split.
  - induction 1 as [c d Hc Hd|s z c d H [_ IH] Hc Hd].
    + split; [discriminate|]. replace d with (10 * 0 + d) by lia. change [c] with ([] ++ [c]). constructor; [constructor|assumption|assumption].
    + split; [destruct s; discriminate|]. now constructor.
  - intros [N H]. revert N. induction H as [|s z c d H IH Hc Hd]; intros N; [now elim N|]. destruct s as [|e s].
    + inversion H as [|s' y e f ? ? ? E]; [|destruct s'; discriminate]. subst. cbn [app]. replace (10 * 0 + d) with d by lia. now constructor.
    + constructor; [|assumption|assumption]. apply IH. discriminate.
Qed.
Lemma not_digit_plus r z : ~ continues 0 (x2b :: r) z.
Proof. intros H. apply continues_first in H as (d & H1 & H2). change (b2z x2b) with 43 in H1. lia. Qed.
Lemma parse_uint_spec lim s z : 0 < lim -> (parse_uint lim s = Some z <-> numeral s z /\ z < lim).
Proof.
  intros Hl. unfold parse_uint, numeral. destruct s as [|c r].
  - split; [discriminate|]. intros [[H|(r & E & _)] _]; [apply decimal_continues in H as [N _]; now elim N|discriminate].
  - destruct (Byte.eqb c x2b) eqn:E.
    + apply Byte.byte_dec_bl in E as ->. destruct r as [|e r].
      * split; [discriminate|]. intros [[H|(r & E & H)] _]; apply decimal_continues in H as [N H]; [now apply not_digit_plus in H|].
        injection E as <-. now elim N.
      * rewrite digits_spec by lia. split; intros [H1 H2]; (split; [|exact H2]).
        -- right. exists (e :: r). split; [reflexivity|]. apply decimal_continues. split; [discriminate|exact H1].
        -- destruct H1 as [H|(r' & E & H)]; apply decimal_continues in H as [N H]; [now apply not_digit_plus in H|]. now injection E as <-.
    + rewrite digits_spec by lia. split; intros [H1 H2]; (split; [|exact H2]).
      * left. apply decimal_continues. split; [discriminate|exact H1].
      * destruct H1 as [H|(r' & E' & H)]; [now apply decimal_continues in H|]. injection E' as -> ->. discriminate.
Qed.
Lemma decimal_nonneg s z : decimal s z -> 0 <= z.
Proof. induction 1; lia. Qed.
Lemma numeral_nonneg s z : numeral s z -> 0 <= z.
Proof. intros [H|(r & _ & H)]; now apply decimal_nonneg in H. Qed.

Lemma numeral_unique s z z' : numeral s z -> numeral s z' -> z = z'.
Proof.
  intros H H'. set (lim := Z.max 1 (Z.max (z + 1) (z' + 1))).
  assert (P : parse_uint lim s = Some z) by (apply parse_uint_spec; [lia|split; [exact H|lia]]).
  assert (P' : parse_uint lim s = Some z') by (apply parse_uint_spec; [lia|split; [exact H'|lia]]). congruence.
Qed.

(** ** The generator, bit by bit *)

Definition MULTIPLIER : Z := 47026247687942121848144207491837523525.
Definition STEP : Z := 2 * STREAM + 1.
(** [s] is the state from which word [k] of the stream is made: the seed plus the step, multiplied and moved on [k + 2] times. *)
Definition state_of_word (seed : Z) (k : nat) (s : Z) : Prop :=
  let m := MULTIPLIER ^ Z.of_nat (k + 2) in
  exists g, (MULTIPLIER - 1) * g = m - 1 /\ s = ((seed + STEP) * m + STEP * g) mod 2 ^ 128.
(** Byte [i] of the stream, bit by bit: the halves of the state are added without carry and rotated to the right by its topmost six bits;
    least significant byte first. *)
Definition stream_byte (seed : Z) (i : nat) (b : byte) : Prop :=
  exists s, state_of_word seed (i / 8) s /\
    forall t, 0 <= t < 8 -> let q := (8 * Z.of_nat (i mod 8) + t + s / 2 ^ 122) mod 64 in
    Z.testbit (b2z b) t = xorb (Z.testbit s q) (Z.testbit s (64 + q)).
(** [l] is the beginning of the stream. *)
Definition begins (seed : Z) (l : list byte) : Prop := forall i b, nth_error l i = Some b -> stream_byte seed i b.

Lemma low_mod n x : 0 <= n -> low n x = x mod 2 ^ n.
Proof. intros H. unfold low. now apply Z.land_ones. Qed.
Lemma pcg_increment_STREAM : pcg_increment STREAM = STEP.
Proof. vm_compute. reflexivity. Qed.

Lemma output_bit s j : 0 <= s < 2 ^ 128 -> 0 <= j < 64 ->
  let q := (j + s / 2 ^ 122) mod 64 in Z.testbit (pcg_output s) j = xorb (Z.testbit s q) (Z.testbit s (64 + q)).
Proof.
  intros Hs Hj. unfold pcg_output. cbv zeta. rewrite (Z.shiftr_div_pow2 s 122) by lia. set (rot := s / 2 ^ 122).
  assert (Hr : 0 <= rot < 64).
  { subst rot. split; [apply Z.div_pos; lia|]. apply Z.div_lt_upper_bound; [lia|]. change (2 ^ 122 * 64) with (2 ^ 128). lia. }
  clearbody rot. set (x := Z.lxor (Z.shiftr s 64) (low 64 s)).
  assert (X : forall i, 0 <= i < 64 -> Z.testbit x i = xorb (Z.testbit s i) (Z.testbit s (64 + i))).
  { intros i Hi. subst x. rewrite Z.lxor_spec, Z.shiftr_spec by lia. unfold low. rewrite Z.land_spec, Z.testbit_ones_nonneg by lia.
    destruct (Z.ltb_spec i 64); [|lia]. rewrite andb_true_r, xorb_comm. now rewrite (Z.add_comm i 64). }
  assert (X' : forall i, 64 <= i -> Z.testbit x i = false).
  { intros i Hi. subst x. rewrite Z.lxor_spec, Z.shiftr_spec by lia. unfold low. rewrite Z.land_spec, Z.testbit_ones_nonneg by lia.
    destruct (Z.ltb_spec i 64); [lia|]. rewrite andb_false_r, xorb_false_r. destruct (Z.eq_dec s 0) as [->|N]; [apply Z.testbit_0_l|].
    apply Z.bits_above_log2; [lia|]. apply Z.lt_le_trans with 128; [|lia]. apply Z.log2_lt_pow2; lia. }
  clearbody x. rewrite Z.lor_spec, Z.shiftr_spec by lia. unfold low. rewrite Z.land_spec, Z.shiftl_spec, Z.testbit_ones_nonneg by lia.
  destruct (Z.ltb_spec j 64); [|lia]. rewrite andb_true_r. destruct (Z.lt_ge_cases (j + rot) 64).
  - rewrite (Z.testbit_neg_r x (j - (64 - rot))) by lia. rewrite orb_false_r. rewrite Z.mod_small by lia. apply X. lia.
  - rewrite X' by lia. cbn [orb]. replace ((j + rot) mod 64) with (j - (64 - rot)); [apply X; lia|].
    apply Z.mod_unique with 1; lia.
Qed.

Lemma byte_of_Z_low z : b2z (byte_of_Z z) = z mod 256.
Proof.
  unfold byte_of_Z, b2z. rewrite low_mod by lia. change (2 ^ 8) with 256. pose proof (Z.mod_pos_bound z 256 ltac:(lia)) as B.
  destruct (Byte.of_N (Z.to_N (z mod 256))) as [b|] eqn:E.
  - apply Byte.to_of_N in E. rewrite E. lia.
  - apply Byte.of_N_None_iff in E. lia.
Qed.
Lemma le_bytes_bit n : forall x k b t, nth_error (le_bytes n x) k = Some b -> 0 <= t < 8 -> Z.testbit (b2z b) t = Z.testbit x (8 * Z.of_nat k + t).
Proof.
  induction n as [|n IH]; intros x k b t E Ht; [destruct k; discriminate|]. cbn [le_bytes] in E. destruct k as [|k]; cbn [nth_error] in E.
  - injection E as <-. rewrite byte_of_Z_low. change 256 with (2 ^ 8). rewrite Z.mod_pow2_bits_low by lia. now rewrite Z.mul_0_r, Z.add_0_l.
  - rewrite (IH _ _ _ _ E Ht), Z.shiftr_spec by lia. f_equal. lia.
Qed.
Lemma iter_succ_r {A} (f : A -> A) k : forall x, Nat.iter (S k) f x = Nat.iter k f (f x).
Proof. induction k as [|k IH]; intros x; [reflexivity|]. change (f (Nat.iter (S k) f x) = f (Nat.iter k f (f x))). now rewrite IH. Qed.
Lemma pcg_bytes_nth w : forall words inc s k, (k < 8)%nat -> nth_error (pcg_bytes (w + S words) inc s) (8 * w + k) =
  nth_error (le_bytes 8 (pcg_output (Nat.iter (S w) (pcg_step inc) s))) k.
Proof.
  induction w as [|w IH]; intros words inc s k Hk.
  - cbn [Nat.add pcg_bytes Nat.mul]. cbv zeta. apply nth_error_app1. cbn [le_bytes length]. lia.
  - cbn [Nat.add pcg_bytes]. cbv zeta. rewrite nth_error_app2 by (cbn [le_bytes length]; lia).
    replace (8 * S w + k - length (le_bytes 8 (pcg_output (pcg_step inc s))))%nat with (8 * w + k)%nat by (cbn [le_bytes length]; lia).
    rewrite IH by exact Hk. now rewrite (iter_succ_r _ (S w)).
Qed.
Lemma steps_state s k : exists g, (MULTIPLIER - 1) * g = MULTIPLIER ^ Z.of_nat k - 1 /\
  Nat.iter k (pcg_step STEP) (s mod 2 ^ 128) = (s * MULTIPLIER ^ Z.of_nat k + STEP * g) mod 2 ^ 128.
Proof.
  induction k as [|k (g & Hg & IH)].
  - exists 0. split; [reflexivity|]. change (s mod 2 ^ 128 = (s * 1 + STEP * 0) mod 2 ^ 128). now rewrite Z.mul_1_r, Z.mul_0_r, Z.add_0_r.
  - exists (MULTIPLIER * g + 1). rewrite Nat2Z.inj_succ, Z.pow_succ_r by lia.
    split; [transitivity (MULTIPLIER * ((MULTIPLIER - 1) * g) + MULTIPLIER - 1); [ring|rewrite Hg; ring]|].
    cbn [Nat.iter nat_rect]. unfold Nat.iter in IH. rewrite IH. unfold pcg_step. rewrite low_mod by lia. change pcg_multiplier with MULTIPLIER.
    rewrite <- Zplus_mod_idemp_l, Zmult_mod_idemp_l, Zplus_mod_idemp_l. f_equal. ring.
Qed.
Lemma fill_nth seed n i b : nth_error (pcg_fill seed STREAM n) i = Some b -> stream_byte seed i b.
Proof.
  intros E. assert (Hi : (i < n)%nat) by (rewrite <- (pcg_fill_length seed STREAM n); apply nth_error_Some; congruence).
  unfold pcg_fill, pcg_words in E. rewrite pcg_increment_STREAM in E. cbv zeta in E.
  assert (E' : nth_error (pcg_bytes (S (n / 8)) STEP (pcg_step STEP (low 128 (seed + STEP)))) i = Some b).
  { rewrite <- E. symmetry. rewrite <- (firstn_skipn n (pcg_bytes _ _ _)) at 2. rewrite nth_error_app1; [reflexivity|].
    apply nth_error_Some. congruence. }
  clear E. pose proof (Nat.div_mod i 8 ltac:(lia)) as D. pose proof (Nat.mod_upper_bound i 8 ltac:(lia)) as B.
  assert (W : (i / 8 <= n / 8)%nat) by (apply Nat.div_le_mono; lia).
  rewrite D in E' at 1. replace (S (n / 8)) with (i / 8 + S (n / 8 - i / 8))%nat in E' by lia. rewrite pcg_bytes_nth in E' by exact B.
  rewrite low_mod in E' by lia. destruct (steps_state (seed + STEP) (i / 8 + 2)) as (g & Hg & HS).
  replace (Nat.iter (S (i / 8)) (pcg_step STEP) (pcg_step STEP ((seed + STEP) mod 2 ^ 128))) with
    (Nat.iter (i / 8 + 2) (pcg_step STEP) ((seed + STEP) mod 2 ^ 128)) in E' by (replace (i / 8 + 2)%nat with (S (S (i / 8))) by lia; apply iter_succ_r).
  rewrite HS in E'. eexists. split; [exists g; split; [exact Hg|reflexivity]|]. intros t Ht q.
  set (s := _ mod 2 ^ 128) in *. assert (0 <= s < 2 ^ 128) by (apply Z.mod_pos_bound; lia). clearbody s.
  rewrite (le_bytes_bit _ _ _ _ _ E' Ht). apply output_bit; lia.
Qed.
Lemma state_unique seed k s s' : state_of_word seed k s -> state_of_word seed k s' -> s = s'.
Proof. intros (g & Hg & ->) (g' & Hg' & ->). assert (g = g') as <- by (unfold MULTIPLIER in *; lia). reflexivity. Qed.
Lemma stream_byte_unique seed i b b' : stream_byte seed i b -> stream_byte seed i b' -> b = b'.
Proof.
  intros (s & Hs & H) (s' & Hs' & H'). rewrite <- (state_unique _ _ _ _ Hs Hs') in H'. apply b2z_inj. apply Z.bits_inj'. intros t Ht.
  destruct (Z.lt_ge_cases t 8); [now rewrite H, H' by lia|].
  assert (F : forall c, Z.testbit (b2z c) t = false).
  { intros c. pose proof (b2z_range c). destruct (Z.eq_dec (b2z c) 0) as [->|N]; [apply Z.testbit_0_l|]. apply Z.bits_above_log2; [lia|].
    apply Z.lt_le_trans with 8; [apply Z.log2_lt_pow2; lia|lia]. }
  now rewrite !F.
Qed.
Lemma begins_unique seed l l' : begins seed l -> begins seed l' -> length l = length l' -> l = l'.
Proof.
  intros H H' E. apply nth_ext with x00 x00; [exact E|]. intros i Hi.
  apply stream_byte_unique with seed i; [apply H|apply H']; apply nth_error_nth'; lia.
Qed.
Lemma fill_begins seed n l : l = pcg_fill seed STREAM n <-> begins seed l /\ length l = n.
Proof.
  assert (B : begins seed (pcg_fill seed STREAM n)) by (intros i b; apply fill_nth). pose proof (pcg_fill_length seed STREAM n) as L.
  split; [now intros ->|]. intros [H E]. apply (begins_unique seed _ _ H B). congruence.
Qed.

(** ** What is printed *)

(** How many bytes the program means to print, and in which builds it does. *)
Definition bytes_printed (checked : bool) (len : Z) (n : nat) : Prop :=
  if checked then Z.of_nat n = 1024 * len /\ Z.of_nat n < 2 ^ 63
  else exists k, Z.of_nat n + 2 ^ 64 * k = 1024 * len /\ Z.of_nat n < 2 ^ 63.

Theorem C84_prints : forall checked args l, main checked args = Prints l <->
  exists x a b seed len n, args = [x; a; b] /\ numeral a seed /\ seed < 2 ^ 128 /\ numeral b len /\ len < 2 ^ 64 /\
    bytes_printed checked len n /\ length l = n /\ begins seed l.
Proof.
  intros checked args l. split.
  - intros H. destruct args as [|x [|a [|b [|]]]]; try discriminate. cbn [main] in H.
    destruct (parse_uint (2 ^ 128) a) as [seed|] eqn:Ea; [|discriminate]. destruct (parse_uint (2 ^ 64) b) as [len|] eqn:Eb; [|discriminate].
    apply parse_uint_spec in Ea as [Na La]; [|lia]. apply parse_uint_spec in Eb as [Nb Lb]; [|lia]. pose proof (numeral_nonneg _ _ Nb) as P.
    cbv zeta in H. destruct (checked && (2 ^ 64 <=? 1024 * len))%bool eqn:EC; [discriminate|]. destruct (Z.leb_spec (2 ^ 63) ((1024 * len) mod 2 ^ 64)) as [|S]; [discriminate|].
    injection H as <-. pose proof (Z.mod_pos_bound (1024 * len) (2 ^ 64) ltac:(lia)) as B. pose proof (Z.div_mod (1024 * len) (2 ^ 64) ltac:(lia)) as D.
    exists x, a, b, seed, len, (Z.to_nat ((1024 * len) mod 2 ^ 64)). change 0xa02bdbf7bb3c0a7ac28fa16a64abf96 with STREAM.
    repeat apply conj; try assumption; try reflexivity; [|apply pcg_fill_length|intros i c; apply fill_nth].
    unfold bytes_printed. rewrite Z2Nat.id by lia. destruct checked; cbn [andb] in EC.
    + apply Z.leb_gt in EC. rewrite Z.mod_small in * by lia. lia.
    + exists (1024 * len / 2 ^ 64). lia.
  - intros (x & a & b & seed & len & n & -> & Na & La & Nb & Lb & HP & HL & HB). cbn [main]. pose proof (numeral_nonneg _ _ Nb) as P.
    rewrite (proj2 (parse_uint_spec (2 ^ 128) a seed ltac:(lia)) (conj Na La)), (proj2 (parse_uint_spec (2 ^ 64) b len ltac:(lia)) (conj Nb Lb)). cbv zeta.
    assert (S : (1024 * len) mod 2 ^ 64 = Z.of_nat n /\ (checked = true -> 1024 * len < 2 ^ 64)).
    { unfold bytes_printed in HP. destruct checked.
      - rewrite Z.mod_small by lia. lia.
      - destruct HP as (k & H1 & H2). split; [|discriminate]. symmetry. apply Z.mod_unique with k; lia. }
    destruct S as [S C]. rewrite S. assert (Z.of_nat n < 2 ^ 63) by (unfold bytes_printed in HP; destruct checked; [lia|destruct HP as (k & HP); lia]).
    replace (checked && (2 ^ 64 <=? 1024 * len))%bool with false; [|destruct checked; cbn [andb]; [|reflexivity]; specialize (C eq_refl); symmetry; apply Z.leb_gt; lia].
    destruct (Z.leb_spec (2 ^ 63) (Z.of_nat n)); [lia|]. rewrite Nat2Z.id. f_equal. symmetry. apply fill_begins. now split.
Qed.
Print Assumptions C84_prints.

(** Any other number of arguments is a matter of usage, anything else a panic. *)
Theorem C84_exits : forall checked args code, main checked args = Exits code <-> length args <> 3%nat /\ code = 1.
Proof.
  intros checked args code. unfold main. destruct args as [|x [|a [|b [|]]]]; cbn [length]; try (split; [intros E; injection E as <-; split; [discriminate|reflexivity]|now intros [_ ->]]).
  split; [|intros [N _]; now elim N]. intros E. exfalso. revert E.
  destruct (parse_uint (2 ^ 128) a), (parse_uint (2 ^ 64) b); try discriminate. cbv zeta.
  repeat match goal with |- (if ?c then _ else _) = _ -> _ => destruct c end; discriminate.
Qed.
Print Assumptions C84_exits.

Theorem C84_crashes : forall checked x a b, main checked [x; a; b] = Crashes <->
  ~ exists seed len n, numeral a seed /\ seed < 2 ^ 128 /\ numeral b len /\ len < 2 ^ 64 /\ bytes_printed checked len n.
Proof.
  intros checked x a b. split.
  - intros E (seed & len & n & H). assert (main checked [x; a; b] = Prints (pcg_fill seed STREAM n)); [|congruence].
    apply C84_prints. exists x, a, b, seed, len, n. split; [reflexivity|]. destruct H as (H1 & H2 & H3 & H4 & H5). repeat apply conj; try assumption; [apply pcg_fill_length|intros i c; apply fill_nth].
  - intros N. destruct (main checked [x; a; b]) as [l|code|] eqn:E; [exfalso|exfalso|reflexivity].
    + apply C84_prints in E as (x' & a' & b' & seed & len & n & E & H1 & H2 & H3 & H4 & H5 & _). injection E as <- <- <-. apply N. now exists seed, len, n.
    + apply C84_exits in E as [E _]. now elim E.
Qed.
Print Assumptions C84_crashes.

(** A longer file begins with the shorter one of the same seed. *)
Theorem C84_prefix : forall checked checked' x a b x' a' b' seed l l', main checked [x; a; b] = Prints l -> main checked' [x'; a'; b'] = Prints l' ->
  numeral a seed -> numeral a' seed -> (length l <= length l')%nat -> exists r, l' = l ++ r.
Proof.
  intros checked checked' x a b x' a' b' seed l l' H H' Na Na' HL.
  assert (B : forall c y u v k, numeral u seed -> main c [y; u; v] = Prints k -> begins seed k).
  { intros c y u v k Nu E. apply C84_prints in E as (x0 & a0 & b0 & s0 & len0 & n0 & E & N0 & _ & _ & _ & _ & _ & B0). injection E as <- <- <-.
    now rewrite (numeral_unique _ _ _ Nu N0). }
  assert (B1 := B _ _ _ _ _ Na H). assert (B2 := B _ _ _ _ _ Na' H').
  exists (skipn (length l) l'). rewrite <- (firstn_skipn (length l) l') at 1. f_equal. symmetry. apply (begins_unique seed); [exact B1| |rewrite firstn_length; lia].
  intros i c E. apply B2. rewrite <- (firstn_skipn (length l) l'). rewrite nth_error_app1; [exact E|]. apply nth_error_Some. congruence.
Qed.
Print Assumptions C84_prefix.

(** It is what [test_data] of tests/cuts.rs returns, with the same generator. *)
Theorem C84_test_data : forall user x a b seed len l n, main true [x; a; b] = Prints l -> numeral a seed -> numeral b len -> (100 <= n)%nat ->
  let args := [VInt U128 seed; VInt Usize (1024 * len)] in
  call (cut_tested pcg_fill user) n "test_data" args = Done (args, vbytes l).
Proof.
  intros user x a b seed len l n H Na Nb Hn args. destruct (src_test_data pcg_fill pcg_fill_length user seed (1024 * len)) as [_ T]. unfold cut_tested, args. rewrite (T n Hn). do 2 f_equal.
  apply C84_prints in H as (x' & a' & b' & seed' & len' & k & E & Na' & _ & Nb' & _ & (HP & _) & HL & HB). injection E as <- <- <-.
  rewrite (numeral_unique _ _ _ Na Na'), (numeral_unique _ _ _ Nb Nb'). symmetry. f_equal. apply fill_begins. split; [exact HB|lia].
Qed.
Print Assumptions C84_test_data.

(** ** Cases *)

(** The data of the tests that list cuts. *)
Example C84_case : forall x, main true [x; list_byte_of_string "+0"; list_byte_of_string "032"]%string = Prints data_0.
Proof.
  intros x. unfold main. change (parse_uint (2 ^ 128) (list_byte_of_string "+0")) with (Some 0). change (parse_uint (2 ^ 64) (list_byte_of_string "032")) with (Some 32).
  cbv beta iota zeta. change (true && (2 ^ 64 <=? 1024 * 32))%bool with false. change (2 ^ 63 <=? (1024 * 32) mod 2 ^ 64) with false. cbv iota.
  change ((1024 * 32) mod 2 ^ 64) with 32768. exact (f_equal Prints data_0_pcg).
Qed.
Example C84_case_ends : map (main true) [[[]; list_byte_of_string "1"]; [[]; list_byte_of_string "+"; list_byte_of_string "1"]; [[]; list_byte_of_string "1"; list_byte_of_string "-1"];
    [[]; list_byte_of_string "340282366920938463463374607431768211456"; list_byte_of_string "0"]; [[]; list_byte_of_string "340282366920938463463374607431768211455"; list_byte_of_string "0"];
    [[]; list_byte_of_string "7"; list_byte_of_string "9007199254740992"]; [[]; list_byte_of_string "7"; list_byte_of_string "18014398509481984"]]%string =
  [Exits 1; Crashes; Crashes; Crashes; Prints []; Crashes; Crashes].
Proof. vm_compute. reflexivity. Qed.
(** Without overflow checks the size wraps around: 2^54 + 1 KiB are asked for and one is printed. *)
Example C84_case_wraps : match main false [[]; list_byte_of_string "7"; list_byte_of_string "18014398509481985"]%string with
  | Prints l => length l = 1024%nat /\ firstn 4 l = firstn 4 (pcg_fill 7 STREAM 4) | _ => False end.
Proof. vm_compute. apply conj; reflexivity. Qed.
