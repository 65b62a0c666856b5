(** * Force: words after which every stream has been cut. *)

From Verif Require Import Base Api Tables Range Spec Lists Words Contract Rot CutFacts CutProps Builtin BuiltinProofs Agree Unbounded.
From Verif Require Import PigzProofs BuzProofs BupAny MiiProofs.

(** A word that makes the rule true, whatever came before it. *)
Lemma word_cut : forall (r : list byte -> list byte -> Prop) w data cs, w <> [] -> (forall h c, r h (c ++ w)) -> cuts_of (ends_at r) [] (data ++ w) cs ->
  exists q, In q cs /\ (length data < q <= length data + length w)%nat.
Proof.
  intros r w data cs Hw R H. assert (L : (1 <= length w)%nat) by (destruct w; [easy|cbn; lia]).
  destruct (last_cut cs (length data + length w) ltac:(lia)) as (p & Hp & Hpq & HB).
  destruct (Nat.le_gt_cases p (length data)) as [G|G].
  - exists (length data + length w)%nat. split; [|lia].
    apply (cuts_of_at _ _ _ _ H p (length data + length w)%nat Hp); [rewrite app_length; cbn [length]; lia|exact HB|].
    cbn [app]. rewrite (skipn_app_le _ p data w) by lia. rewrite (firstn_all2 (skipn p data ++ w)) by (rewrite app_length, skipn_length; lia). apply R.
  - exists p. split; [destruct Hp; [lia|assumption]|lia].
Qed.

Lemma window_word : forall w (r : list byte -> Prop) word, window_rule w r -> (w <= length word)%nat -> r word -> forall c, r (c ++ word).
Proof. intros w r word W L H c. now apply (W c word L). Qed.

(** *** Bytes *)
Lemma byte_exists : forall z, 0 <= z <= 255 -> exists b, b2z b = z.
Proof.
  intros z Hz. destruct (Byte.of_N (Z.to_N z)) as [b|] eqn:E.
  - exists b. unfold b2z. rewrite (Byte.to_of_N _ E). apply Z2N.id. lia.
  - apply Byte.of_N_None_iff in E. lia.
Qed.

Lemma bytes_from : forall n a, 0 <= a -> a + Z.of_nat n <= 256 -> exists l, length l = n /\ forall i b, nth_error l i = Some b -> b2z b = a + Z.of_nat i.
Proof.
  induction n as [|n IH]; intros a Ha Hn; [exists []; split; [reflexivity|]; intros [|i] b E; discriminate|].
  destruct (byte_exists a ltac:(lia)) as [x Hx]. destruct (IH (a + 1) ltac:(lia) ltac:(lia)) as (l & Ll & Hl). exists (x :: l). split; [cbn; lia|].
  intros [|i] b E; cbn [nth_error] in E; [inversion E; subst; lia|]. rewrite (Hl i b E). lia.
Qed.

(** *** Mii: the bytes 0 to w *)
Lemma mii_word : forall w, 1 <= w <= 255 -> exists word, Z.of_nat (length word) = w + 1 /\ forall h c, mii_incr_rule w h (c ++ word) /\ mii_rule w (c ++ word).
Proof.
  intros w Hw. destruct (bytes_from (Z.to_nat (w + 1)) 0 ltac:(lia) ltac:(lia)) as (word & L & B). exists word. split; [lia|].
  assert (R : forall c, mii_rule w (c ++ word)).
  { intros c. split; [lia|]. exists c, word. split; [reflexivity|]. split; [lia|]. intros i a b Ea Eb. rewrite (B _ _ Ea), (B _ _ Eb). lia. }
  intros h c. split; [|apply R]. destruct h; [apply R|]. apply (R (x00 :: c)).
Qed.

(** *** Ram: bytes 255 *)
Lemma ram_word : forall w, 0 <= w -> forall c, ram_rule w (c ++ repeat xff (Z.to_nat w + 2)).
Proof.
  intros w Hw c. exists (c ++ repeat xff (Z.to_nat w + 1)), xff. split; [|split].
  - rewrite <- app_assoc. f_equal. replace (Z.to_nat w + 2)%nat with (Z.to_nat w + 1 + 1)%nat by lia. apply repeat_app.
  - rewrite app_length, repeat_length. lia.
  - intros x _. change (b2z xff) with 255. assert (B := b2z_range x). lia.
Qed.

(** *** Gear32: fingerprint 0 *)
Definition gear_word : list byte := repeat x00 24 ++ [x8f; xc7; xdb; x4b; xef; x3d; x07; x3f].
Lemma gear_word_rule : forall n, n <= 32 -> forall c, gear_rule n (c ++ gear_word).
Proof.
  intros n Hn. apply (window_word 32); [apply gear_window|cbn; lia|]. unfold gear_rule. replace (gear_fingerprint gear_word) with 0 by (vm_compute; reflexivity).
  apply Z.pow_pos_nonneg; lia.
Qed.

(** *** PigzRsyncable: a 0 and then ones *)
Lemma xor_sum_ones : forall n, xor_sum 0 (repeat x01 n) = 2 ^ Z.of_nat n - 1.
Proof.
  induction n as [|n IH]; [reflexivity|]. cbn [repeat xor_sum]. change (b2z x01 * 2 ^ Z.of_nat 0) with 1.
  rewrite xor_sum_age, IH. change (2 ^ Z.of_nat 1) with 2. rewrite Nat2Z.inj_succ, Z.pow_succ_r by lia.
  set (y := 2 ^ Z.of_nat n - 1). replace (2 * 2 ^ Z.of_nat n - 1) with (2 * y + 1) by (unfold y; ring).
  rewrite Z.lxor_comm. apply Z.bits_inj. intros i. rewrite Z.lxor_spec. destruct (Z.ltb_spec i 0); [now rewrite !Z.testbit_neg_r|].
  destruct (Z.eq_dec i 0) as [->|Hi]; [rewrite Z.testbit_even_0, Z.testbit_odd_0; reflexivity|].
  replace i with (Z.succ (i - 1)) by lia. rewrite Z.testbit_even_succ, Z.testbit_odd_succ by lia. change 1 with (2 * 0 + 1) at 2. rewrite Z.testbit_odd_succ by lia.
  now rewrite Z.testbit_0_l, xorb_false_r.
Qed.

Definition pigz_word (b : Z) : list byte := x00 :: repeat x01 (Z.to_nat b - 1).
Lemma pigz_word_rule : forall b, 0 <= b -> forall c, pigz_rule b (c ++ pigz_word b).
Proof.
  intros b Hb. apply (window_word (Z.to_nat b)); [now apply pigz_window|unfold pigz_word; cbn [length]; rewrite repeat_length; lia|].
  destruct (Z.eq_dec b 0) as [->|H0]; [reflexivity|].
  unfold pigz_rule. cbv zeta. unfold pigz_word. cbn [rev]. rewrite repeat_rev, xor_sum_app, xor_sum_ones. cbn [xor_sum length]. rewrite repeat_length.
  change (b2z x00) with 0. rewrite Z.mul_0_l, !Z.lxor_0_r. replace (Z.of_nat (S (Z.to_nat b - 1))) with b by lia. replace (Z.of_nat (Z.to_nat b - 1)) with (b - 1) by lia.
  assert (P : 2 ^ b = 2 * 2 ^ (b - 1)) by (rewrite <- Z.pow_succ_r by lia; f_equal; lia). assert (Pp := Z.pow_pos_nonneg 2 (b - 1) ltac:(lia) ltac:(lia)).
  assert (E : (2 ^ b - 1) / 2 = 2 ^ (b - 1) - 1) by (symmetry; apply Z.div_unique with (r := 1); lia). rewrite E.
  apply Z.bits_inj_iff'. intros i Hi. destruct (Z.ltb_spec i b).
  - rewrite Z.mod_pow2_bits_low by lia. rewrite Z.lxor_spec, Z.mul_pow2_bits_low by lia. apply xorb_false_l.
  - rewrite Z.mod_pow2_bits_high by lia. symmetry.
    replace (2 ^ (b - 1) - 1) with (Z.ones (b - 1)) by (rewrite Z.ones_equiv; lia). apply Z.ones_spec_high. lia.
Qed.

(** *** GzipRsyncable: zeros *)
Lemma gzip_word_rule : forall w m, forall c, gzip_rule w m (c ++ repeat x00 (S w)).
Proof.
  intros w m. apply (window_word w); [apply gzip_window|rewrite repeat_length; lia|]. unfold gzip_rule, lastn. rewrite skipn_repeat, byte_sum_zeros. reflexivity.
Qed.

(** *** RollSum: the newest bytes can have any weighted sum *)
Lemma aged_bytes : forall k s, 0 <= s -> 2 * s <= 255 * Z.of_nat k * (Z.of_nat k + 1) -> exists l, length l = k /\ aged_sum 0 l = s.
Proof.
  induction k as [|k IH]; intros s Hs Hk; [exists []; split; [reflexivity|cbn [aged_sum]; lia]|].
  assert (D := Z.div_mod s (Z.of_nat k + 1) ltac:(lia)). assert (M := Z.mod_pos_bound s (Z.of_nat k + 1) ltac:(lia)).
  assert (Q : 0 <= s / (Z.of_nat k + 1)) by (apply Z.div_pos; lia). set (d := s / (Z.of_nat k + 1)) in *.
  destruct (byte_exists (Z.min 255 d) ltac:(lia)) as [b Hb].
  destruct (IH (s - (Z.of_nat k + 1) * Z.min 255 d)) as (l & Ll & Hl).
  - assert (Z.min 255 d <= d) by lia. nia.
  - destruct (Z.le_gt_cases 255 d).
    + replace (Z.min 255 d) with 255 by lia. lia.
    + replace (Z.min 255 d) with d by lia. nia.
  - exists (l ++ [b]). split; [rewrite app_length; cbn; lia|]. rewrite aged_sum_app, Hl, Ll. cbn [aged_sum Nat.add]. rewrite Hb. ring.
Qed.

Lemma aged_sum_bound : forall l a, 0 <= aged_sum a l /\ 2 * aged_sum a l <= 255 * Z.of_nat (length l) * (2 * Z.of_nat a + Z.of_nat (length l) + 1).
Proof.
  induction l as [|b l IH]; intros a; cbn [aged_sum length]; [lia|]. destruct (IH (S a)) as [I1 I2]. assert (B := b2z_range b). nia.
Qed.

Lemma bytes_sum : forall n y, 0 <= y <= 255 * Z.of_nat n -> exists l, length l = n /\ byte_sum l = y.
Proof.
  induction n as [|n IH]; intros y Hy; [exists []; split; [reflexivity|cbn [byte_sum]; lia]|].
  destruct (byte_exists (Z.min 255 y) ltac:(lia)) as [b Hb]. destruct (IH (y - Z.min 255 y) ltac:(lia)) as (l & Ll & Hl).
  exists (b :: l). split; [cbn; lia|]. cbn [byte_sum]. lia.
Qed.

Lemma bup_word : forall W, (7 <= W)%nat -> exists word, length word = W /\ forall c, bup_rule W (c ++ word).
Proof.
  intros W HW. set (K := 31 * Z.of_nat W * (Z.of_nat W - 1)). set (s := (8191 - K) mod 8192).
  assert (Hs := Z.mod_pos_bound (8191 - K) 8192 ltac:(lia)). fold s in Hs.
  assert (G : exists k l, (k <= W)%nat /\ length l = k /\ aged_sum 0 l = s).
  { destruct (Nat.eq_dec W 7) as [E|E].
    - exists 7%nat. destruct (aged_bytes 7 s ltac:(lia)) as (l & Ll & Hl); [|exists l; repeat split; [lia|exact Ll|exact Hl]].
      replace s with 6889; [lia|]. unfold s, K. rewrite E. reflexivity.
    - exists 8%nat. destruct (aged_bytes 8 s ltac:(lia)) as (l & Ll & Hl); [lia|]. exists l. repeat split; [lia|exact Ll|exact Hl]. }
  destruct G as (k & l & Hk & Ll & Hl). exists (repeat x00 (W - k) ++ rev l). assert (Lw : length (repeat x00 (W - k) ++ rev l) = W) by (rewrite app_length, repeat_length, rev_length; lia).
  split; [exact Lw|]. apply (window_word W); [apply bup_window|lia|]. unfold bup_rule, bup_s2. fold K.
  rewrite rev_app_distr, rev_involutive, repeat_rev, firstn_all2 by (rewrite app_length, repeat_length; lia).
  rewrite aged_sum_app, aged_sum_zeros, Hl. unfold s. rewrite Z.add_0_r, Z.add_mod_idemp_r by lia. replace (K + (8191 - K)) with 8191 by ring. reflexivity.
Qed.

(** Windows that are too short to reach the value at all. *)
Lemma bup_never : forall W c, (W <= 6)%nat -> ~ bup_rule W c.
Proof.
  intros W c HW R. unfold bup_rule, bup_s2 in R. destruct (aged_sum_bound (firstn W (rev c)) 0) as [A1 A2].
  assert (L : (length (firstn W (rev c)) <= W)%nat) by (rewrite firstn_length; lia). set (x := aged_sum 0 (firstn W (rev c))) in *.
  set (n := Z.of_nat (length (firstn W (rev c)))) in *. assert (Ln : 0 <= n <= 6) by (unfold n; lia). clearbody x n.
  assert (X : x <= 5355) by nia. assert (K : 0 <= 31 * Z.of_nat W * (Z.of_nat W - 1) <= 930) by nia. rewrite Z.mod_small in R by lia. lia.
Qed.

(** [push]: the newest [low_bit W] bytes with their weights, all older ones with one common weight. *)
Definition bup_incr_can (W : nat) : Prop := exists s x, 0 <= s /\ 2 * s <= 255 * Z.of_nat (low_bit W) * (Z.of_nat (low_bit W) + 1) /\ 0 <= x /\
  (31 * Z.of_nat W * (Z.of_nat W - 1) + s - (Z.of_nat W - Z.of_nat (low_bit W)) * x) mod 8192 = 8191.

Lemma bup_incr_can_needed : forall W c, bup_incr_rule W c -> bup_incr_can W.
Proof.
  intros W c R. exists (aged_sum 0 (firstn (low_bit W) (rev c))), (byte_sum (skipn (low_bit W) (rev c))).
  destruct (aged_sum_bound (firstn (low_bit W) (rev c)) 0) as [A1 A2]. assert (L : (length (firstn (low_bit W) (rev c)) <= low_bit W)%nat) by (rewrite firstn_length; lia).
  split; [exact A1|]. split; [nia|]. split; [apply byte_sum_range|exact R].
Qed.

Lemma bup_incr_can_reach : forall W, bup_incr_can W -> forall data, exists ext, length ext = (33 + low_bit W)%nat /\ bup_incr_rule W (data ++ ext).
Proof.
  intros W (s & x & Hs & Hb & Hx & E) data. destruct (aged_bytes (low_bit W) s Hs Hb) as (l & Ll & Hl).
  set (y := (x - byte_sum data) mod 8192). assert (Hy := Z.mod_pos_bound (x - byte_sum data) 8192 ltac:(lia)). fold y in Hy.
  destruct (bytes_sum 33 y ltac:(lia)) as (f & Lf & Hf). exists (f ++ rev l). split; [rewrite app_length, rev_length; lia|].
  unfold bup_incr_rule, bup_incr_s2. rewrite !rev_app_distr, rev_involutive, <- app_assoc.
  rewrite firstn_app_le, firstn_all2, skipn_app_ge by lia. rewrite Ll, Nat.sub_diag. cbn [skipn]. rewrite byte_sum_app, !byte_sum_rev, Hf, Hl.
  rewrite <- E. set (D := Z.of_nat W - Z.of_nat (low_bit W)). set (K := 31 * _ * _).
  assert (Y : y = x - byte_sum data - 8192 * ((x - byte_sum data) / 8192)) by (assert (Q := Z.div_mod (x - byte_sum data) 8192 ltac:(lia)); fold y in Q; lia).
  rewrite Y. replace (K + s - D * (x - byte_sum data - 8192 * ((x - byte_sum data) / 8192) + byte_sum data)) with (K + s - D * x + (D * ((x - byte_sum data) / 8192)) * 8192) by ring.
  apply Z.mod_add. lia.
Qed.

(** Powers of two: exactly those from 8 on. *)
Lemma bup_incr_can_pow2 : forall k, bup_incr_can (2 ^ k) <-> (8 <= 2 ^ k)%nat.
Proof.
  intros k. split.
  - intros H. destruct (bup_incr_can_reach _ H []) as (ext & _ & R). apply bup_incr_rule_pow2 in R.
    destruct (Nat.le_gt_cases 8 (2 ^ k)) as [G|G]; [exact G|]. exfalso. apply (bup_never (2 ^ k) ext); [|exact R].
    destruct k as [|[|[|k]]]; cbn in *; lia.
  - intros H. destruct (bup_word (2 ^ k) ltac:(lia)) as (w & _ & R). apply (bup_incr_can_needed _ w). apply bup_incr_rule_pow2. exact (R []).
Qed.

(** Also every window that is a multiple of 8. *)
Lemma bup_incr_can_8 : forall W, (8 <= low_bit W)%nat -> bup_incr_can W.
Proof.
  intros W H. set (K := 31 * Z.of_nat W * (Z.of_nat W - 1)). exists ((8191 - K) mod 8192), 0. fold K. assert (Hs := Z.mod_pos_bound (8191 - K) 8192 ltac:(lia)).
  split; [lia|]. split; [nia|]. split; [lia|]. rewrite Z.mul_0_r, Z.sub_0_r, Z.add_mod_idemp_r by lia. replace (K + (8191 - K)) with 8191 by ring. reflexivity.
Qed.

(** *** Zpaq: 36 mispredicted bytes make the hash forget, then it is led to 0 *)
Definition known (ctx : list byte) : bool := match ctx with p :: older => existsb (fun q => Byte.eqb q p) older | [] => false end.
Definition local_prediction (ctx : list byte) : byte := match ctx with p :: older => follower p p older | [] => x00 end.

Lemma follower_known : forall older p q rest, existsb (fun x => Byte.eqb x p) older = true -> follower p q (older ++ rest) = follower p q older.
Proof.
  induction older as [|x older IH]; intros p q rest E; [discriminate|]. cbn [existsb app follower] in *. destruct (Byte.eqb x p); [reflexivity|]. now apply IH.
Qed.

Lemma prediction_known : forall ctx rest, known ctx = true -> prediction (ctx ++ rest) = local_prediction ctx.
Proof.
  intros [|p older] rest E; [discriminate|]. unfold prediction. cbn [app local_prediction known] in *. rewrite <- app_assoc. now apply follower_known.
Qed.

(** The hash after [bytes] as a function of the hash after [ctx]: [a * h + b]. *)
Fixpoint zpaq_affine (ctx : list byte) (a b : Z) (bytes : list byte) : option (Z * Z) :=
  match bytes with
  | [] => Some (a, b)
  | x :: bytes' =>
      if known ctx then
        let m := if Byte.eqb x (local_prediction ctx) then 314159265 else 271828182 in
        zpaq_affine (x :: ctx) (a * m mod 2 ^ 32) ((b + b2z x + 1) * m mod 2 ^ 32) bytes'
      else None
  end.

Lemma zpaq_affine_spec : forall bytes ctx a b a' b' rest h, zpaq_affine ctx a b bytes = Some (a', b') ->
  zpaq_hash_rev (ctx ++ rest) = (a * h + b) mod 2 ^ 32 -> zpaq_hash_rev (rev bytes ++ ctx ++ rest) = (a' * h + b') mod 2 ^ 32.
Proof.
  induction bytes as [|x bytes IH]; intros ctx a b a' b' rest h E H; cbn [zpaq_affine] in E; [inversion E; subst; exact H|].
  destruct (known ctx) eqn:K; [|discriminate]. cbn [rev]. rewrite <- app_assoc. cbn [app]. change (x :: ctx ++ rest) with ((x :: ctx) ++ rest).
  eapply IH; [exact E|]. cbn [app zpaq_hash_rev]. rewrite (prediction_known _ _ K), H. set (m := if Byte.eqb x _ then _ else _).
  rewrite <- Zmult_mod_idemp_l. replace ((a * h + b) mod 2 ^ 32 + b2z x + 1) with ((a * h + b) mod 2 ^ 32 + (b2z x + 1)) by ring.
  rewrite Zplus_mod_idemp_l, Zmult_mod_idemp_l.
  symmetry. rewrite <- Zplus_mod_idemp_l, <- Zplus_mod_idemp_r. rewrite Zmult_mod_idemp_l, Zmod_mod, Zplus_mod_idemp_r, Zplus_mod_idemp_l. f_equal. ring.
Qed.

Definition zpaq_prefix : list byte := [x01; x01; x02; x02].
Definition zpaq_tail : list byte := concat (repeat [x01; x01; x02; x02] 9) ++
  [x02; x02; x02; x01; x02; x01; x01; x01; x01; x01; x02; x01; x01; x02; x01; x01; x01; x02; x02; x02; x02; x02; xb0].

Lemma zpaq_word_hash : forall c, zpaq_hash (c ++ zpaq_prefix ++ zpaq_tail) = 0.
Proof.
  intros c. unfold zpaq_hash. rewrite !rev_app_distr, <- app_assoc.
  rewrite (zpaq_affine_spec zpaq_tail (rev zpaq_prefix) 1 0 0 0 (rev c) (zpaq_hash_rev (rev zpaq_prefix ++ rev c))); [reflexivity|vm_compute; reflexivity|].
  rewrite Z.mul_1_l, Z.add_0_r. cbn [rev zpaq_prefix app zpaq_hash_rev]. symmetry. apply Zmod_mod.
Qed.

Definition lower_end (r : range) : Z := match start_bound r with Included x => x | Excluded x => x + 1 | Unbounded => 0 end.
Definition zpaq_word (r : range) : list byte := repeat x00 (Z.to_nat (lower_end r)) ++ zpaq_prefix ++ zpaq_tail.

Lemma zpaq_word_rule : forall f r extra, f <= 32 -> 0 <= extra -> forall c, zpaq_rule r (2 ^ (32 - f)) extra (c ++ zpaq_word r).
Proof.
  intros f r extra Hf He c. left. split.
  - unfold zpaq_word. rewrite app_assoc, zpaq_word_hash. apply Z.pow_pos_nonneg; lia.
  - unfold zpaq_word. rewrite !app_length, repeat_length. unfold below_range, lower_end. destruct (start_bound r); lia.
Qed.

(** *** Zstd: all 64 bits of the hash are one *)
Definition zstd_word : list byte :=
  [x00; xc1; x5e; xcd; xf5; x49; xe0; x88; xcd; xfb; x95; xbb; x5b; x91; x1f; xd3; xb5;
   x91; x2f; xa6; x89; x43; x27; x63; x3b; x80; x2a; xcf; x29; x09; xc9; x19; x30].

Lemma zstd_word_rule : forall bits, 0 <= bits <= 64 -> forall c, zstd_rule bits (c ++ zstd_word).
Proof.
  intros bits Hb. apply (window_word 33); [apply zstd_window|cbn; lia|]. split; [cbn; lia|].
  replace (zstd_hash zstd_word) with (2 ^ 64 - 1) by (vm_compute; reflexivity).
  assert (P := Z.pow_pos_nonneg 2 bits ltac:(lia) ltac:(lia)). assert (E : 2 ^ 64 = 2 ^ bits * 2 ^ (64 - bits)) by (rewrite <- Z.pow_add_r by lia; f_equal; lia).
  symmetry. apply Z.mod_unique with (q := 2 ^ (64 - bits) - 1); lia.
Qed.

(** *** BuzHash::new_nom *)
Lemma cyclic_map : forall (f : byte -> Z) (g : byte -> byte) l a, cyclic f a (map g l) = cyclic (fun b => f (g b)) a l.
Proof. intros f g. induction l as [|b l IH]; intros a; [reflexivity|]. cbn [map cyclic]. now rewrite IH. Qed.

Definition byte_xor (a b : byte) : byte := match Byte.of_N (N.lxor (Byte.to_N a) (Byte.to_N b)) with Some c => c | None => x00 end.
Lemma b2z_xor : forall a b, b2z (byte_xor a b) = Z.lxor (b2z a) (b2z b).
Proof.
  intros a b. enough (H : forallb (fun a => forallb (fun b => b2z (byte_xor a b) =? Z.lxor (b2z a) (b2z b)) all_bytes) all_bytes = true).
  { apply Z.eqb_eq. pose proof (forall_bytes _ H a) as Ha. exact (forall_bytes _ Ha b). }
  vm_compute. reflexivity.
Qed.

Definition buz_word : list byte := repeat x00 65 ++ [xcb; x00].
Lemma buz_word_rule : forall salt, let hv := fun b => nth (Z.to_nat (Z.lxor (b2z b) (b2z salt))) GO_BUZHASH 0 in
  forall c, buz_rule hv 67 4095 (c ++ map (byte_xor salt) buz_word).
Proof.
  intros salt hv. assert (R : forall b, word32 (table_at GO_BUZHASH b)).
  { intros b. assert (H : forallb (fun b => (0 <=? table_at GO_BUZHASH b) && (table_at GO_BUZHASH b <? 2 ^ 32)) all_bytes = true) by (vm_compute; reflexivity).
    assert (Hb := forall_bytes _ H b). cbv beta in Hb. apply andb_true_iff in Hb. unfold word32. lia. }
  assert (W : forall b, word32 (hv b)).
  { intros b. unfold hv. rewrite <- b2z_xor. apply R. }
  apply (window_word 67); [apply buz_window; [exact W|apply Nat.ltb_lt; reflexivity]|rewrite map_length; cbn; lia|].
  assert (E : forall l, cyclic hv 0 (map (byte_xor salt) l) = cyclic (table_at GO_BUZHASH) 0 l).
  { intros l. rewrite cyclic_map. clear - l. generalize 0%nat. induction l as [|b l IH]; intros a; [reflexivity|]. cbn [cyclic]. rewrite IH. do 2 f_equal.
    unfold hv, table_at. rewrite b2z_xor. rewrite (Z.lxor_comm (b2z salt)), Z.lxor_assoc, Z.lxor_nilpotent, Z.lxor_0_r. reflexivity. }
  unfold buz_rule, buz_hash. rewrite <- map_rev, E. rewrite skipn_all2 by (rewrite map_length; cbn; lia). cbn [cyclic]. rewrite Z.lxor_0_r.
  intros i Hi Ht. replace (cyclic (table_at GO_BUZHASH) 0 (rev buz_word)) with (cyclic (table_at GO_BUZHASH) 0 (rev buz_word) / 2 ^ 12 * 2 ^ 12 + 4095) by (vm_compute; reflexivity).
  change 4095 with (Z.ones 12) in Ht. destruct (Z.lt_ge_cases i 12); [|rewrite Z.ones_spec_high in Ht by lia; discriminate].
  rewrite <- (Z.mod_pow2_bits_low _ 12) by lia. rewrite Z.add_comm, Z_mod_plus_full. change (4095 mod 2 ^ 12) with (Z.ones 12). apply Z.ones_spec_low. lia.
Qed.
