(** * Float: the one floating-point expression of the crate, src/zpaq.rs:56-59
    [(max as f64 / (64f64 * 64f64)).log2() as u8]

    A finite [f64] is a rational number [m * 2^e] with a 53-bit [m].  [max as f64] and [/] give a number nearest to the exact
    result.  Of the library's [log2] only this is assumed: it does not pass over a number that has the [f64] format, i.e.
    the result is the exact logarithm or one of its two neighbours ("faithful"), and [log2(0)] is minus infinity. *)

From Coq Require Import QArith Qround Qabs Qpower Lia Lqa.
From Verif Require Import Base Zpaq.
Open Scope Z_scope.

Definition is_f64 (x : Q) : Prop := exists m e : Z, Z.abs m < 2 ^ 53 /\ -1074 <= e <= 971 /\ (x == inject_Z m * 2 ^ e)%Q.

Definition nearest (exact x : Q) : Prop := is_f64 x /\ forall d, is_f64 d -> (Qabs (exact - x) <= Qabs (exact - d))%Q.

(** [p / 2^q <= log2 v] is [2^p <= v^(2^q)]. *)
Definition faithful_log2 (v y : Q) : Prop := is_f64 y /\
  forall p q, 0 <= q -> is_f64 (inject_Z p / 2 ^ q) ->
    ((2 ^ p <= v ^ (2 ^ q))%Q -> (inject_Z p / 2 ^ q <= y)%Q) /\
    ((v ^ (2 ^ q) <= 2 ^ p)%Q -> (y <= inject_Z p / 2 ^ q)%Q).

Inductive f64 := Finite (x : Q) | NegInf.

Definition log2_gives (v : Q) (y : f64) : Prop :=
  match y with
  | NegInf => (v == 0)%Q
  | Finite y => (0 < v)%Q /\ faithful_log2 v y
  end.

(** [as u8]: towards zero, saturating. *)
Definition f64_as_u8 (y : f64) : Z := match y with Finite y => Z.max 0 (Z.min 255 (Qfloor y)) | NegInf => 0 end.

Definition ave_computed (max : Z) (r : Z) : Prop :=
  exists x v y, nearest (inject_Z max) x /\ nearest (x / (64 * 64)) v /\ log2_gives v y /\ r = f64_as_u8 y.

(** ** Numbers *)

Lemma pow2_pos e : (0 < 2 ^ e)%Q.
Proof. apply Qpower_0_lt. reflexivity. Qed.

Lemma pow2_Z e : 0 <= e -> (inject_Z (2 ^ e) == 2 ^ e)%Q.
Proof. intros H. rewrite Qpower.Zpower_Qpower by exact H. reflexivity. Qed.

Lemma is_f64_int m : Z.abs m < 2 ^ 53 -> is_f64 (inject_Z m).
Proof. intros H. exists m, 0. split; [exact H|]. split; [lia|]. rewrite Qpower_0_r, Qmult_1_r. reflexivity. Qed.

Lemma is_f64_dyadic p q : Z.abs p < 2 ^ 53 -> 0 <= q <= 1074 -> is_f64 (inject_Z p / 2 ^ q).
Proof. intros H Hq. exists p, (- q). split; [exact H|]. split; [lia|]. rewrite Qpower_opp. reflexivity. Qed.

Lemma is_f64_compat x y : (x == y)%Q -> is_f64 x -> is_f64 y.
Proof. intros E (m & e & H1 & H2 & H3). exists m, e. now rewrite <- E. Qed.

Lemma nearest_exact x y : is_f64 x -> nearest x y -> (y == x)%Q.
Proof.
  intros Hx [_ H]. specialize (H x Hx). setoid_replace (x - x)%Q with 0%Q in H by ring. change (Qabs 0) with 0%Q in H.
  apply Qabs_Qle_condition in H. lra.
Qed.

Lemma nearest_ge a x y : is_f64 a -> (a <= x)%Q -> nearest x y -> (a <= y)%Q.
Proof.
  intros Ha Hax [_ H]. specialize (H a Ha). rewrite (Qabs_pos (x - a)) in H by lra.
  apply Qabs_Qle_condition in H. lra.
Qed.

Lemma pow_succ_ge a n : 0 <= a -> 0 <= n -> a ^ (n + 1) + (n + 1) * a ^ n <= (a + 1) ^ (n + 1).
Proof.
  intros Ha Hn. pattern n. apply natlike_ind; [|clear n Hn|exact Hn].
  - change (0 + 1) with 1. rewrite !Z.pow_1_r, Z.pow_0_r. lia.
  - intros n Hn IH. replace (Z.succ n + 1) with ((n + 1) + 1) by lia. replace (Z.succ n) with (n + 1) by lia.
    rewrite (Z.pow_add_r a (n + 1) 1), (Z.pow_add_r (a + 1) (n + 1) 1) by lia. rewrite !Z.pow_1_r.
    assert (0 <= a ^ n) by (apply Z.pow_nonneg; lia).
    assert (E : a ^ (n + 1) = a ^ n * a) by (rewrite Z.pow_add_r by lia; now rewrite Z.pow_1_r). rewrite E in *. nia.
Qed.

Lemma below_power N m : 1 <= N -> 0 <= m < N -> 2 * m ^ N <= N ^ N.
Proof.
  intros HN Hm. assert (m ^ N <= (N - 1) ^ N) by (apply Z.pow_le_mono_l; lia).
  pose proof (pow_succ_ge (N - 1) (N - 1) ltac:(lia) ltac:(lia)) as H1. replace (N - 1 + 1) with N in H1 by lia.
  assert (E : (N - 1) ^ N = (N - 1) ^ (N - 1) * (N - 1)) by (replace N with (N - 1 + 1) at 2 by lia; rewrite Z.pow_add_r by lia; now rewrite Z.pow_1_r).
  assert (0 <= (N - 1) ^ (N - 1)) by (apply Z.pow_nonneg; lia). nia.
Qed.

Lemma Qfloor_between y k : (inject_Z k <= y)%Q -> (y < inject_Z (k + 1))%Q -> Qfloor y = k.
Proof.
  intros H1 H2. pose proof (Qfloor_resp_le _ _ H1) as H3. rewrite Qfloor_Z in H3.
  pose proof (Qfloor_le y) as H4. assert (H5 : (inject_Z (Qfloor y) < inject_Z (k + 1))%Q) by lra. rewrite <- Zlt_Qlt in H5. lia.
Qed.

Lemma log2_small m y : 4096 <= m < 2 ^ 45 -> faithful_log2 (inject_Z m / 4096) y -> Qfloor y = Z.log2 m - 12.
Proof.
  intros Hm [_ HF]. set (k := Z.log2 m). pose proof (Z.log2_spec m ltac:(lia)) as [L1 L2]. fold k in L1, L2.
  assert (K : 12 <= k < 45) by (split; [apply Z.log2_le_pow2; lia|apply Z.log2_lt_pow2; lia]).
  apply Qfloor_between.
  - destruct (HF (k - 12) 0 ltac:(lia)) as [H _]; [apply is_f64_dyadic; lia|].
    change (2 ^ 0)%Q with 1%Q in H. unfold Qdiv in H at 2. change (/ 1)%Q with 1%Q in H. rewrite Qmult_1_r in H. apply H.
    change (2 ^ 0) with 1. rewrite Qpower_1_r. apply Qle_shift_div_l; [reflexivity|]. rewrite <- pow2_Z by lia.
    change 4096%Q with (inject_Z 4096). rewrite <- inject_Z_mult, <- Zle_Qle. change 4096 with (2 ^ 12). rewrite <- Z.pow_add_r by lia. replace (k - 12 + 12) with k by lia. exact L1.
  - set (N := 2 ^ (k + 1)). assert (HN : 0 < N <= 2 ^ 45) by (split; [apply Z.pow_pos_nonneg; lia|apply Z.pow_le_mono_r; lia]).
    set (p := (k - 11) * N - 1). assert (Hp : 0 <= p < 2 ^ 53) by (unfold p; nia).
    destruct (HF p (k + 1) ltac:(lia)) as [_ H]; [apply is_f64_dyadic; lia|]. fold N in H.
    eapply Qle_lt_trans; [apply H|].
    + rewrite Qdiv_power. change 4096%Q with (inject_Z 4096). rewrite <- !Qpower.Zpower_Qpower by lia. rewrite <- pow2_Z by lia.
      apply Qle_shift_div_r; [change 0%Q with (inject_Z 0); rewrite <- Zlt_Qlt; apply Z.pow_pos_nonneg; lia|].
      rewrite <- inject_Z_mult, <- Zle_Qle. change 4096 with (2 ^ 12). rewrite <- Z.pow_mul_r, <- Z.pow_add_r by lia.
      pose proof (below_power N m ltac:(lia) ltac:(unfold N; replace (k + 1) with (Z.succ k) by lia; lia)) as B.
      assert (E : N ^ N = 2 * 2 ^ (p + 12 * N)).
      { unfold N at 1. rewrite <- Z.pow_mul_r by lia. replace ((k + 1) * N) with (1 + (p + 12 * N)) by (unfold p; lia). rewrite Z.pow_add_r by lia. reflexivity. }
      lia.
    + apply Qlt_shift_div_r; [apply pow2_pos|]. rewrite <- pow2_Z by lia. fold N. rewrite <- inject_Z_mult, <- Zlt_Qlt. unfold p. lia.
Qed.

Lemma faithful_compat v w y : (v == w)%Q -> faithful_log2 v y -> faithful_log2 w y.
Proof. intros E [H0 H]. split; [exact H0|]. intros p q Hq Hf. rewrite <- E. exact (H p q Hq Hf). Qed.

Lemma faithful_int v y p : Z.abs p < 2 ^ 53 -> faithful_log2 v y ->
  ((2 ^ p <= v)%Q -> (inject_Z p <= y)%Q) /\ ((v <= 2 ^ p)%Q -> (y <= inject_Z p)%Q).
Proof.
  intros Hp [_ H]. destruct (H p 0 ltac:(lia) (is_f64_dyadic p 0 Hp ltac:(lia))) as [A B].
  change (2 ^ 0)%Q with 1%Q in *. change (2 ^ 0) with 1 in *. unfold Qdiv in *. change (/ 1)%Q with 1%Q in *. rewrite Qmult_1_r in *.
  rewrite Qpower_1_r in *. auto.
Qed.

(** ** The expression *)

Theorem ave_spec max r : 0 <= max < 2 ^ 64 -> ave_computed max r ->
  (max < 2 ^ 45 -> r = fragment_ave_from_max max) /\ (2 ^ 45 <= max -> 33 <= r <= 255).
Proof.
  intros Hm (x & v & y & Hx & Hv & Hy & ->). split; intros Hb.
  - assert (Ex : (x == inject_Z max)%Q) by (apply nearest_exact; [apply is_f64_int; lia|exact Hx]).
    assert (Ev : (v == inject_Z max / 4096)%Q).
    { assert (E : (x / (64 * 64) == inject_Z max / 2 ^ 12)%Q) by (rewrite Ex; reflexivity).
      transitivity (x / (64 * 64))%Q; [|exact E]. apply nearest_exact; [|exact Hv].
      apply (is_f64_compat _ _ (Qeq_sym _ _ E)). apply is_f64_dyadic; lia. }
    destruct y as [y|]; cbn [log2_gives f64_as_u8] in *.
    + destruct Hy as [Pv Hy].
      apply (faithful_compat _ _ _ Ev) in Hy. unfold fragment_ave_from_max. destruct (Z.lt_ge_cases max 4096) as [L|L].
      * assert (y <= inject_Z 0)%Q as Hle.
        { apply (faithful_int _ y 0 ltac:(lia) Hy). apply Qle_shift_div_r; [reflexivity|]. change (2 ^ 0 * 4096)%Q with (inject_Z 4096). rewrite <- Zle_Qle. lia. }
        apply Qfloor_resp_le in Hle. rewrite Qfloor_Z in Hle.
        assert (Z.log2 max <= 12) by (apply (Z.log2_le_mono max (2 ^ 12)); lia). lia.
      * rewrite (log2_small max y) by (lia || exact Hy).
        assert (Z.log2 max < 45) by (apply Z.log2_lt_pow2; lia). lia.
    + assert (max = 0) as ->; [|reflexivity]. rewrite Ev in Hy. 
      assert (E : (inject_Z max == 0)%Q) by (rewrite <- (Qmult_div_r (inject_Z max) 4096) by discriminate; rewrite Hy; reflexivity).
      apply inject_Z_injective. exact E.
  - assert (Gx : (inject_Z (2 ^ 45) <= x)%Q) by (apply (nearest_ge _ (inject_Z max)); [apply is_f64_int; lia|rewrite <- Zle_Qle; exact Hb|exact Hx]).
    assert (Gv : (inject_Z (2 ^ 33) <= v)%Q).
    { apply (nearest_ge _ (x / (64 * 64))); [apply is_f64_int; lia| |exact Hv]. apply Qle_shift_div_l; [reflexivity|]. exact Gx. }
    destruct y as [y|]; cbn [log2_gives f64_as_u8] in *.
    + destruct Hy as [_ Hy]. apply (faithful_int _ y 33 ltac:(lia)) in Hy as [Hy _]. specialize (Hy Gv).
      apply Qfloor_resp_le in Hy. rewrite Qfloor_Z in Hy. lia.
    + rewrite Hy in Gv. exfalso. revert Gv. vm_compute. intros H. exact (H eq_refl).
Qed.

(** ** Such results exist *)

Lemma pow_S (a : Q) n : 0 <= n -> (a ^ (n + 1) == a ^ n * a)%Q.
Proof. intros H. rewrite Qpower_plus' by lia. rewrite Qpower_1_r. reflexivity. Qed.

Lemma pow_le a b n : 0 <= n -> (0 <= a)%Q -> (a <= b)%Q -> (a ^ n <= b ^ n)%Q.
Proof.
  intros Hn Ha Hab. pattern n. apply natlike_ind; [apply Qle_refl| |exact Hn]. clear n Hn. intros n Hn IH.
  change (Z.succ n) with (n + 1). rewrite !pow_S by exact Hn. pose proof (Qpower_0_le a n Ha). pose proof (Qpower_0_le b n ltac:(lra)). nra.
Qed.

Lemma pow_le_inv a b n : 0 < n -> (0 < a)%Q -> (0 < b)%Q -> (a ^ n <= b ^ n)%Q -> (a <= b)%Q.
Proof.
  intros Hn Ha Hb H. destruct (Qlt_le_dec b a) as [L|L]; [exfalso|exact L].
  replace n with (n - 1 + 1) in H by lia. rewrite !pow_S in H by lia.
  pose proof (pow_le b a (n - 1) ltac:(lia) ltac:(lra) ltac:(lra)). pose proof (Qpower_0_lt b (n - 1) Hb).
  assert ((b ^ (n - 1) * b < a ^ (n - 1) * a)%Q) by nra. lra.
Qed.

(** [p / 2^q <= log2 v] does not depend on how the number is written, and is downwards closed. *)
Lemma below_log2 v p q p' q' : (0 < v)%Q -> 0 <= q -> 0 <= q' -> (inject_Z p / 2 ^ q <= inject_Z p' / 2 ^ q')%Q ->
  (2 ^ p' <= v ^ (2 ^ q'))%Q -> (2 ^ p <= v ^ (2 ^ q))%Q.
Proof.
  intros Hv Hq Hq' H E. assert (0 < 2 ^ q) by (apply Z.pow_pos_nonneg; lia). assert (0 < 2 ^ q') by (apply Z.pow_pos_nonneg; lia).
  apply (pow_le_inv _ _ (2 ^ q')); [assumption|apply pow2_pos|apply Qpower_0_lt, Hv|].
  apply (Qle_trans _ ((2 ^ p') ^ (2 ^ q))); [|eapply Qle_trans; [apply pow_le; [lia|apply Qlt_le_weak, pow2_pos|exact E]|]];
    rewrite <- !Qpower_mult; [|rewrite Z.mul_comm; apply Qle_refl].
  apply Qpower_le_compat_l; [|unfold Qle; cbn; lia].
  rewrite Zle_Qle, !inject_Z_mult, !pow2_Z by assumption.
  pose proof (pow2_pos q). pose proof (pow2_pos q').
  assert (A : (inject_Z p == inject_Z p / 2 ^ q * 2 ^ q)%Q) by (field; lra).
  assert (B : (inject_Z p' == inject_Z p' / 2 ^ q' * 2 ^ q')%Q) by (field; lra).
  rewrite A, B. generalize dependent (inject_Z p / 2 ^ q)%Q. generalize dependent (inject_Z p' / 2 ^ q')%Q. intros. 
  assert (C : (0 < 2 ^ q * 2 ^ q')%Q) by nra. nra.
Qed.

Lemma above_log2 v p q p' q' : (0 < v)%Q -> 0 <= q -> 0 <= q' -> (2 ^ p' <= v ^ (2 ^ q'))%Q -> (v ^ (2 ^ q) <= 2 ^ p)%Q ->
  (inject_Z p' / 2 ^ q' <= inject_Z p / 2 ^ q)%Q.
Proof.
  intros Hv Hq Hq' E1 E2. assert (0 < 2 ^ q) by (apply Z.pow_pos_nonneg; lia). assert (0 < 2 ^ q') by (apply Z.pow_pos_nonneg; lia).
  assert (G : (2 ^ (p' * 2 ^ q) <= 2 ^ (p * 2 ^ q'))%Q).
  { rewrite !Qpower_mult. eapply Qle_trans; [apply pow_le; [lia|apply Qlt_le_weak, pow2_pos|exact E1]|].
    eapply Qle_trans; [|apply pow_le; [lia|apply Qlt_le_weak, Qpower_0_lt, Hv|exact E2]].
    rewrite <- !Qpower_mult. rewrite Z.mul_comm. apply Qle_refl. }
  apply Qpower_le_compat_l_inv in G; [|reflexivity].
  apply Qle_shift_div_l; [apply pow2_pos|]. rewrite Zle_Qle, !inject_Z_mult, !pow2_Z in G by assumption.
  setoid_replace (inject_Z p' / 2 ^ q' * 2 ^ q)%Q with ((inject_Z p' * 2 ^ q) / 2 ^ q')%Q by (field; pose proof (pow2_pos q'); lra).
  apply Qle_shift_div_r; [apply pow2_pos|exact G].
Qed.

Lemma range_list a b : { l | forall z, List.In z l <-> a <= z <= b }.
Proof.
  exists (map (fun n => a + Z.of_nat n) (List.seq 0 (Z.to_nat (b - a + 1)))). intros z. rewrite in_map_iff. split.
  - intros (n & <- & H). apply in_seq in H. lia.
  - intros H. exists (Z.to_nat (z - a)). split; [lia|]. apply in_seq. lia.
Qed.

(** All finite numbers, as [p / 2^q]. *)
Definition num (d : Z * Z) : Q := (inject_Z (fst d) / 2 ^ snd d)%Q.

Lemma f64_list : { l : list (Z * Z) | (forall d, List.In d l -> 0 <= snd d /\ is_f64 (num d)) /\ forall x, is_f64 x -> exists d, List.In d l /\ (num d == x)%Q }.
Proof.
  destruct (range_list (-1074) 971) as [es Hes]. destruct (range_list (- (2 ^ 53 - 1)) (2 ^ 53 - 1)) as [ms Hms].
  assert (E : forall m e, (num (if e <? 0 then (m, - e) else (m * 2 ^ e, 0))%Z == inject_Z m * 2 ^ e)%Q).
  { intros m e. unfold num. destruct (Z.ltb_spec e 0) as [L|L]; cbn [fst snd].
    - rewrite Qpower_opp. unfold Qdiv. rewrite Qinv_involutive. reflexivity.
    - change (2 ^ 0)%Q with 1%Q. rewrite inject_Z_mult, pow2_Z by exact L. field. }
  exists (map (fun me => if snd me <? 0 then (fst me, - snd me) else (fst me * 2 ^ snd me, 0)) (list_prod ms es)). split.
  - intros d Hd. apply in_map_iff in Hd as ([m e] & <- & Hd). apply in_prod_iff in Hd as [Hm He]. apply Hms in Hm. apply Hes in He. cbn [fst snd].
    split; [destruct (Z.ltb_spec e 0); cbn [snd]; lia|]. exists m, e. split; [lia|]. split; [exact He|apply E].
  - intros x (m & e & H1 & H2 & H3). exists (if e <? 0 then (m, - e) else (m * 2 ^ e, 0)). split; [|now rewrite E, H3].
    apply in_map_iff. exists (m, e). split; [reflexivity|]. apply in_prod_iff. rewrite Hms, Hes. lia.
Qed.

(** A largest element of those that satisfy a decidable condition. *)
Lemma largest {A} (g : A -> Q) (P : A -> bool) l :
  { a | List.In a l /\ P a = true /\ forall b, List.In b l -> P b = true -> (g b <= g a)%Q } + { forall a, List.In a l -> P a = false }.
Proof.
  induction l as [|x l [(m & Hm & Pm & Max)|None]]; [right; intros a []| |].
  - left. destruct (P x) eqn:E.
    + destruct (Qlt_le_dec (g m) (g x)) as [L|L].
      * exists x. cbn. split; [auto|]. split; [exact E|]. intros b [->|Hb] Pb; [apply Qle_refl|]. specialize (Max b Hb Pb). lra.
      * exists m. cbn. split; [auto|]. split; [exact Pm|]. intros b [->|Hb] Pb; [exact L|exact (Max b Hb Pb)].
    + exists m. cbn. split; [auto|]. split; [exact Pm|]. intros b [->|Hb] Pb; [congruence|exact (Max b Hb Pb)].
  - destruct (P x) eqn:E.
    + left. exists x. cbn. split; [auto|]. split; [exact E|]. intros b [->|Hb] Pb; [apply Qle_refl|]. rewrite (None b Hb) in Pb. discriminate.
    + right. intros b [->|Hb]; [exact E|exact (None b Hb)].
Qed.

Lemma nearest_exists x : { y | nearest x y }.
Proof.
  destruct f64_list as (l & Hl & All). 
  destruct (largest (fun d => - Qabs (x - num d))%Q (fun _ => true) l) as [(a & Ha & _ & Max)|None];
    [|exfalso; destruct (All 0%Q (is_f64_int 0 ltac:(lia))) as (z & Hz & _); discriminate (None z Hz)].
  exists (num a). split; [apply Hl, Ha|]. intros d Hd. destruct (All d Hd) as (b & Hb & E). specialize (Max b Hb eq_refl). cbn beta in Max.
  rewrite E in Max. lra.
Qed.

Lemma faithful_exists v : is_f64 v -> (0 < v)%Q -> { y | faithful_log2 v y }.
Proof.
  intros Fv Hv. destruct f64_list as (l & Hl & All).
  set (P := fun d : Z * Z => Qle_bool (2 ^ fst d) (v ^ (2 ^ snd d))).
  assert (L : exists d, List.In d l /\ P d = true).
  { destruct (All (inject_Z (-1074)) (is_f64_int (-1074) ltac:(lia))) as (d & Hd & E). exists d. split; [exact Hd|].
    unfold P. apply Qle_bool_iff. apply (below_log2 v (fst d) (snd d) (-1074) 0); [exact Hv|apply Hl, Hd|lia| |].
    - unfold num in E. rewrite E. change (2 ^ 0)%Q with 1%Q. unfold Qdiv. change (/ 1)%Q with 1%Q. rewrite Qmult_1_r. apply Qle_refl.
    - change (2 ^ 0) with 1. rewrite Qpower_1_r. destruct Fv as (m & e & _ & He & Ev). rewrite Ev.
      assert (0 < m) as Hm. { destruct (Z.lt_ge_cases 0 m) as [G|G]; [exact G|exfalso]. rewrite Zle_Qle in G. pose proof (pow2_pos e). rewrite Ev in Hv. change (inject_Z 0) with 0%Q in G.
        assert (0 <= (0 - inject_Z m) * 2 ^ e)%Q by (apply Qmult_le_0_compat; lra). lra. }
      apply (Qle_trans _ (2 ^ e)); [apply Qpower_le_compat_l; [lia|unfold Qle; cbn; lia]|].
      assert ((1 <= inject_Z m)%Q) by (change 1%Q with (inject_Z 1); rewrite <- Zle_Qle; lia). pose proof (pow2_pos e).
      assert (0 <= (inject_Z m - 1) * 2 ^ e)%Q by (apply Qmult_le_0_compat; lra). lra. }
  destruct (largest num P l) as [(a & Ha & Pa & Max)|None]; [|exfalso; destruct L as (d & Hd & Pd); rewrite (None d Hd) in Pd; discriminate]. exists (num a). split; [apply Hl, Ha|]. unfold P in Pa. apply Qle_bool_iff in Pa.
  destruct (Hl a Ha) as [Na _]. intros p q Hq Hf. split; intros H.
  - destruct (All _ Hf) as (b & Hb & E). rewrite <- E. apply Max; [exact Hb|]. unfold P. apply Qle_bool_iff.
    apply (below_log2 v (fst b) (snd b) p q); [exact Hv|apply Hl, Hb|exact Hq| |exact H]. unfold num in E. rewrite E. apply Qle_refl.
  - exact (above_log2 v p q (fst a) (snd a) Hv Hq Na Pa H).
Qed.

Lemma ave_exists max : 0 <= max < 2 ^ 64 -> { r | ave_computed max r }.
Proof.
  intros Hm. destruct (nearest_exists (inject_Z max)) as [x Hx]. destruct (nearest_exists (x / (64 * 64))) as [v Hv].
  assert (Z0 : is_f64 0%Q) by (apply (is_f64_int 0); lia).
  assert (Gx : (0 <= x)%Q) by (apply (nearest_ge _ (inject_Z max)); [exact Z0|change 0%Q with (inject_Z 0); rewrite <- Zle_Qle; lia|exact Hx]).
  assert (Gv : (0 <= v)%Q) by (apply (nearest_ge _ (x / (64 * 64))); [exact Z0|apply Qle_shift_div_l; [reflexivity|lra]|exact Hv]).
  destruct (Qlt_le_dec 0 v) as [L|L].
  - destruct (faithful_exists v (proj1 Hv) L) as [y Hy]. exists (f64_as_u8 (Finite y)), x, v, (Finite y). cbn [log2_gives]. auto.
  - exists 0, x, v, NegInf. cbn [log2_gives f64_as_u8]. split; [exact Hx|]. split; [exact Hv|]. split; [lra|reflexivity].
Qed.
