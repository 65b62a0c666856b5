(** * AgreeExact: exactly when [push] and [find_chunk_edge] report the same cuts. *)

From Verif Require Import Base Api Tables Range Spec Lists Contract CutFacts.
From Verif Require Import Mii MiiProofs Ram Gear Pigz Gzip FastCdc Bup BupAny BuzHash Zpaq ZpaqProofs Zstd.
From Verif Require Import Builtin BuiltinProofs IterAll Agree CutProps Unbounded PropsForce.

Lemma firstn_app_exact : forall (a b : list byte), firstn (length a) (a ++ b) = a.
Proof. intros a b. rewrite firstn_app_le by lia. apply firstn_all. Qed.
Lemma skipn_app_exact : forall (a b : list byte), skipn (length a) (a ++ b) = b.
Proof. intros a b. rewrite skipn_app_ge by lia. now rewrite Nat.sub_diag. Qed.

Lemma first_exists : forall (r : list byte -> list byte -> Prop) h d, (forall n, ~ ends_at r h d n) -> forall j, (1 <= j <= length d)%nat -> ~ r h (firstn j d).
Proof.
  intros r h d N j. induction j as [j IH] using lt_wf_ind. intros Hj X. apply (N j). split; [lia|]. split; [exact X|]. intros i Hi. apply IH; lia.
Qed.

Lemma positions_agree : forall (r1 r2 : list byte -> list byte -> Prop) h d cs2, cuts_of (ends_at r2) h d cs2 -> forall cs1, cuts_of (ends_at r1) h d cs1 ->
  (forall p q, p = length h \/ In p cs2 -> (p < q <= length h + length d)%nat -> no_cut_between p q cs2 ->
     (r1 (firstn p (h ++ d)) (firstn (q - p) (skipn p (h ++ d))) <-> r2 (firstn p (h ++ d)) (firstn (q - p) (skipn p (h ++ d))))) -> cs1 = cs2.
Proof.
  intros r1 r2 h d cs2 H. induction H as [h d N|h d n cs2 F H IH]; intros cs1 H1 A.
  - inversion H1 as [h' d' N1|h' d' m cs3 G H3]; subst; [reflexivity|]. exfalso. destruct G as (G1 & G2 & G3).
    apply (first_exists _ _ _ N m G1). specialize (A (length h) (length h + m)%nat (or_introl eq_refl) ltac:(lia) ltac:(intros x Hx Y; destruct Hx)).
    replace (length h + m - length h)%nat with m in A by lia. rewrite firstn_app_exact, skipn_app_exact in A. apply A, G2.
  - assert (L : first_laws (ends_at r2)) by apply ends_at_laws. assert (LF := ends_at_progressive r2).
    destruct (cuts_of_increasing _ L LF _ _ _ H) as [Inc _]. destruct F as (F1 & F2 & F3).
    rewrite app_length, firstn_length, Nat.min_l in Inc by lia.
    assert (Before : forall q, (length h < q <= length h + n)%nat -> no_cut_between (length h) q ((length h + n)%nat :: cs2)).
    { intros q Hq x [<-|Hx] Y; [lia|]. apply (strictly_above_lt _ _ _ Inc) in Hx. lia. }
    assert (AT : forall j, (1 <= j <= n)%nat -> (r1 h (firstn j d) <-> r2 h (firstn j d))).
    { intros j Hj. specialize (A (length h) (length h + j)%nat (or_introl eq_refl) ltac:(lia) (Before (length h + j)%nat ltac:(lia))).
      replace (length h + j - length h)%nat with j in A by lia. now rewrite firstn_app_exact, skipn_app_exact in A. }
    inversion H1 as [h' d' N1|h' d' m cs3 G H3]; subst.
    + exfalso. apply (first_exists _ _ _ N1 n F1). apply AT; [lia|exact F2].
    + destruct G as (G1 & G2 & G3). assert (n = m).
      { destruct (Nat.lt_trichotomy n m) as [X|[X|X]]; [|exact X|]; exfalso; [apply (G3 n); [lia|apply AT; [lia|exact F2]]|apply (F3 m); [lia|apply AT; [lia|exact G2]]]. }
      subst m. f_equal. apply IH; [exact H3|]. intros p q Hp Hq Hb. rewrite <- app_assoc, firstn_skipn. apply A.
      * rewrite app_length, firstn_length, Nat.min_l in Hp by lia. right. destruct Hp as [->|Hp]; [now left|now right].
      * rewrite app_length, firstn_length, skipn_length, Nat.min_l in Hq by lia. lia.
      * intros x [<-|Hx] Y; [|exact (Hb x Hx Y)]. rewrite app_length, firstn_length, Nat.min_l in Hp by lia.
        destruct Hp as [->|Hp]; [lia|]. apply (strictly_above_lt _ _ _ Inc) in Hp. lia.
Qed.

Lemma positions_exact : forall (r1 r2 : list byte -> list byte -> Prop) d cs1 cs2, cuts_of (ends_at r1) [] d cs1 -> cuts_of (ends_at r2) [] d cs2 ->
  (cs1 = cs2 <-> forall p q, p = 0%nat \/ In p cs2 -> (p < q <= length d)%nat -> no_cut_between p q cs2 ->
     (r1 (firstn p d) (firstn (q - p) (skipn p d)) <-> r2 (firstn p d) (firstn (q - p) (skipn p d)))).
Proof.
  intros r1 r2 d cs1 cs2 H1 H2. split.
  - intros -> p q Hp Hq Hb. rewrite <- (cuts_of_at r1 [] d cs2 H1 p q Hp Hq Hb). exact (cuts_of_at r2 [] d cs2 H2 p q Hp Hq Hb).
  - intros A. exact (positions_agree r1 r2 [] d cs2 H2 cs1 H1 A).
Qed.

(** From [p] to [q] is one of the chunks with ends [cs]. *)
Definition chunk_at (cs : list nat) (p q : nat) : Prop := (p = 0%nat \/ In p cs) /\ In q cs /\ (p < q)%nat /\ no_cut_between p q cs.

(** One rule implies the other. *)
Lemma imp_exact : forall (r1 r2 : list byte -> list byte -> Prop) d cs1 cs2, (forall h c, r1 h c -> r2 h c) ->
  cuts_of (ends_at r1) [] d cs1 -> cuts_of (ends_at r2) [] d cs2 ->
  (cs1 = cs2 <-> forall p q, chunk_at cs2 p q -> r1 (firstn p d) (firstn (q - p) (skipn p d))).
Proof.
  intros r1 r2 d cs1 cs2 I H1 H2. split.
  - intros -> p q (Hp & Hq & Hl & Hb). apply (cuts_of_at r1 [] d cs2 H1 p q Hp); [|exact Hb|exact Hq]. split; [exact Hl|].
    exact (cuts_of_le _ (ends_at_laws _) _ _ _ H1 q Hq).
  - intros A. apply (positions_exact r1 r2 d cs1 cs2 H1 H2). intros p q Hp Hq Hb. split; [apply I|]. intros X.
    apply A. split; [exact Hp|]. split; [|split; [lia|exact Hb]]. exact (proj2 (cuts_of_at r2 [] d cs2 H2 p q Hp Hq Hb) X).
Qed.

(** The same rule, with and without a maximum. *)
Lemma cap_exact : forall (r : list byte -> Prop) max, 0 <= max -> forall h d cs2, cuts_of (ends_at (per_chunk r)) h d cs2 ->
  forall cs1, cuts_of (ends_at (per_chunk (fun c => r c \/ max < Z.of_nat (length c)))) h d cs1 ->
  (cs1 = cs2 <-> Forall (fun n => Z.of_nat n <= max + 1) (sizes (length h) cs2) /\ Z.of_nat (length h + length d) - Z.of_nat (last cs2 (length h)) <= max).
Proof.
  intros r max Hm h d cs2 H. induction H as [h d N|h d n cs2 F H IH]; intros cs1 H1; (inversion H1 as [h' d' N1|h' d' m cs3 G H3]; subst).
  - split; [|reflexivity]. intros _. split; [constructor|]. cbn [last]. destruct (Z.le_gt_cases (Z.of_nat (length d)) max) as [X|X]; [lia|]. exfalso.
    apply (first_exists _ _ _ N1 (length d)); [lia|]. right. rewrite firstn_all. lia.
  - split; [discriminate|]. intros [_ L]. exfalso. destruct G as (G1 & [G2|G2] & _); [exact (first_exists _ _ _ N m G1 G2)|].
    rewrite firstn_length in G2. cbn [last] in L. lia.
  - exfalso. destruct F as (F1 & F2 & _). apply (first_exists _ _ _ N1 n F1). left. exact F2.
  - destruct F as (F1 & F2 & F3), G as (G1 & G2 & G3). assert (Hmn : (m <= n)%nat).
    { destruct (Nat.le_gt_cases m n) as [X|X]; [exact X|]. exfalso. apply (G3 n); [lia|]. left. exact F2. }
    assert (Hcap : Z.of_nat m <= max + 1).
    { destruct (Z.le_gt_cases (Z.of_nat m) (max + 1)) as [X|X]; [exact X|]. exfalso. apply (G3 (m - 1)%nat); [lia|]. right. rewrite firstn_length. lia. }
    cbn [sizes]. replace (length h + n - length h)%nat with n by lia.
    assert (Sn : length (firstn n d) = n) by (rewrite firstn_length; lia).
    assert (Lst : last ((length h + n)%nat :: cs2) (length h) = last cs2 (length h + n)%nat).
    { destruct cs2 as [|x cs2]; [reflexivity|]. change (last ((length h + n)%nat :: x :: cs2) (length h)) with (last (x :: cs2) (length h)). apply last_other. discriminate. }
    rewrite Lst. clear Lst. split.
    + intros E. inversion E as [[E1 E2]]. assert (m = n) by lia. subst m cs3. destruct (IH cs2 H3) as [IH1 _]. destruct (IH1 eq_refl) as [IA IB].
      rewrite app_length, skipn_length, Sn in *. split; [constructor; [exact Hcap|exact IA]|]. replace (length h + n + (length d - n))%nat with (length h + length d)%nat in IB by lia. exact IB.
    + intros [S L]. inversion S as [|x y S1 S2]; subst. assert (m = n).
      { destruct (Nat.eq_dec m n) as [X|X]; [exact X|]. exfalso. destruct G2 as [G2|G2]; [apply (F3 m); [lia|exact G2]|]. rewrite firstn_length in G2. lia. }
      subst m. f_equal. apply (IH cs3 H3). rewrite app_length, skipn_length, Sn. split; [exact S2|]. replace (length h + n + (length d - n))%nat with (length h + length d)%nat by lia. exact L.
Qed.

(** ** Every algorithm with a rule for [find_chunk_edge]

    [cs1]: all cuts of [push], [cs2]: all cuts of [find_chunk_edge]. *)
Definition agree_exactly (c : config) (data : list byte) (cs1 cs2 : list nat) : Prop :=
  match c with
  | CfgMii w => Forall (fun n => w + 1 <= Z.of_nat n) (sizes 0 cs1)
  | CfgRollSum w => forall p q, p = 0%nat \/ In p cs2 -> (p < q <= length data)%nat -> no_cut_between p q cs2 ->
      (bup_incr_rule w (firstn q data) <-> bup_rule w (skipn p (firstn q data)))
  | CfgBuzHash _ _ _ max => Forall (fun n => Z.of_nat n <= max + 1) (sizes 0 cs2) /\ Z.of_nat (length data) - Z.of_nat (last cs2 0%nat) <= max
  | CfgZpaq f r => forall p q, chunk_at cs2 p q -> zpaq_rule r (2 ^ (32 - f)) 0 (skipn p (firstn q data))
  | _ => True
  end.

Lemma mii_rule_length : forall w c, mii_rule w c -> w + 1 <= Z.of_nat (length c).
Proof. intros w c (_ & a & t & -> & L & _). rewrite app_length. lia. Qed.

Theorem agree_iff : forall c rule d cs1 cs2, typed c -> incr_sound c -> chunk_rule c = Some rule ->
  cuts_of (incr_first c) [] d cs1 -> cuts_of (ends_at (per_chunk rule)) [] d cs2 -> (cs1 = cs2 <-> agree_exactly c d cs1 cs2).
Proof.
  intros c rule d cs1 cs2 T S R H1 H2.
  assert (Trivial : agree_when c cs1 cs2 = True -> agree_exactly c d cs1 cs2 = True -> (cs1 = cs2 <-> agree_exactly c d cs1 cs2)).
  { intros E1 E2. rewrite E2. split; [trivial|]. intros _. apply (cuts_agree c rule d cs1 cs2 T S R H1 H2). now rewrite E1. }
  destruct c as [w|w|n|b|w m|g mn nm mx|w|k mask h mx|f r|t]; try (apply Trivial; reflexivity); clear Trivial; cbn [incr_first chunk_rule agree_exactly typed incr_sound] in *; inversion R; subst rule.
  - split; [|intros A; exact (cuts_agree (CfgMii w) _ d cs1 cs2 T S eq_refl H1 H2 A)]. intros ->.
    apply (cuts_of_sizes (ends_at (per_chunk (mii_rule w))) (fun n => w + 1 <= Z.of_nat n)) with (h := []) (d := d); [|apply ends_at_laws|exact H2].
    intros h' d' n (B & X & _). apply mii_rule_length in X; rewrite firstn_length, Nat.min_l in X by lia. lia.
  - rewrite (positions_exact _ _ d cs1 cs2 H1 H2). unfold per_stream, per_chunk.
    assert (E : forall p q, (p < q <= length d)%nat -> firstn p d ++ firstn (q - p) (skipn p d) = firstn q d /\ firstn (q - p) (skipn p d) = skipn p (firstn q d)).
    { intros p q Hq. split; [|apply skipn_firstn_mid; lia]. rewrite skipn_firstn_mid by lia. rewrite <- (firstn_skipn p (firstn q d)) at 2. f_equal.
      rewrite firstn_firstn. f_equal. lia. }
    split; intros A p q Hp Hq Hb; specialize (A p q Hp Hq Hb); destruct (E p q Hq) as [E1 E2]; rewrite ?E1, ?E2 in *; exact A.
  - destruct T as (_ & T & _). unfold is_u64 in T. exact (cap_exact (buz_rule (value_of h) k mask) mx ltac:(lia) [] d cs2 H2 cs1 H1).
  - rewrite (imp_exact _ _ d cs1 cs2 (fun h' c' => zpaq_extra r _ c') H1 H2). unfold per_chunk.
    split; intros A p q Hc; specialize (A p q Hc); assert (Q := cuts_of_le _ (ends_at_laws _) _ _ _ H2 q (proj1 (proj2 Hc))); cbn [length Nat.add] in Q;
      destruct Hc as (_ & _ & Hl & _); rewrite ?skipn_firstn_mid in * by lia; exact A.
Qed.
