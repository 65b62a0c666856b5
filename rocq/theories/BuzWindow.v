(** * BuzWindow: for which capacities the hash of BuzHash is a function of the last [k] bytes. *)

From Verif Require Import Base Api Tables Spec Lists Contract Step Words Ring Rot BuzHash BuzProofs.

(** [push_byte] on one byte after the other. *)
Fixpoint buz_push_bytes (p : BuzHash) (s : BuzHashIncr) (c : list byte) : res BuzHashIncr :=
  match c with
  | [] => Ok s
  | b :: c' => s' <- buz_push_byte p s b ;; buz_push_bytes p s' c'
  end.

Lemma buz_push_bytes_rel : forall p hv, buz_good p hv -> forall c s h c0, buz_incr_rel p hv s h c0 ->
  Z.of_nat (length (c0 ++ c)) < 2 ^ 64 -> exists s', buz_push_bytes p s c = Ok s' /\ buz_incr_rel p hv s' h (c0 ++ c).
Proof.
  intros p hv G. induction c as [|b c IH]; intros s h c0 H L.
  - exists s. rewrite app_nil_r. auto.
  - rewrite app_length in L. cbn [length] in L.
    destruct (buz_push_byte_spec p hv G s h c0 b H ltac:(lia)) as (s1 & E1 & H1). cbn [buz_push_bytes]. rewrite E1. cbn [bind].
    destruct (IH s1 h (c0 ++ [b]) H1) as (s2 & E2 & H2).
    + rewrite !app_length. cbn [length]. lia.
    + exists s2. split; [exact E2|]. rewrite <- app_assoc in H2. exact H2.
Qed.

(** The configuration with a given capacity and byte hash. *)
Definition buz_with (k : nat) (hv : byte -> Z) : BuzHash :=
  {| bz_k := k; bz_h := fun b => Ok (hv b); bz_mask := 0; bz_max_chunk_size := 0 |}.

(** The state after a chunk of at least [k] bytes is the cyclic polynomial of its last [k] bytes. *)
Definition buz_windowed (k : nat) : Prop :=
  forall hv c, (forall b, word32 (hv b)) -> (k <= length c)%nat -> Z.of_nat (length c) < 2 ^ 64 ->
  exists s, buz_push_bytes (buz_with k hv) (buz_incr_new (buz_with k hv)) c = Ok s /\
    bzi_state s = cyclic hv 0 (firstn k (rev c)).

Definition one_hot (b : byte) : Z := if Byte.eqb b x01 then 1 else 0.

Lemma one_hot_word : forall b, word32 (one_hot b).
Proof. intros b. unfold one_hot, word32. destruct (Byte.eqb b x01); lia. Qed.

Lemma cyclic_one_hot_zeros : forall n a, cyclic one_hot a (repeat x00 n) = 0.
Proof.
  induction n as [|n IH]; intros a; [reflexivity|]. cbn [repeat cyclic]. rewrite IH. change (one_hot x00) with 0.
  now rewrite rot32_zero.
Qed.

Lemma rot32_one_inj : forall a b, rot32 a 1 = rot32 b 1 -> a mod 32 = b mod 32.
Proof.
  intros a b E. assert (W : word32 1) by (unfold word32; lia).
  assert (Ha : 0 <= a mod 32 < 32) by (apply Z.mod_pos_bound; lia).
  assert (X := rot32_bits a 1 (a mod 32) W Ha). assert (Y := rot32_bits b 1 (a mod 32) W Ha). rewrite E in X. rewrite X in Y.
  replace ((a mod 32 - a) mod 32) with 0 in Y.
  2:{ rewrite Zminus_mod_idemp_l. rewrite Z.sub_diag. reflexivity. }
  change (Z.testbit 1 0) with true in Y.
  assert (Hb : 0 <= (a mod 32 - b) mod 32 < 32) by (apply Z.mod_pos_bound; lia).
  assert (Z0 : (a mod 32 - b) mod 32 = 0).
  { destruct (Z.eq_dec ((a mod 32 - b) mod 32) 0) as [G|G]; [exact G|]. exfalso.
    rewrite (Z.bits_above_log2 1) in Y; [discriminate| lia |]. change (Z.log2 1) with 0. lia. }
  rewrite Zminus_mod_idemp_l in Z0. apply Z.mod_divide in Z0; [|lia]. destruct Z0 as [q Hq].
  replace a with (b + q * 32) by lia. now rewrite Z.mod_add by lia.
Qed.

Theorem buz_windowed_iff : forall k, (1 <= k)%nat -> Z.of_nat k + 1 < 2 ^ 64 -> (buz_windowed k <-> (k mod 32 < 8)%nat).
Proof.
  intros k Hk Hk2. split.
  - intros H. set (c := x01 :: repeat x00 k).
    assert (Lc : length c = S k) by (unfold c; cbn [length]; rewrite repeat_length; reflexivity).
    destruct (H one_hot c one_hot_word ltac:(lia) ltac:(lia)) as (s & E & Hs).
    assert (G : buz_good (buz_with k one_hot) one_hot) by (split; [exact Hk|intros b; split; [reflexivity|apply one_hot_word]]).
    destruct (buz_push_bytes_rel _ _ G c _ [] [] (buz_incr_new_rel _ _ G)) as (s' & E' & X).
    { cbn [app]. lia. }
    rewrite E in E'. inversion E'; subst s'. destruct X as (X & _). cbn [app bz_k buz_with] in X. rewrite Hs in X.
    assert (Rc : rev c = repeat x00 k ++ [x01]).
    { unfold c. cbn [rev]. f_equal. clear. induction k as [|n IH]; [reflexivity|]. cbn [repeat rev]. rewrite IH. now rewrite <- repeat_cons. }
    unfold buz_hash in X. rewrite Rc in X. rewrite firstn_app_le in X by (rewrite repeat_length; lia).
    rewrite firstn_all2 in X by (rewrite repeat_length; lia). rewrite skipn_app_ge in X by (rewrite repeat_length; lia).
    rewrite repeat_length, Nat.sub_diag in X. cbn [skipn] in X.
    rewrite cyclic_app in X. rewrite cyclic_one_hot_zeros, repeat_length in X. cbn [cyclic Nat.add] in X.
    change (one_hot x01) with 1 in X. rewrite !Z.lxor_0_r, Z.lxor_0_l in X.
    symmetry in X. apply Z.lxor_eq in X. apply rot32_one_inj in X.
    rewrite <- !(Nat2Z.inj_mod _ 32) in X. apply Nat2Z.inj in X. rewrite X.
    assert (Y := Nat.mod_upper_bound k 8 ltac:(lia)). rewrite Nat.mod_small by lia. exact Y.
  - intros H hv c Hw Hc Lc.
    assert (G : buz_good (buz_with k hv) hv) by (split; [exact Hk|intros b; split; [reflexivity|apply Hw]]).
    destruct (buz_push_bytes_rel _ _ G c _ [] [] (buz_incr_new_rel _ _ G)) as (s' & E' & X); [cbn [app]; lia|].
    exists s'. split; [exact E'|]. destruct X as (X & _). cbn [app bz_k buz_with] in X. rewrite X. now apply buz_hash_window.
Qed.
