(** * Oracle: the one-buffer FastCDC of tests/fastcdc.rs computes what [FastCdcIncr::default] answers. *)

From Verif Require Import Base Api Tables Spec Lists Contract Step Words FastCdc FastCdcProofs Drivers.

Definition dflt : FastCdc := fastcdc_default.
Lemma dflt_ok : fastcdc_ok dflt.
Proof. split; [reflexivity|]. cbn. lia. Qed.

Section Oracle.
  Variable D : list byte.

  Lemma oracle_range : forall mask n i, (Z.to_nat 2048 <= i)%nat -> (i + n <= length D)%nat ->
    (exists fp k, (i <= k < i + n)%nat /\ Z.land (fc_hash dflt (firstn (S k) D)) mask = 0 /\
       (forall j, (i <= j < k)%nat -> Z.land (fc_hash dflt (firstn (S j) D)) mask <> 0) /\
       for_range (fast_cdc_8kb_body GEAR_64 mask D) i n (fc_hash dflt (firstn i D)) = Ok (Return fp k)) \/
    ((forall j, (i <= j < i + n)%nat -> Z.land (fc_hash dflt (firstn (S j) D)) mask <> 0) /\
       for_range (fast_cdc_8kb_body GEAR_64 mask D) i n (fc_hash dflt (firstn i D)) = Ok (Next (fc_hash dflt (firstn (i + n) D)))).
  Proof.
    intros mask n; induction n as [|n IH]; intros i Hi Hn.
    - right. split; [intros; lia|]. cbn [for_range]. now rewrite Nat.add_0_r.
    - cbn [for_range]. unfold fast_cdc_8kb_body at 1 3. unfold index at 1 3.
      destruct (nth_error D i) as [v|] eqn:Ev; [|apply nth_error_None in Ev; lia]. cbn [bind].
      assert (R := fc_roll dflt D i v eq_refl Hi Ev). unfold fastcdc_roll in R. change (fc_gear dflt) with GEAR_64 in R.
      destruct (index GEAR_64 (Z.to_nat (b2z v))) as [g| |]; cbn [bind] in R |- *; try discriminate.
      assert (R' : wrap64 (wrap64 (Z.shiftl (fc_hash dflt (firstn i D)) 1) + g) = fc_hash dflt (firstn (S i) D)) by congruence.
      rewrite R'. destruct (Z.eqb_spec (Z.land (fc_hash dflt (firstn (S i) D)) mask) 0) as [Ez|Ez]; cbn [bind].
      + left. eexists _, i. split; [lia|]. split; [exact Ez|]. split; [intros; lia|reflexivity].
      + destruct (IH (S i) ltac:(lia) ltac:(lia)) as [(fp & k & Hk & Hz & Hj & E)|(Hj & E)].
        * left. exists fp, k. split; [lia|]. split; [exact Hz|]. split; [|exact E].
          intros j Hjj. destruct (Nat.eq_dec j i) as [->|]; [exact Ez|]. apply Hj. lia.
        * right. split.
          -- intros j Hjj. destruct (Nat.eq_dec j i) as [->|]; [exact Ez|]. apply Hj. lia.
          -- rewrite E. do 4 f_equal. lia.
  Qed.

  Definition hit (i : nat) : Prop := fc_hit dflt D i.

  Lemma oracle_spec :
    (exists n, fc_first dflt [] D n /\ fast_cdc_8kb GEAR_64 D = Ok n) \/
    ((forall n, ~ fc_first dflt [] D n) /\ fast_cdc_8kb GEAR_64 D = Ok 0%nat).
  Proof.
    unfold fast_cdc_8kb. cbv zeta. set (MIN := Z.to_nat 2048). set (MAX := Z.to_nat 65536). set (NORM := Z.to_nat 8192).
    assert (HMIN : Z.of_nat MIN = 2048) by reflexivity. assert (HMAX : Z.of_nat MAX = 65536) by reflexivity.
    assert (HNORM : Z.of_nat NORM = 8192) by reflexivity.
    destruct (Nat.leb_spec (length D) MIN) as [Hs|Hs].
    { right. split; [|reflexivity]. intros n (F & _). cbn in F. lia. }
    assert (Hn : exists n normal, (if Nat.leb MAX (length D) then (MAX, NORM)
        else if Nat.leb (length D) NORM then (length D, length D) else (length D, NORM)) = (n, normal) /\
        n = Nat.min MAX (length D) /\ normal = Nat.min NORM n).
    { destruct (Nat.leb_spec MAX (length D)); [|destruct (Nat.leb_spec (length D) NORM)]; eexists _, _; split; try reflexivity; lia. }
    destruct Hn as (n & normal & -> & Hn & Hno). clearbody MIN MAX NORM.
    assert (Hz : fc_hash dflt (firstn MIN D) = 0).
    { apply fc_hash_short. rewrite firstn_length. cbn. lia. }
    assert (Hmin : (Z.to_nat 2048 <= MIN)%nat) by lia.
    assert (HS : forall i, (MIN <= i < normal)%nat -> Z.land (fc_hash dflt (firstn (S i) D)) 0x0003590703530000 <> 0 -> ~ fc_hit dflt D i).
    { intros i Hi Hx Hh. apply fc_hit_spec in Hh. unfold fastcdc_mask in Hh. cbn [fc_normal_size dflt fastcdc_default] in Hh.
      destruct (Z.ltb_spec (Z.of_nat i) (8 * 1024)); [auto|lia]. }
    assert (HL : forall i, (normal <= i < n)%nat -> Z.land (fc_hash dflt (firstn (S i) D)) 0x0000d90003530000 <> 0 -> ~ fc_hit dflt D i).
    { intros i Hi Hx Hh. apply fc_hit_spec in Hh. unfold fastcdc_mask in Hh. cbn [fc_normal_size dflt fastcdc_default] in Hh.
      destruct (Z.ltb_spec (Z.of_nat i) (8 * 1024)); [lia|auto]. }
    assert (Hfirst : forall k, (MIN <= k <= n)%nat -> (k = MAX \/ (k < n)%nat /\ fc_hit dflt D k) ->
      (forall j, (MIN <= j < k)%nat -> ~ fc_hit dflt D j) -> fc_first dflt [] D k).
    { intros k Hk Hst Hno'. split; [cbn; lia|]. split; [cbn; lia|]. split.
      - destruct Hst as [->|[Hlt Hh]]; [left; cbn; lia|right]. split; [lia|exact Hh].
      - intros m Hm [Hm'|[Hm' Hh]]; cbn [fc_min_size fc_max_size dflt fastcdc_default] in *; [lia|].
        apply (Hno' m); [lia|exact Hh]. }
    rewrite <- Hz.
    destruct (oracle_range 0x0003590703530000 (normal - MIN) MIN Hmin ltac:(lia)) as [(fp & k & Hk & Hzk & Hj & E)|(Hj & E)];
      rewrite E; cbn [bind].
    - left. exists k. split; [|reflexivity]. apply Hfirst; [lia| |].
      + right. split; [lia|]. apply fc_hit_spec. unfold fastcdc_mask. cbn [fc_normal_size dflt fastcdc_default].
        destruct (Z.ltb_spec (Z.of_nat k) (8 * 1024)); [exact Hzk|lia].
      + intros j Hjj. apply HS; [lia|]. apply Hj. lia.
    - replace (MIN + (normal - MIN))%nat with normal in * by lia.
      assert (Hnohit1 : forall j, (MIN <= j < normal)%nat -> ~ fc_hit dflt D j).
      { intros j Hjj. apply HS; [lia|]. apply Hj. lia. }
      destruct (oracle_range 0x0000d90003530000 (n - normal) normal ltac:(lia) ltac:(lia)) as [(fp & k & Hk & Hzk & Hj2 & E2)|(Hj2 & E2)];
        rewrite E2; cbn [bind].
      + left. exists k. split; [|reflexivity]. apply Hfirst; [lia| |].
        * right. split; [lia|]. apply fc_hit_spec. unfold fastcdc_mask. cbn [fc_normal_size dflt fastcdc_default].
          destruct (Z.ltb_spec (Z.of_nat k) (8 * 1024)); [lia|exact Hzk].
        * intros j Hjj. destruct (Nat.lt_ge_cases j normal); [apply Hnohit1; lia|]. apply HL; [lia|]. apply Hj2. lia.
      + assert (Hnohit : forall j, (MIN <= j < n)%nat -> ~ fc_hit dflt D j).
        { intros j Hjj. destruct (Nat.lt_ge_cases j normal); [apply Hnohit1; lia|]. apply HL; [lia|]. apply Hj2. lia. }
        destruct (Nat.eqb_spec n MAX) as [En|En].
        * left. exists n. split; [|reflexivity]. apply Hfirst; [lia|now left|]. intros j Hjj. apply Hnohit. lia.
        * right. split; [|reflexivity]. intros k (F1 & F2 & F3 & F4). cbn [fc_min_size fc_max_size dflt fastcdc_default] in *.
          destruct F3 as [F3|[F3 Hh]]; [lia|]. apply (Hnohit k); [lia|exact Hh].
  Qed.

  Theorem oracle_push : below_2_64 (length D) ->
    exists s o, incr_push (fastcdc_incr fastcdc_default) (incr_new (fastcdc_incr fastcdc_default)) D = Ok (s, o) /\
      fast_cdc_8kb GEAR_64 D = Ok (match o with Some k => k | None => 0%nat end).
  Proof.
    intros Hl. assert (L : first_laws (fc_first dflt)) by (apply fc_laws; cbn; lia).
    destruct (fc_push_ok dflt dflt_ok fastcdc_state_default [] [] D (fc_default_rel dflt) (fl_nil _ L []) Hl)
      as [(n & k & s' & F & En & Ef & _)|(s' & F & Ef & _)]; cbn [app length] in *.
    - exists s', (Some k). split; [exact Ef|]. destruct oracle_spec as [(m & F' & E)|[N _]]; [|elim (N _ F)].
      rewrite E. f_equal. rewrite (fl_fun _ L _ _ _ _ F' F). lia.
    - exists s', None. split; [exact Ef|]. destruct oracle_spec as [(m & F' & E)|[_ E]]; [elim (F _ F')|exact E].
  Qed.
End Oracle.
