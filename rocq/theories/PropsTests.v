(** * PropsTests: C77, the tests of the crate, from their text. *)

From Coq Require Import String ZifyBool ZifyNat.
From Verif Require Import Base Api Spec Tables Lists CutFacts Mii Ram Gear Pigz Gzip FastCdc Bup BuzHash Range Zpaq Zstd Builtin BuiltinProofs Drivers DriverFast DriverZstd ZpaqCtor Oracle Force.
From Verif Require Import Rust RustLex RustParse RustElab RustSource RustFiles RustTests RustText DriverText RustSim RustLib.
From Verif Require Import RustMii RustRam RustGear RustPigz RustGzip RustFastCdc RustBup RustBuzHash RustRange RustZpaq RustZstd RustConfig DriverSim PropsCallers PropsDrivers PropsLoops PropsBuz PropsBuilds PropsText FastCdcProofs Contract Cases ZstdProofs.
Open Scope list_scope.
Open Scope Z_scope.

(** ** The tests in the files *)

Definition understood {A} (l : list (string * inferred fn * A)) : list (string * fn * A) :=
  flat_map (fun p => match p with (x, Fine f, a) => [(x, f, a)] | _ => [] end) l.
Definition found (l : option (list (string * inferred fn * list strategy) * list (string * inferred fn))) : list (string * fn * list strategy) * list (string * fn) :=
  match l with Some (ps, us) => (understood ps, accepted us) | None => ([], []) end.
Definition found_tests : list (string * fn * list strategy) * list (string * fn) := Eval vm_compute in found test_functions.
Definition property_tests : list (string * fn * list strategy) := Eval cbv in fst found_tests.
Definition unit_test_text : list (string * fn) := Eval cbv in snd found_tests.

(** Nothing in [proptest!] is left out. *)
Theorem C77_text : option_map (fun p => (fst p, accepted (snd p))) test_functions =
  Some (map (fun p => match p with (x, f, s) => (x, Fine f, s) end) property_tests, unit_test_text).
Proof. vm_compute. reflexivity. Qed.
Print Assumptions C77_text.

(** The crate, the callers, and the tests that call them. *)
Definition test_text : list (string * fn) := map fst property_tests ++ unit_test_text.
Definition with_tests (user : program) : program := fun f =>
  match find_fn test_text f with
  | Some g => Some (Rust.Source g)
  | None => user f
  end.
Definition tested (user : program) : program := crate (drivers (with_tests user)).

(** The values proptest may draw. *)
Inductive drawn : strategy -> value -> Prop :=
| drawn_int : forall t z, 0 <= z < ity_size t -> drawn (DrawInt t) (VInt t z)
| drawn_vec : forall t lo hi shortest longest l, Forall (fun z => lo <= z < hi) l -> shortest <= Z.of_nat (length l) < longest ->
    drawn (DrawVec t lo hi shortest longest) (VList (map (VInt t) l)).

Definition strategies_of (x : string) : list strategy :=
  match List.find (fun p => String.eqb (fst (fst p)) x) property_tests with Some (_, _, s) => s | None => [] end.

(** On every input; the depth of the evaluation is bounded by [enough]. *)
Definition test_passes (u : program) (x : string) : Prop :=
  forall vs, Forall2 drawn (strategies_of x) vs -> exists enough, forall n, (enough <= n)%nat -> call (tested u) n x vs = Done (vs, VUnit).
Definition test_fails_on (u : program) (x : string) (vs : list value) : Prop :=
  Forall2 drawn (strategies_of x) vs /\ exists enough, forall n, (enough <= n)%nat -> call (tested u) n x vs = Panics.

Ltac look_test :=
  look_driver;
  repeat match goal with
  | |- context [with_tests ?u ?f] =>
      is_string f;
      let r := eval vm_compute in (find_fn test_text f) in
      match r with
      | Some ?g => change (with_tests u f) with (Some (Rust.Source g))
      | None => change (with_tests u f) with (u f)
      end
  end.
Ltac reduce_hook ::= look_test.

(** ** Drawn bytes and sizes *)

Lemma drawn_bytes shortest longest v : drawn (DrawVec U8 0 256 shortest longest) v ->
  exists data, v = vbytes data /\ shortest <= Z.of_nat (length data) < longest.
Proof.
  inversion_clear 1 as [|t lo hi s l' l F L]. revert L. generalize shortest longest. induction l as [|z l IH]; intros a b L.
  - exists []. split; [reflexivity|exact L].
  - inversion_clear F as [|? ? Hz F']. destruct (IH F' (a - 1) (b - 1)) as (d & E & L'); [cbn in L; lia|].
    destruct (byte_exists z ltac:(lia)) as [c Hc]. exists (c :: d). unfold vbytes in *. cbn [map]. injection E as ->.
    split; [unfold vbyte; rewrite Hc; reflexivity|cbn; lia].
Qed.

Lemma drawn_sizes hi shortest longest v : drawn (DrawVec Usize 1 hi shortest longest) v -> hi <= 5000 -> 1 <= shortest ->
  exists sizes, v = vsizes sizes /\ sizes <> [] /\ Forall (fun k => (1 <= k)%nat /\ Z.of_nat k < 2 ^ 62) sizes.
Proof.
  intros D Hh Hs. inversion_clear D as [|t lo hi' s l' l F L]. exists (map Z.to_nat l). split; [|split].
  - f_equal. rewrite map_map. apply map_ext_in. intros z Hz. rewrite Forall_forall in F. specialize (F z Hz). unfold vsize. f_equal. lia.
  - destruct l; [cbn in L; lia|discriminate].
  - rewrite Forall_map. eapply Forall_impl; [|exact F]. cbn. lia.
Qed.

(** ** The nine tests that pass *)

Section Passing.
Variable u : program.
Notation prog := (crate (drivers (with_tests u))).

(** Both calls of [splits_fce] give the same. *)
Lemma same_splits hv c pv data b1 b2 : typed c -> fits prog hv c -> chunk_sound c -> chunk_rule c <> None -> instance_value hv c = Ok pv ->
  Z.of_nat (length data) < 2 ^ 30 ->
  b1 <> [] -> Forall (fun k => (1 <= k)%nat /\ Z.of_nat k < 2 ^ 62) b1 -> b2 <> [] -> Forall (fun k => (1 <= k)%nat /\ Z.of_nat k < 2 ^ 62) b2 ->
  exists ns enough, forall n, (enough <= n)%nat ->
    call prog n "splits_fce" [pv; vbytes data; vsizes b1] = Done ([pv; vbytes data; vsizes b1], vsizes ns) /\
    call prog n "splits_fce" [pv; vbytes data; vsizes b2] = Done ([pv; vbytes data; vsizes b2], vsizes ns).
Proof.
  intros HT HF HS HR Ei HL N1 F1 N2 F2. destruct (chunk_rule c) as [rule|] eqn:ER; [|now elim HR]. rewrite <- (text_instance_all (drivers (with_tests u)) 120 hv c HT) in Ei by lia.
  destruct (C73_splits_fce (with_tests u) hv c pv rule data HT HF HS ER Ei HL) as (cs & _ & H).
  exists (sizes 0 cs), (200 + (length data + 2) * (length data + 2) + length data)%nat. intros n Hn. split; apply H; assumption.
Qed.

End Passing.

(** Drawn arguments in terms of bytes and sizes. *)
Ltac unpack_draws D :=
  repeat match type of D with
  | Forall2 _ (_ :: _) _ => let D1 := fresh "D" in let D2 := fresh "D" in inversion_clear D as [|? ? ? ? D1 D2]; rename D2 into D
  | Forall2 _ [] _ => inversion_clear D
  end;
  repeat match goal with
  | H : drawn (DrawVec U8 _ _ _ _) _ |- _ => let L := fresh "L" in apply drawn_bytes in H as (data & -> & L)
  | H : drawn (DrawVec Usize _ _ _ _) _ |- _ =>
      let b := fresh "b" in let N := fresh "N" in let F := fresh "F" in apply drawn_sizes in H as (b & -> & N & F); [|lia|lia]
  end.
Ltac draws :=
  match goal with
  | |- test_passes _ ?x =>
      let vs := fresh "vs" in let D := fresh "D" in
      intros vs D; let l := eval vm_compute in (strategies_of x) in change (strategies_of x) with l in D; unpack_draws D
  end.

(** The body of a test: the constructor [ctor], two calls as in [H], a comparison. *)
Ltac test_body k H ctor :=
  exists (200 + k)%nat;
  let n := fresh "n" in let Hn := fresh "Hn" in let m := fresh "m" in
  intros n Hn; unfold tested; assert (Hn' : (40 <= n)%nat) by lia; destruct (bump_ge _ _ Hn') as [m ->]; cbn [bump] in Hn;
  enter; ctor;
  match goal with |- context [eval _ (lock ?i)] => rewrite (proj1 (H i ltac:(lia))) end; reduce;
  match goal with |- context [eval _ (lock ?i)] => rewrite (proj2 (H i ltac:(lia))) end; reduce;
  rewrite ?ints_eqb_sizes; unfold sizes_eqb; reduce.


Ltac agreed := match goal with |- context [list_eq_dec ?d ?a ?a] => destruct (list_eq_dec d a a); [|congruence] end; reduce; reflexivity.
Ltac consistent u hv c pv :=
  match goal with
  | b1 : list nat, b2 : list nat, data : list byte |- _ =>
      
      destruct (same_splits u hv c pv data b1 b2) as (ns & k & H);
      [unfold typed, is_u64; cbn [start_bound end_bound bound_u64 fst snd]; unfold is_u64; (lia || exact I)|cbn [fits]; try exact I; try lia; try (vm_compute; reflexivity)|cbn [chunk_sound]; try exact I; try lia|discriminate|first [assumption | reflexivity]|lia|assumption|assumption|assumption|assumption|]
  end.

Lemma gzip_test u : test_passes u "gzip_fce_self_consistent_with_varying_buf_size".
Proof.
  draws. consistent u VUnit (CfgGzip (Z.to_nat 8192) 4096) (enc_Gzip gzip_default).
  test_body k H ltac:(rewrite src_gzip_default by lia; reduce). agreed.
Qed.

Lemma mii_test u : test_passes u "mii_fce_self_consistent_with_varying_buf_size".
Proof.
  draws. consistent u VUnit (CfgMii 5) (enc_Mii mii_default).
  test_body k H ltac:(rewrite src_mii_default by lia; reduce). agreed.
Qed.

Lemma pigz_test u : test_passes u "pigz_fce_self_consistent_with_varying_buf_size".
Proof.
  draws. assert (exists p, pigz_default = Ok p /\ instance_value VUnit (CfgPigz 12) = Ok (enc_Pigz p)) as (p & E & Ei) by (eexists; split; vm_compute; reflexivity). consistent u VUnit (CfgPigz 12) (enc_Pigz p).
  test_body k H ltac:(rewrite src_pigz_default, E by lia; cbn [as_out]; reduce). agreed.
Qed.

Lemma rollsum_test u : test_passes u "bup_fce_self_consistent_with_varying_buf_size".
Proof.
  draws. consistent u VUnit (CfgRollSum WINDOW_SIZE) (enc_RollSum rollsum_default).
  test_body k H ltac:(rewrite src_rollsum_default by lia; reduce). agreed.
Qed.

Lemma gear_test u : test_passes u "gear_fce_self_consistent_with_varying_buf_size".
Proof.
  draws. assert (exists p, gear_default = Ok p /\ instance_value VUnit (CfgGear 13) = Ok (enc_Gear32 p)) as (p & E & Ei) by (eexists; split; vm_compute; reflexivity). consistent u VUnit (CfgGear 13) (enc_Gear32 p).
  test_body k H ltac:(rewrite src_gear_default, E by lia; cbn [as_out]; reduce). agreed.
Qed.

Lemma ram_test u : test_passes u "ram_fce_self_consistent_with_varying_buf_size".
Proof.
  draws. consistent u VUnit (CfgRam 8192) (enc_Ram (ram_with_w 8192)).
  test_body k H ltac:(rewrite src_ram_with_w by lia; reduce). agreed.
Qed.

Lemma zpaq_test u : test_passes u "zpaq_fce_self_consistent_with_varying_buf_size".
Proof.
  draws. assert (exists p, zpaq_with_average_size_pow_2 13 = Ok p /\ instance_value VUnit (CfgZpaq 13 (Included 512, Excluded 66584576)) = Ok (enc_Zpaq p)) as (p & E & Ei)
    by (eexists; split; vm_compute; reflexivity).
  consistent u VUnit (CfgZpaq 13 (Included 512, Excluded 66584576)) (enc_Zpaq p).
  test_body k H ltac:(rewrite src_zpaq_with_average_size_pow_2, E by lia; cbn [as_out]; reduce). agreed.
Qed.

Lemma go_typed salt k mask max : is_u32 mask -> is_u64 max -> typed (CfgBuzHash k mask (table_byte_salt_hash salt GO_BUZHASH) max).
Proof.
  intros Hm Hx. split; [exact Hm|]. split; [exact Hx|]. intros b. destruct (C38_byte_hashes salt 0 ltac:(lia)) as (_ & H & _). destruct (H b) as [E W]. eauto.
Qed.

Lemma go_fits u salt k mask max : (k < 100)%nat ->
  fits (crate (drivers (with_tests u))) (enc_SaltHash salt GO_BUZHASH) (CfgBuzHash k mask (table_byte_salt_hash salt GO_BUZHASH) max).
Proof. intros Hk. split; [lia|apply src_salt_hash]. Qed.

Lemma buzhash_test u : test_passes u "buzhash_fce_self_consistent_with_varying_buf_size".
Proof.
  draws. match goal with H : drawn (DrawInt U8) _ |- _ => inversion_clear H as [t z R|] end.
  destruct (byte_exists z) as [salt Hs]; [cbn in R; lia|]. rewrite <- Hs. change (VInt U8 (b2z salt)) with (vbyte salt). clear z R Hs.
  assert (exists p, buzhash_new_nom salt = Ok p /\ instance_value (enc_SaltHash salt GO_BUZHASH) (CfgBuzHash 67 4095 (table_byte_salt_hash salt GO_BUZHASH) 16777216) =
    Ok (enc_Buz (enc_SaltHash salt GO_BUZHASH) p)) as (p & E & Ei) by (eexists; split; reflexivity).
  destruct (same_splits u (enc_SaltHash salt GO_BUZHASH) (CfgBuzHash 67 4095 (table_byte_salt_hash salt GO_BUZHASH) 16777216) _ data b0 b (go_typed salt 67 4095 16777216 ltac:(unfold is_u32; lia) ltac:(unfold is_u64; lia))
    (go_fits u salt 67 4095 16777216 ltac:(lia)) I ltac:(discriminate) Ei ltac:(lia) N0 F0 N F) as (ns & k & H).
  test_body k H ltac:(change (VInt U8 (b2z salt)) with (vbyte salt); rewrite src_buzhash_new_nom, E by lia; cbn [as_out]; reduce). agreed.
Qed.

Lemma buzhash_short_test u : test_passes u "buzhash_short_fce_self_consistent_with_varying_buf_size".
Proof.
  draws.
  assert (exists p, buzhash_new 7 15 (table_byte_salt_hash x00 GO_BUZHASH) 1024 = Ok p /\
    instance_value (enc_SaltHash x00 GO_BUZHASH) (CfgBuzHash 7 15 (table_byte_salt_hash x00 GO_BUZHASH) 1024) =
    Ok (enc_Buz (enc_SaltHash x00 GO_BUZHASH) p)) as (p & E & Ei) by (eexists; split; reflexivity).
  destruct (same_splits u (enc_SaltHash x00 GO_BUZHASH) (CfgBuzHash 7 15 (table_byte_salt_hash x00 GO_BUZHASH) 1024) _ data b0 b (go_typed x00 7 15 1024 ltac:(unfold is_u32; lia) ltac:(unfold is_u64; lia))
    (go_fits u x00 7 15 1024 ltac:(lia)) I ltac:(discriminate) Ei ltac:(lia) N0 F0 N F) as (ns & k & H).
  test_body k H ltac:(enter; change (VPair (VInt U8 0) (VList (map (VInt U32) GO_BUZHASH))) with (VPair (vbyte x00) (vu32s GO_BUZHASH)); rewrite (src_salt_hash_from _ _ x00 GO_BUZHASH) by lia; reduce;
    change (VInt Usize 7) with (vsize 7); rewrite (src_buzhash_new _ _ _ _ _ (table_byte_salt_hash x00 GO_BUZHASH)), E by lia; cbn [as_out]; reduce). agreed.
Qed.

Theorem C77_properties : forall u x, In x ["gzip_fce_self_consistent_with_varying_buf_size"; "mii_fce_self_consistent_with_varying_buf_size";
    "buzhash_fce_self_consistent_with_varying_buf_size"; "buzhash_short_fce_self_consistent_with_varying_buf_size";
    "zpaq_fce_self_consistent_with_varying_buf_size"; "pigz_fce_self_consistent_with_varying_buf_size";
    "bup_fce_self_consistent_with_varying_buf_size"; "gear_fce_self_consistent_with_varying_buf_size";
    "ram_fce_self_consistent_with_varying_buf_size"]%string -> test_passes u x.
Proof.
  intros u x [<-|[<-|[<-|[<-|[<-|[<-|[<-|[<-|[<-|[]]]]]]]]]];
  [apply gzip_test|apply mii_test|apply buzhash_test|apply buzhash_short_test|apply zpaq_test|apply pigz_test|apply rollsum_test|apply gear_test|apply ram_test].
Qed.
Print Assumptions C77_properties.

(** ** FastCdc: passes, or panics, and which of the two is decided by the data alone *)

Lemma walk_short : forall p h d cs past, walk p h d cs past -> (length cs <= length d)%nat.
Proof. induction 1 as [| |h d n cs past F Hn W IH]; cbn [length]; try lia. rewrite skipn_length in IH. lia. Qed.

Notation fastcdc_name := "fastcdc_fce_self_consistent_with_varying_buf_size"%string.

(** A chunk of maximal size ends where the data ends. *)
Definition full_at_end (data : list byte) : Prop :=
  exists cs h d, cut_path (fc_edge fastcdc_default) [] data cs h d /\ fastcdc_first GEAR_64 2048 8192 65536 h d (length d).

Lemma walk_same : forall p, 0 <= fc_min_size p -> forall h d cs past, walk p h d cs past -> forall cs' past', walk p h d cs' past' -> past' = past.
Proof.
  intros p Hm. assert (L := fc_laws p Hm). induction 1 as [h d N|h d F|h d n cs past F Hn W IH]; intros cs' past' W'; inversion W' as [? ? N'|? ? F'|? ? n' cs2 past2 F' Hn' W2]; subst.
  - reflexivity.
  - now elim (N _ F').
  - now elim (N _ F').
  - now elim (N' _ F).
  - reflexivity.
  - assert (n' = length d) by exact (fl_fun _ L _ _ _ _ F' F). lia.
  - now elim (N' _ F).
  - assert (n = length d) by exact (fl_fun _ L _ _ _ _ F F'). lia.
  - assert (n' = n) as -> by exact (fl_fun _ L _ _ _ _ F' F). exact (IH _ _ W2).
Qed.

Lemma path_walk : forall p h d cs h' d', cut_path (fc_edge p) h d cs h' d' -> fc_first p h' d' (length d') -> walk p h d cs true.
Proof.
  induction 1 as [h d|h d m cs h' d' (n & -> & Hn & F) P IH]; intros G; [now apply walk_past|]. apply walk_cut; auto.
Qed.

Lemma fastcdc_splits u data : Z.of_nat (length data) < 2 ^ 30 -> let pv := enc_FastCdc fastcdc_default in
  exists result,
    ((~ full_at_end data /\ exists cs, cuts_of (fc_edge fastcdc_default) [] data cs /\ result = Done (sizes 0 cs)) \/ (full_at_end data /\ result = Panics)) /\
  exists enough, forall n, (enough <= n)%nat -> forall b, b <> [] -> Forall (fun k => (1 <= k)%nat /\ Z.of_nat k < 2 ^ 62) b ->
    call (tested u) n "splits_fce" [pv; vbytes data; vsizes b] = obind result (fun ns => Done ([pv; vbytes data; vsizes b], vsizes ns)).
Proof.
  intros HL pv. set (c := CfgFastCdc GEAR_64 2048 8192 65536).
  assert (HT : typed c) by (apply typed_gear64; unfold is_u64; lia).
  assert (Hp := fast_ok GEAR_64 2048 8192 65536 HT ltac:(lia)). change (fastcdc_new GEAR_64 2048 8192 65536) with fastcdc_default in Hp.
  assert (Hl : below_2_64 (length data)) by (unfold below_2_64; lia).
  destruct (walk_exists fastcdc_default Hp (S (length data)) [] data ltac:(lia) Hl) as (cs & past & W).
  exists (if past then Panics else Done (sizes 0 cs)). split.
  - destruct past.
    + right. split; [|reflexivity]. destruct (walk_past_path _ _ _ _ W) as (h & d & P & F). exists cs, h, d. split; [exact P|exact F].
    + left. split; [|exists cs; split; [exact (walk_cuts _ _ _ _ W)|reflexivity]].
      intros (cs' & h & d & P & F). assert (X := walk_same fastcdc_default ltac:(cbn; lia) _ _ _ _ (path_walk _ _ _ _ _ _ P F) _ _ W). discriminate.
  - exists (200 + (2 * length data + 2) + length data)%nat. intros n Hn b Nb Fb.
    assert (Ei : text_instance (crate (drivers (with_tests u))) 120 VUnit c = Ok pv) by (rewrite text_instance_all by (auto; lia); reflexivity).
    assert (F1 : Forall (fun k => 1 <= k)%nat b) by (eapply Forall_impl; [|exact Fb]; intros ? []; assumption).
    assert (F2 : Forall (fun k => Z.of_nat k < 2 ^ 62) b) by (eapply Forall_impl; [|exact Fb]; intros ? []; assumption).
    pose proof (C73_splits_fce_model (with_tests u) VUnit c _ pv n (2 * length data + 2) data b HT I eq_refl Ei Hn ltac:(lia) F2 ltac:(lia)) as G. cbv zeta in G.
    assert (Ws := walk_short _ _ _ _ _ W). unfold splits_fce in G. change (fastcdc_new GEAR_64 2048 8192 65536) with fastcdc_default in G.
    rewrite (fce_fast fastcdc_default Hp data Hl b Nb F1 _ _ [] [] _ _ _ _ cs past (DriverFast.start _ Hp data) W) in G by lia.
    destruct past; exact G.
Qed.

Ltac test_start k :=
  exists (200 + k)%nat;
  let n := fresh "n" in let Hn := fresh "Hn" in let m := fresh "m" in
  intros n Hn; unfold tested; assert (Hn' : (40 <= n)%nat) by lia; destruct (bump_ge _ _ Hn') as [m ->]; cbn [bump] in Hn.

Theorem C77_fastcdc_partial : forall u vs, Forall2 drawn (strategies_of fastcdc_name) vs ->
  exists data b1 b2, vs = [vbytes data; vsizes b1; vsizes b2] /\ exists enough, forall n, (enough <= n)%nat ->
    (~ full_at_end data /\ call (tested u) n fastcdc_name vs = Done (vs, VUnit)) \/ (full_at_end data /\ call (tested u) n fastcdc_name vs = Panics).
Proof.
  intros u vs0 D0. revert vs0 D0.
  match goal with |- forall vs, Forall2 drawn ?s vs -> _ => let l := eval vm_compute in s in change s with l end.
  intros vs D. unpack_draws D. exists data, b0, b. split; [reflexivity|].
  destruct (fastcdc_splits u data ltac:(lia)) as (result & R & k & H). specialize (fun n Hn => conj (H n Hn b0 N0 F0) (H n Hn b N F)) as H2. clear H.
  test_start k. destruct R as [[NF (cs & _ & ->)]|[FE ->]]; [left|right]; (split; [assumption|]); cbn [obind] in H2; unfold tested in H2;
  enter; rewrite src_fastcdc_default by lia; reduce;
  match goal with |- context [eval _ (lock ?i)] => rewrite (proj1 (H2 i ltac:(lia))) end; reduce; try reflexivity;
  match goal with |- context [eval _ (lock ?i)] => rewrite (proj2 (H2 i ltac:(lia))) end; reduce;
  rewrite ?ints_eqb_sizes; unfold sizes_eqb; reduce. agreed.
Qed.
Print Assumptions C77_fastcdc_partial.

Lemma sizes_drawn hi shortest longest l : Forall (fun k => 1 <= Z.of_nat k < hi) l -> shortest <= Z.of_nat (length l) < longest ->
  drawn (DrawVec Usize 1 hi shortest longest) (vsizes l).
Proof.
  intros F L. replace (vsizes l) with (VList (map (VInt Usize) (map Z.of_nat l))) by (rewrite map_map; reflexivity).
  apply drawn_vec; [rewrite Forall_map; exact F|rewrite map_length; exact L].
Qed.
Lemma bytes_drawn shortest longest l : shortest <= Z.of_nat (length l) < longest -> drawn (DrawVec U8 0 256 shortest longest) (vbytes l).
Proof.
  intros L. replace (vbytes l) with (VList (map (VInt U8) (map b2z l))) by (rewrite map_map; reflexivity).
  apply drawn_vec; [rewrite Forall_map; apply Forall_forall; intros b _; pose proof (b2z_range b); lia|rewrite map_length; exact L].
Qed.
Lemma vbytes_inj a : forall b, vbytes a = vbytes b -> a = b.
Proof.
  unfold vbytes. induction a as [|x a IH]; intros [|y b] E; try discriminate; [reflexivity|]. cbn [map] in E. injection E as E1 E2.
  f_equal; [now apply b2z_inj|]. apply IH. now rewrite E2.
Qed.
Ltac drawn_args := repeat first [apply Forall2_nil | apply Forall2_cons; [first [apply bytes_drawn | apply sizes_drawn; [repeat constructor; lia|]]|]].

(** The test does panic: on 64 KiB of zeros, whatever the buffer sizes. *)
Theorem C77_fastcdc_refuted : forall u b1 b2, Forall (fun k => 1 <= Z.of_nat k < 5000) b1 -> Forall (fun k => 1 <= Z.of_nat k < 5000) b2 ->
  1 <= Z.of_nat (length b1) < 10000 -> 1 <= Z.of_nat (length b2) < 10000 ->
  test_fails_on u fastcdc_name [vbytes (repeat x00 (Z.to_nat 65536)); vsizes b1; vsizes b2].
Proof.
  intros u b1 b2 F1 F2 L1 L2. assert (L : length (repeat x00 (Z.to_nat 65536)) = Z.to_nat 65536) by apply repeat_length.
  assert (Z0 := zero_max []). revert L Z0. generalize (repeat x00 (Z.to_nat 65536)). intros data L Z0.
  assert (D : Forall2 drawn (strategies_of fastcdc_name) [vbytes data; vsizes b1; vsizes b2]).
  { match goal with |- Forall2 drawn ?s _ => let l := eval vm_compute in s in change s with l end.
    repeat apply Forall2_cons; [apply bytes_drawn|apply sizes_drawn; assumption|apply sizes_drawn; assumption|apply Forall2_nil]. lia. }
  split; [exact D|]. destruct (C77_fastcdc_partial u _ D) as (d & c1 & c2 & E & k & H). exists k. intros n Hn. destruct (H n Hn) as [[N _]|[_ G]]; [|exact G].
  exfalso. apply N. injection E as E _ _. assert (d = data) as -> by (symmetry; apply vbytes_inj; unfold vbytes; now rewrite E).
  exists [], [], data. split; [constructor|]. rewrite L. exact Z0.
Qed.
Print Assumptions C77_fastcdc_refuted.

(** Data shorter than that: the test passes. *)
Theorem C77_fastcdc_short_partial : forall data, full_at_end data -> 65536 <= Z.of_nat (length data).
Proof.
  intros data (cs & h & d & P & (_ & _ & S & _)). assert (H : (length d <= length data)%nat).
  { clear S. remember (@nil byte) as h0. clear Heqh0. induction P as [|h0 d0 n cs h d _ P IH]; [lia|]. rewrite skipn_length in IH. lia. }
  destruct S as [S|[S _]]; [cbn in S; lia|lia].
Qed.
Print Assumptions C77_fastcdc_short_partial.

(** ** Zstd *)

Notation zstd_name := "zstd_fce_self_consistent_with_varying_buf_size"%string.

Lemma zstd_chunk_23 : chunk_of (CfgZstd 8388608) = Ok (zstd_chunk (zstd_params 23)).
Proof.
  assert (E : zstd_with_target_section_size 8388608 = Ok (zstd_params 23)) by (vm_compute; reflexivity).
  cbn [chunk_of]. rewrite E. reflexivity.
Qed.

Lemma zstd_splits u : exists p, zstd_default = Ok p /\ forall data b, Z.of_nat (length data) < 2 ^ 30 -> b <> [] -> Forall (fun k => (1 <= k)%nat /\ Z.of_nat k < 2 ^ 62) b ->
  exists cs, match cs with q :: _ => ends_at (per_stream (zstd_rule 23)) [] data q | [] => forall n, ~ ends_at (per_stream (zstd_rule 23)) [] data n end /\
  exists enough, forall n, (enough <= n)%nat ->
    call (tested u) n "splits_fce" [enc_Zstd p; vbytes data; vsizes b] = Done ([enc_Zstd p; vbytes data; vsizes b], vsizes (sizes 0 cs)).
Proof.
  exists (zstd_params 23). split; [vm_compute; reflexivity|]. intros data b HL Nb Fb.
  assert (F1 : Forall (fun k => 1 <= k)%nat b) by (eapply Forall_impl; [|exact Fb]; intros ? []; assumption).
  assert (F2 : Forall (fun k => Z.of_nat k < 2 ^ 62) b) by (eapply Forall_impl; [|exact Fb]; intros ? []; assumption).
  set (c := CfgZstd 8388608). assert (HT : typed c) by (cbn; unfold is_u64; lia).
  assert (Ei : text_instance (crate (drivers (with_tests u))) 120 VUnit c = Ok (enc_Zstd (zstd_params 23))) by (rewrite text_instance_all by (auto; lia); vm_compute; reflexivity).
  set (fuel := (length data * 34 + 34)%nat).
  destruct (fce_zstd_fresh 23 ltac:(lia) data b Nb F1 fuel 0 zstd_search_default 0 0) as (cs & E & _ & _ & M).
  - subst fuel. lia.
  - lia.
  - lia.
  - apply zstd_default_rel.
  - intros n (X & _). simpl in X. lia.
  - exists cs. split; [exact M|]. exists (200 + fuel + length data)%nat. intros n Hn.
    pose proof (C73_splits_fce_model (with_tests u) VUnit c (zstd_chunk (zstd_params 23)) (enc_Zstd (zstd_params 23)) n fuel data b HT I zstd_chunk_23 Ei Hn ltac:(lia) F2 ltac:(lia)) as G.
    cbv zeta in G. unfold splits_fce in G. cbn [Nat.sub] in E. change (to_search_state (zstd_chunk (zstd_params 23))) with zstd_search_default in G. rewrite E in G. exact G.
Qed.

(** The test ends, with or without a panic; it passes on data without a single split. *)
Theorem C77_zstd_partial : forall u vs, Forall2 drawn (strategies_of zstd_name) vs ->
  exists data b1 b2, vs = [vbytes data; vsizes b1; vsizes b2] /\ exists enough, forall n, (enough <= n)%nat ->
    (call (tested u) n zstd_name vs = Done (vs, VUnit) \/ call (tested u) n zstd_name vs = Panics) /\
    ((forall k, ~ ends_at (per_stream (zstd_rule 23)) [] data k) -> call (tested u) n zstd_name vs = Done (vs, VUnit)).
Proof.
  intros u vs0 D0. revert vs0 D0.
  match goal with |- forall vs, Forall2 drawn ?s vs -> _ => let l := eval vm_compute in s in change s with l end.
  intros vs D. unpack_draws D. exists data, b0, b. split; [reflexivity|].
  destruct (zstd_splits u) as (p & E & Z). destruct (Z data b0 ltac:(lia) N0 F0) as (cs1 & M1 & k1 & H1). destruct (Z data b ltac:(lia) N F) as (cs2 & M2 & k2 & H2).
  unfold tested in H1, H2. test_start (k1 + k2)%nat.
  assert (X : forall r, (if list_eq_dec Nat.eq_dec (sizes 0 cs1) (sizes 0 cs2) then r = Done ([vbytes data; vsizes b0; vsizes b], VUnit) else r = Panics) ->
    (r = Done ([vbytes data; vsizes b0; vsizes b], VUnit) \/ r = Panics) /\
    ((forall k, ~ ends_at (per_stream (zstd_rule 23)) [] data k) -> r = Done ([vbytes data; vsizes b0; vsizes b], VUnit))).
  { intros r Hr. destruct (list_eq_dec _ _ _) as [_|Ne]; [auto|]. split; [auto|]. intros No. elim Ne.
    destruct cs1 as [|q ?]; [|now elim (No q)]. destruct cs2 as [|q ?]; [|now elim (No q)]. reflexivity. }
  apply X. clear X.
  enter; rewrite src_zstd_default, E by lia; cbn [as_out]; reduce.
  match goal with |- context [eval _ (lock ?i)] => rewrite (H1 i ltac:(lia)) end; reduce.
  match goal with |- context [eval _ (lock ?i)] => rewrite (H2 i ltac:(lia)) end; reduce.
  rewrite ?ints_eqb_sizes; unfold sizes_eqb; reduce. destruct (list_eq_dec _ _ _); reduce; reflexivity.
Qed.
Print Assumptions C77_zstd_partial.

(** It does panic. *)
Definition zstd_split_data : list byte :=
  [x00; x06; x8d; x05; x3c; x9d; x5c; x34; x60; xbe; x31; x20; x1e; x69; xfe; xda; xa0; xee; xe8; xb9; x99; x7f; x5c; x7c; x29; x99; xfd; xaf; xe5; x93; x25; x3c; xd6; xa7; xb7; x18].

Theorem C77_zstd_refuted : forall u, test_fails_on u zstd_name [vbytes zstd_split_data; vsizes [33%nat]; vsizes [36%nat]].
Proof.
  intros u. split.
  { match goal with |- Forall2 drawn ?s _ => let l := eval vm_compute in s in change s with l end. drawn_args; cbn [length zstd_split_data]; lia. }
  set (c := CfgZstd 8388608). assert (HT : typed c) by (cbn; unfold is_u64; lia). set (p := zstd_params 23).
  assert (Ei : text_instance (crate (drivers (with_tests u))) 120 VUnit c = Ok (enc_Zstd p)) by (rewrite text_instance_all by (auto; lia); vm_compute; reflexivity).
  assert (EC : chunk_of c = Ok (zstd_chunk p)) by exact zstd_chunk_23.
  assert (E : zstd_default = Ok p) by (vm_compute; reflexivity).
  assert (L : (length zstd_split_data = 36)%nat) by reflexivity.
  assert (B : forall k, (k < 100)%nat -> Forall (fun k => Z.of_nat k < 2 ^ 62) [k]) by (intros; constructor; [lia|constructor]).
  pose proof (fun n Hn => C73_splits_fce_model (with_tests u) VUnit c _ _ n 100 zstd_split_data [33%nat] HT I EC Ei Hn ltac:(lia) (B 33%nat ltac:(lia)) ltac:(lia)) as H1.
  pose proof (fun n Hn => C73_splits_fce_model (with_tests u) VUnit c _ _ n 100 zstd_split_data [36%nat] HT I EC Ei Hn ltac:(lia) (B 36%nat ltac:(lia)) ltac:(lia)) as H2.
  cbv zeta in H1, H2. assert (S1 : splits_fce (zstd_chunk p) 100 zstd_split_data [33%nat] = Ok [33; 3]%nat) by (vm_compute; reflexivity).
  assert (S2 : splits_fce (zstd_chunk p) 100 zstd_split_data [36%nat] = Ok [33]%nat) by (vm_compute; reflexivity).
  rewrite S1 in H1. rewrite S2 in H2. rewrite L in H1, H2. clear S1 S2 Ei EC B HT. revert H1 H2. generalize zstd_split_data. intros data H1 H2. test_start 200%nat.
  enter; rewrite src_zstd_default, E by lia; cbn [as_out]; reduce.
  match goal with |- context [eval _ (lock ?i)] => rewrite (H1 i ltac:(lia)) end; reduce.
  match goal with |- context [eval _ (lock ?i)] => rewrite (H2 i ltac:(lia)) end; reduce.
  reflexivity.
Qed.
Print Assumptions C77_zstd_refuted.

(** ** The unit tests without a random source *)
Theorem C77_unit_tests : forall u n, (200 <= n)%nat ->
  call (tested u) n "mm" [] = Done ([], VUnit) /\ call (tested u) n "test_zstd_init_matches_upstream" [] = Done ([], VUnit) /\ call (tested u) n "rs" [] = Done ([], VUnit).
Proof.
  intros u n Hn.
  assert (H : forall x, In x ["mm"; "test_zstd_init_matches_upstream"; "rs"]%string -> call (tested u) 200 x [] = Done ([], VUnit)).
  { intros x [<-|[<-|[<-|[]]]]; vm_compute; reflexivity. }
  assert (G : forall x, call (tested u) 200 x [] = Done ([], VUnit) -> call (tested u) n x [] = Done ([], VUnit)).
  { intros x E. rewrite (C72_more_fuel _ 200 n) by (assumption || (rewrite E; discriminate)). exact E. }
  split; [|split]; apply G, H; cbn; auto.
Qed.
Print Assumptions C77_unit_tests.

(** A run of a test, and what it compares. *)
Example C77_case : let none : program := fun _ => None in let data := [x01; x02; x03; x04; x06; x05; x07; x09; x0b; x0c; x0d; x01] in
  Forall2 drawn (strategies_of "mii_fce_self_consistent_with_varying_buf_size") [vbytes data; vsizes [3; 1]%nat; vsizes [12%nat]] /\
  call (tested none) 60 "mii_fce_self_consistent_with_varying_buf_size" [vbytes data; vsizes [3; 1]%nat; vsizes [12%nat]] =
    Done ([vbytes data; vsizes [3; 1]%nat; vsizes [12%nat]], VUnit) /\
  call (tested none) 60 "splits_fce" [enc_Mii mii_default; vbytes data; vsizes [3; 1]%nat] =
    Done ([enc_Mii mii_default; vbytes data; vsizes [3; 1]%nat], vsizes [11]%nat).
Proof.
  cbv zeta. split.
  - match goal with |- Forall2 drawn ?s _ => let l := eval vm_compute in s in change s with l end. drawn_args; cbn [length]; lia.
  - split; vm_compute; reflexivity.
Qed.
