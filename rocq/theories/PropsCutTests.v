(** * PropsCutTests: C79, the tests of tests/cuts.rs that list cuts, from their text. *)

From Coq Require Import String ZifyBool ZifyNat.
From Verif Require Import Base Api Spec Tables Lists CutFacts Mii Ram Gear Pigz Gzip FastCdc Bup BuzHash Range Zpaq Zstd Builtin BuiltinProofs Drivers DriverProofs Contract Pcg.
From Verif Require Import Rust RustLex RustParse RustElab RustSource RustFiles RustTests RustText DriverText RustSim RustLib.
From Verif Require Import RustMii RustRam RustGear RustPigz RustGzip RustFastCdc RustBup RustBuzHash RustRange RustZpaq RustZstd RustConfig DriverSim PropsCallers PropsDrivers PropsAgree PropsBuilds PropsBuz Cases PropsDriverAny.
Open Scope list_scope.
Open Scope Z_scope.

(** ** Their text *)

Definition cut_text := Eval vm_compute in match cut_test_functions with Some l => accepted l | None => [] end.

(** Nothing in the file is left out. *)
Theorem C79_text :
  cut_test_functions = Some (map (fun p => (fst p, Fine (snd p))) cut_text) /\
  exists ts, tokens tests_cuts_rs = Some ts /\
    forall x, In x (fn_names ts) <-> In x cut_tests \/ In x ["cut_test_incr"; "cut_test_sz"; "cut_test"]%string.
Proof.
  split; [vm_compute; reflexivity|].
  destruct (tokens tests_cuts_rs) as [ts|] eqn:E; [|vm_compute in E; discriminate]. exists ts. split; [reflexivity|].
  assert (F : option_map fn_names (Some ts) = Some ["test_data"; "cut_test_incr"; "cut_test_sz"; "cut_test"; "mii_cuts_1"; "bup_cuts_1"; "gzip_cuts_1"; "gzip_cuts_2";
    "buzhash_cuts_1"; "zpaq_cuts_0"; "zpaq_cuts_3"; "pigz_cuts_0"; "zstd_cuts_0_2mb"; "gear32_cuts_0"; "fastcdc_cuts_incr_0"; "fastcdc_cuts_0"; "ram_cuts_0"]%string)
    by (rewrite <- E; vm_compute; reflexivity).
  cbn [option_map] in F. injection F as ->. intros x. unfold cut_tests. cbn [In]. tauto.
Qed.
Print Assumptions C79_text.

(** ** The generator: any function of the two numbers it starts from and the number of bytes to fill *)

Definition vgen (state stream : Z) : value := VStruct "Pcg64" [("state"%string, VInt U128 state); ("stream"%string, VInt U128 stream)].
Definition pcg64 (bytes : Z -> Z -> nat -> list byte) (user : program) : program := fun f =>
  if String.eqb f "Pcg64::new" then
    Some (Given [("state"%string, false); ("stream"%string, false)] (fun vs => match vs with [VInt U128 a; VInt U128 b] => Done (vs, vgen a b) | _ => Stuck end))
  else if String.eqb f "Pcg64::fill_bytes" then
    Some (Given [("self"%string, true); ("dest"%string, true)] (fun vs =>
      match vs with
      | [VStruct _ [(_, VInt U128 a); (_, VInt U128 b)]; VList l] => Done ([VStruct "Pcg64" []; vbytes (bytes a b (length l))], VUnit)   (* usable once *)
      | _ => Stuck
      end))
  else user f.
Definition with_cuts (user : program) : program := fun f =>
  match find_fn cut_text f with
  | Some g => Some (Rust.Source g)
  | None => user f
  end.
(** The crate, the functions of tests/cuts.rs and the generator. *)
Definition cut_tested (bytes : Z -> Z -> nat -> list byte) (user : program) : program := crate (drivers (with_cuts (pcg64 bytes user))).

Ltac look_cuts :=
  look_driver;
  repeat match goal with
  | |- context [with_cuts ?u ?f] =>
      is_string f;
      let r := eval vm_compute in (find_fn cut_text f) in
      match r with
      | Some ?g => change (with_cuts u f) with (Some (Rust.Source g))
      | None => change (with_cuts u f) with (u f)
      end
  end.
Ltac reduce_hook ::= look_cuts.

Definition STREAM : Z := 0xa02bdbf7bb3c0a7ac28fa16a64abf96.

Section Tests.
Variable bytes : Z -> Z -> nat -> list byte.
Hypothesis bytes_length : forall a b n, length (bytes a b n) = n.
Variable user : program.
Notation u := (with_cuts (pcg64 bytes user)).
Notation prog := (crate (drivers u)).

Lemma pcg_new : pcg64 bytes user "Pcg64::new" =
  Some (Given [("state"%string, false); ("stream"%string, false)] (fun vs => match vs with [VInt U128 a; VInt U128 b] => Done (vs, vgen a b) | _ => Stuck end)).
Proof. reflexivity. Qed.
Lemma pcg_fill_bytes : pcg64 bytes user "Pcg64::fill_bytes" = Some (Given [("self"%string, true); ("dest"%string, true)] (fun vs =>
      match vs with
      | [VStruct _ [(_, VInt U128 a); (_, VInt U128 b)]; VList l] => Done ([VStruct "Pcg64" []; vbytes (bytes a b (length l))], VUnit)
      | _ => Stuck
      end)).
Proof. reflexivity. Qed.
Lemma src_pcg_new k a b : call prog k "Pcg64::new" [VInt U128 a; VInt U128 b] = Done ([VInt U128 a; VInt U128 b], vgen a b).
Proof. enter. rewrite pcg_new. reflexivity. Qed.
Lemma src_pcg_fill k a b l : call prog k "Pcg64::fill_bytes" [vgen a b; VList l] = Done ([VStruct "Pcg64" []; vbytes (bytes a b (length l))], VUnit).
Proof. enter. rewrite pcg_fill_bytes. reflexivity. Qed.

(** [test_data] *)
Lemma src_test_data seed size : gives_data u (VInt U128 seed) (VInt Usize size) (bytes seed STREAM (Z.to_nat size)).
Proof.
  split; [reflexivity|]. intros n Hn. assert (Hn' : (40 <= n)%nat) by lia. destruct (bump_ge _ _ Hn') as [m ->]. cbn [bump] in Hn.
  enter. rewrite pcg_new. reduce. rewrite src_pcg_new. reduce. cbn [type_of vgen append]. look. look_cuts. rewrite pcg_fill_bytes. reduce.
  rewrite src_pcg_fill. reduce.
  rewrite repeat_length. reflexivity.
Qed.

(** ** What the tests compare *)

(** Where a caller ends a chunk who pushes byte by byte and cuts after the byte that was answered (for FastCdc that is one byte later
    than [push] says, see C55). *)
Definition seen (c : config) : first_rel :=
  match c with CfgFastCdc g min normal max => byte_chunk g min normal max | _ => incr_first c end.
(** The chunk sizes on [data], by [push] and, where its callers have a rule, by [find_chunk_edge], are as listed. *)
Definition lists (c : config) (data : list byte) (numbers : list Z) : Prop :=
  exists cs, cuts_of (seen c) [] data cs /\
    match chunk_rule c with Some rule => cuts_of (ends_at (per_chunk rule)) [] data cs | None => True end /\
    map Z.of_nat (sizes 0 cs) = numbers.

Notation vusizes l := (VList (map (VInt Usize) l)).
Lemma vusizes_nat l : Forall (fun z => 0 <= z) l -> vusizes l = vsizes (map Z.to_nat l).
Proof. intros F. f_equal. rewrite map_map. apply map_ext_in. intros z Hz. rewrite Forall_forall in F. specialize (F z Hz). unfold vsize. f_equal. lia. Qed.
Lemma sizes_listed l cs : Forall (fun z => 0 <= z) l -> (map Z.of_nat cs = l <-> map Z.to_nat l = cs).
Proof.
  intros F. split; [intros <-|intros <-]; rewrite map_map.
  - rewrite <- (map_id cs) at 2. apply map_ext. intros k. lia.
  - rewrite <- (map_id l) at 2. apply map_ext_in. intros z Hz. rewrite Forall_forall in F. specialize (F z Hz). lia.
Qed.

(** A test that passes under [P] and panics otherwise. *)
Definition decided (f : string) (args : list value) (P : Prop) : Prop :=
  exists enough, forall n, (enough <= n)%nat -> (P -> call prog n f args = Done (args, VUnit)) /\ (~ P -> call prog n f args = Panics).

Lemma decided_if f args (P : Prop) (b : bool) enough : (P <-> b = true) ->
  (forall n, (enough <= n)%nat -> call prog n f args = if b then Done (args, VUnit) else Panics) -> decided f args P.
Proof.
  intros I H. exists enough. intros n Hn. rewrite (H n Hn). destruct b; split; intros p; try reflexivity; [elim p; now apply I|apply I in p; discriminate].
Qed.

Lemma cuts_unique (first : first_rel) : (forall h d n m, first h d n -> first h d m -> n = m) ->
  forall h d cs, cuts_of first h d cs -> forall cs', cuts_of first h d cs' -> cs = cs'.
Proof.
  intros F. induction 1 as [h d N|h d n cs Fn H IH]; intros cs' H'; inversion H' as [? ? N'|? ? n' cs2 Fn' H2]; subst; try reflexivity.
  - now elim (N n').
  - now elim (N' n).
  - assert (n' = n) as -> by exact (F _ _ _ _ Fn' Fn). f_equal. now apply IH.
Qed.
Lemma byte_chunk_fun g min normal max : 0 <= min < max -> forall h d n m, byte_chunk g min normal max h d n -> byte_chunk g min normal max h d m -> n = m.
Proof.
  intros Hmm h d n m (_ & _ & [[? ?]|(A1 & A2 & A3 & A4)]) (_ & _ & [[? ?]|(B1 & B2 & B3 & B4)]); try lia.
  destruct (Nat.lt_trichotomy n m) as [L|[E|L]]; [|exact E|]; exfalso.
  - destruct A4 as [A4|A4]; [|lia]. apply (B3 (n - 1)%nat); [lia|exact A4].
  - destruct B4 as [B4|B4]; [|lia]. apply (A3 (m - 1)%nat); [lia|exact B4].
Qed.

Lemma rule_test hv c pv rule seed numbers : typed c -> fits prog hv c -> incr_sound c -> chunk_rule c = Some rule -> instance_value hv c = Ok pv ->
  Forall (fun z => 0 <= z) numbers ->
  decided "cut_test" [VInt U128 seed; pv; vusizes numbers] (lists c (bytes seed STREAM (Z.to_nat 32768)) numbers).
Proof.
  intros HT HF HS ER Ei FN. set (data := bytes seed STREAM (Z.to_nat 32768)). assert (HL : Z.of_nat (length data) < 2 ^ 62) by (subst data; rewrite bytes_length; lia).
  rewrite <- (text_instance_all (drivers u) 120 hv c HT) in Ei by lia.
  destruct (instance_chunk u hv c pv HT HF Ei) as (CC & _ & _ & EC & _ & _). destruct (instance_incr u hv c pv HT HF Ei) as (CI & _ & _ & _ & EI & _).
  destruct (C55_cut_test_partial c CI CC rule data HT HS EI EC ER ltac:(unfold stream_len; lia)) as (cs1 & cs2 & H1 & H2 & Hb & Hw & _).
  rewrite (vusizes_nat _ FN).
  apply (decided_if _ _ _ (sizes_eqb (sizes 0 cs2) (sizes 0 cs1) && sizes_eqb (map Z.to_nat numbers) (sizes 0 cs2)) (211 + 2 * length data)).
  - rewrite andb_true_iff, !sizes_eqb_spec. unfold lists. rewrite ER. replace (seen c) with (incr_first c) by (destruct c; (reflexivity || discriminate ER)). split.
    + intros (cs & G1 & G2 & E). apply (sizes_listed _ _ FN) in E.
      rewrite (cuts_of_fun _ (incr_first_laws c HT) _ _ _ H1 _ G1), (cuts_of_fun _ (ends_at_laws _) _ _ _ H2 _ G2). auto.
    + intros [E1 E2]. exists cs1. split; [exact H1|]. split; [|apply (sizes_listed _ _ FN); congruence].
      assert (cs1 = cs2) as ->; [|exact H2].
      destruct (cuts_of_increasing _ (incr_first_laws c HT) (incr_first_progressive c HS) _ _ _ H1) as [I1 _].
      destruct (cuts_of_increasing _ (ends_at_laws _) (ends_at_progressive _) _ _ _ H2) as [I2 _]. exact (sizes_inj cs1 cs2 0 I1 I2 (eq_sym E1)).
  - intros n Hn. pose proof (cut_test_model u hv c CI CC pv n (S (length data)) data (VInt U128 seed) (map Z.to_nat numbers) HT HF EI EC Ei (src_test_data seed 32768) ltac:(lia) HL) as G.
    cbv zeta in G. rewrite (Hw _ (le_n _)), Hb in G. exact G.
Qed.

(** No chunk of FastCdc reaches its maximal size on 32 KiB. *)
Lemma fastcdc_test seed numbers : Forall (fun z => 0 <= z) numbers -> let c := CfgFastCdc GEAR_64 2048 8192 65536 in
  decided "cut_test" [VInt U128 seed; enc_FastCdc fastcdc_default; vusizes numbers] (lists c (bytes seed STREAM (Z.to_nat 32768)) numbers) /\
  decided "cut_test_incr" [VInt U128 seed; VInt Usize 32768; enc_FcIncr fastcdc_default fastcdc_state_default; vusizes numbers] (lists c (bytes seed STREAM (Z.to_nat 32768)) numbers).
Proof.
  intros FN c. set (data := bytes seed STREAM (Z.to_nat 32768)). assert (HL : Z.of_nat (length data) = 32768) by (subst data; rewrite bytes_length; lia).
  assert (HT : typed c) by (apply typed_gear64; unfold is_u64; lia). assert (Hl : stream_len (length data)) by (unfold stream_len; lia).
  assert (Ei : text_instance prog 120 VUnit c = Ok (enc_FastCdc fastcdc_default)) by (rewrite text_instance_all by (auto; lia); reflexivity).
  destruct (C55_cut_test_fastcdc_iff_partial GEAR_64 2048 8192 65536 data HT Hl) as (cs & _ & Hc & Hb & _).
  change (fastcdc_new GEAR_64 2048 8192 65536) with fastcdc_default in Hb.
  destruct (proj2 (C55_cut_test_fastcdc_partial GEAR_64 2048 8192 65536 data HT ltac:(lia) Hl) ltac:(lia)) as (ns & enough & Hb' & Hw).
  change (fastcdc_new GEAR_64 2048 8192 65536) with fastcdc_default in Hb', Hw. assert (ns = sizes 0 cs) as -> by congruence. clear Hb'.
  assert (L : lists c data numbers <-> sizes_eqb (map Z.to_nat numbers) (sizes 0 cs) = true).
  { rewrite sizes_eqb_spec. unfold lists. cbn [chunk_rule c]. split.
    - intros (cs' & G & _ & E). apply (sizes_listed _ _ FN) in E. rewrite (cuts_unique _ (byte_chunk_fun GEAR_64 2048 8192 65536 ltac:(lia)) _ _ _ Hc _ G). exact E.
    - intros E. exists cs. split; [exact Hc|]. split; [exact I|]. now apply (sizes_listed _ _ FN). }
  rewrite (vusizes_nat _ FN). split.
  - apply (decided_if _ _ _ _ (210 + enough + length data) L). intros n Hn.
    pose proof (cut_test_model u VUnit c _ _ _ n enough data (VInt U128 seed) (map Z.to_nat numbers) HT I eq_refl eq_refl Ei (src_test_data seed 32768) ltac:(lia) ltac:(lia)) as G.
    cbv zeta in G. change (fastcdc_new GEAR_64 2048 8192 65536) with fastcdc_default in G. rewrite (Hw _ (le_n _)), Hb in G. rewrite (proj2 (sizes_eqb_spec _ _) eq_refl) in G. exact G.
  - apply (decided_if _ _ _ _ 200 L). intros n Hn.
    assert (Em : method prog 120 (enc_FastCdc fastcdc_default) "to_chunk_incr" [] = Done ([enc_FastCdc fastcdc_default], enc_FcIncr fastcdc_default fastcdc_state_default))
      by exact (src_fastcdc_to_chunk_incr (drivers u) 120 fastcdc_default ltac:(lia)).
    pose proof (cut_test_incr_model u VUnit c _ _ _ n data (VInt U128 seed) (VInt Usize 32768) (map Z.to_nat numbers) HT I eq_refl Ei Em (src_test_data seed 32768) Hn ltac:(lia)) as G.
    cbv zeta in G. change (fastcdc_new GEAR_64 2048 8192 65536) with fastcdc_default in G. rewrite Hb in G. exact G.
Qed.

(** The callers of [find_chunk_edge] of Zstd see one cut at most; one is listed. *)
Lemma zstd_test seed size number : 0 <= size < 2 ^ 62 -> 0 <= number -> exists p, zstd_default = Ok p /\
  decided "cut_test_sz" [VInt U128 seed; VInt Usize size; enc_Zstd p; vusizes [number]] (lists (CfgZstd 8388608) (bytes seed STREAM (Z.to_nat size)) [number]).
Proof.
  intros Hsz Hnum. set (c := CfgZstd 8388608). set (data := bytes seed STREAM (Z.to_nat size)). assert (HL : Z.of_nat (length data) = size) by (subst data; rewrite bytes_length; lia).
  assert (exists p, zstd_default = Ok p) as [p Ep] by (eexists; vm_compute; reflexivity). exists p. split; [exact Ep|].
  assert (E8 : zstd_with_target_section_size 8388608 = Ok p) by exact Ep.
  assert (HT : typed c) by (cbn; unfold is_u64; lia).
  assert (Ei : text_instance prog 120 VUnit c = Ok (enc_Zstd p)) by (rewrite text_instance_all by (auto; lia); cbn [instance_value c]; now rewrite E8).
  assert (EI : incr_of c = Ok (zstd_incr p)) by (cbn [incr_of c]; now rewrite E8). assert (EC : chunk_of c = Ok (zstd_chunk p)) by (cbn [chunk_of c]; now rewrite E8).
  destruct (C55_cut_test_zstd_partial 8388608 p data ltac:(lia) E8 ltac:(unfold stream_len; lia)) as (cs & Hc & Hb & Hw).
  assert (FN : Forall (fun z => 0 <= z) [number]) by (constructor; [exact Hnum|constructor]). rewrite (vusizes_nat _ FN).
  apply (decided_if _ _ _ (sizes_eqb (firstn 1 (sizes 0 cs)) (sizes 0 cs) && sizes_eqb (map Z.to_nat [number]) (firstn 1 (sizes 0 cs))) (203 + length data)).
  - rewrite andb_true_iff, !sizes_eqb_spec. unfold lists. cbn [chunk_rule c]. split.
    + intros (cs' & G & _ & E). apply (sizes_listed _ _ FN) in E. rewrite (cuts_of_fun _ (incr_first_laws c HT) _ _ _ Hc _ G). rewrite <- E. split; reflexivity.
    + intros [E1 E2]. exists cs. split; [exact Hc|]. split; [exact I|]. apply (sizes_listed _ _ FN). congruence.
  - intros n Hn. pose proof (cut_test_sz_model u VUnit c _ _ _ n 2 data (VInt U128 seed) (VInt Usize size) (map Z.to_nat [number]) HT I EI EC Ei (src_test_data seed size) ltac:(lia) ltac:(lia)) as G.
    cbv zeta in G. rewrite (Hw 2%nat (le_n _)), Hb in G. exact G.
Qed.

(** The bodies: a constructor and a call. *)
Lemma test_of x f args P : decided f args P ->
  (forall n, (300 <= n)%nat -> exists k, (n <= k + 40)%nat /\
    (call prog k f args = Done (args, VUnit) -> call prog n x [] = Done ([], VUnit)) /\ (call prog k f args = Panics -> call prog n x [] = Panics)) ->
  decided x [] P.
Proof.
  intros [e1 H] B. exists (e1 + 340)%nat. intros n Hn. destruct (B n ltac:(lia)) as (k & Hk & BY & BN). destruct (H k ltac:(lia)) as [Y N].
  split; intros p; [exact (BY (Y p))|exact (BN (N p))].
Qed.

Ltac body ctor :=
  let n := fresh "n" in let Hn := fresh "Hn" in let m := fresh "m" in let X := fresh "X" in let HX := fresh "HX" in
  intros n Hn; match goal with |- context [call ?p n ?x []] => remember (call p n x []) as X eqn:HX end; revert HX;
  assert (Hn' : (40 <= n)%nat) by lia; destruct (bump_ge _ _ Hn') as [m ->]; cbn [bump] in *;
  enter; ctor;
  match goal with |- context [eval _ (lock ?i)] => intros HX; exists i; revert HX end;
  intros HX; split; [lia|]; let E0 := fresh "E" in split; intros E0; revert HX; cbn [map] in E0; rewrite E0; reduce; exact (fun h => h).
Lemma go_typed salt k mask max : is_u32 mask -> is_u64 max -> typed (CfgBuzHash k mask (table_byte_salt_hash salt GO_BUZHASH) max).
Proof.
  intros Hm Hx. split; [exact Hm|]. split; [exact Hx|]. intros b. destruct (C38_byte_hashes salt 0 ltac:(lia)) as (_ & H & _). destruct (H b) as [E W]. eauto.
Qed.
Lemma go_fits salt k mask max : (k < 100)%nat -> fits prog (enc_SaltHash salt GO_BUZHASH) (CfgBuzHash k mask (table_byte_salt_hash salt GO_BUZHASH) max).
Proof. intros Hk. split; [lia|apply src_salt_hash]. Qed.
Ltac nonneg := repeat constructor; lia.

Lemma mii_cuts_1 : decided "mii_cuts_1" [] (lists (CfgMii 5) (bytes 0 STREAM (Z.to_nat 32768)) [1212; 40; 261; 1548; 1881; 312; 2043; 285; 1062; 677; 542; 1473; 303; 172; 318; 839; 2560; 3242; 396; 202; 123; 898; 2454; 544; 3541; 571; 483; 383; 103; 2629; 929; 47; 524]).
Proof.
  eapply test_of; [eapply (rule_test VUnit (CfgMii 5) (enc_Mii mii_default) _ 0); [cbn; unfold is_u64; lia|exact I|exact I|reflexivity|reflexivity|nonneg]|].
  body ltac:(rewrite src_mii_default by lia; reduce).
Qed.
Lemma bup_cuts_1 : decided "bup_cuts_1" [] (lists (CfgRollSum WINDOW_SIZE) (bytes 0 STREAM (Z.to_nat 32768)) [2600; 6245]).
Proof.
  eapply test_of; [eapply (rule_test VUnit (CfgRollSum WINDOW_SIZE) (enc_RollSum rollsum_default) _ 0); [unfold typed; cbn; lia|cbn; try exact I; lia|cbn; lia|reflexivity|reflexivity|nonneg]|].
  body ltac:(rewrite src_rollsum_default by lia; reduce).
Qed.
Lemma gzip_cuts_1 : decided "gzip_cuts_1" [] (lists (CfgGzip (Z.to_nat 8192) 4096) (bytes 0 STREAM (Z.to_nat 32768)) [2941; 2077; 5263; 7263; 392; 4371; 5204]).
Proof.
  eapply test_of; [eapply (rule_test VUnit (CfgGzip (Z.to_nat 8192) 4096) (enc_Gzip gzip_default) _ 0); [unfold typed, is_u64; lia|unfold fits; lia|unfold incr_sound; lia|reflexivity|reflexivity|nonneg]|].
  body ltac:(rewrite src_gzip_default by lia; reduce).
Qed.
Lemma gzip_cuts_2 : decided "gzip_cuts_2" [] (lists (CfgGzip (Z.to_nat 8192) 4096) (bytes 2 STREAM (Z.to_nat 32768)) [9277; 2758; 3074; 7415; 3579; 4141]).
Proof.
  eapply test_of; [eapply (rule_test VUnit (CfgGzip (Z.to_nat 8192) 4096) (enc_Gzip gzip_default) _ 2); [unfold typed, is_u64; lia|unfold fits; lia|unfold incr_sound; lia|reflexivity|reflexivity|nonneg]|].
  body ltac:(rewrite src_gzip_default by lia; reduce).
Qed.
Lemma buzhash_cuts_1 : decided "buzhash_cuts_1" [] (lists (CfgBuzHash 67 4095 (table_byte_salt_hash x00 GO_BUZHASH) 16777216) (bytes 0 STREAM (Z.to_nat 32768)) [6265; 1745; 11527; 6851; 1089]).
Proof.
  assert (exists p, buzhash_new_nom x00 = Ok p /\ instance_value (enc_SaltHash x00 GO_BUZHASH) (CfgBuzHash 67 4095 (table_byte_salt_hash x00 GO_BUZHASH) 16777216) =
    Ok (enc_Buz (enc_SaltHash x00 GO_BUZHASH) p)) as (p & E & Ei) by (eexists; split; reflexivity).
  eapply test_of; [eapply (rule_test (enc_SaltHash x00 GO_BUZHASH) (CfgBuzHash 67 4095 (table_byte_salt_hash x00 GO_BUZHASH) 16777216) _ _ 0);
    [apply go_typed; unfold is_u32, is_u64; lia|apply go_fits; lia|exact I|reflexivity|exact Ei|nonneg]|].
  body ltac:(change (VInt U8 0) with (vbyte x00); rewrite src_buzhash_new_nom, E by lia; cbn [as_out]; reduce).
Qed.
Lemma zpaq_cuts_0 : decided "zpaq_cuts_0" [] (lists (CfgZpaq 13 (Included 512, Excluded 66584576)) (bytes 0 STREAM (Z.to_nat 32768)) [10785; 6329; 1287; 860; 4716; 7419]).
Proof.
  assert (exists p, zpaq_with_average_size_pow_2 13 = Ok p /\ instance_value VUnit (CfgZpaq 13 (Included 512, Excluded 66584576)) = Ok (enc_Zpaq p)) as (p & E & Ei)
    by (eexists; split; vm_compute; reflexivity).
  eapply test_of; [eapply (rule_test VUnit (CfgZpaq 13 (Included 512, Excluded 66584576)) (enc_Zpaq p) _ 0); [unfold typed, is_u64; cbn [start_bound end_bound bound_u64 fst snd]; unfold is_u64; lia|exact I|exact I|reflexivity|exact Ei|nonneg]|].
  body ltac:(rewrite src_zpaq_with_average_size_pow_2, E by lia; cbn [as_out]; reduce).
Qed.
Lemma zpaq_cuts_3 : decided "zpaq_cuts_3" [] (lists (CfgZpaq 13 (Included 512, Excluded 66584576)) (bytes 3 STREAM (Z.to_nat 32768)) [16353; 2334; 970; 5326; 1557]).
Proof.
  assert (exists p, zpaq_with_average_size_pow_2 13 = Ok p /\ instance_value VUnit (CfgZpaq 13 (Included 512, Excluded 66584576)) = Ok (enc_Zpaq p)) as (p & E & Ei)
    by (eexists; split; vm_compute; reflexivity).
  eapply test_of; [eapply (rule_test VUnit (CfgZpaq 13 (Included 512, Excluded 66584576)) (enc_Zpaq p) _ 3); [unfold typed, is_u64; cbn [start_bound end_bound bound_u64 fst snd]; unfold is_u64; lia|exact I|exact I|reflexivity|exact Ei|nonneg]|].
  body ltac:(rewrite src_zpaq_with_average_size_pow_2, E by lia; cbn [as_out]; reduce).
Qed.
Lemma pigz_cuts_0 : decided "pigz_cuts_0" [] (lists (CfgPigz 12) (bytes 0 STREAM (Z.to_nat 32768)) [9069; 1191; 3685; 8629; 2119; 2939]).
Proof.
  assert (exists p, pigz_default = Ok p /\ instance_value VUnit (CfgPigz 12) = Ok (enc_Pigz p)) as (p & E & Ei) by (eexists; split; vm_compute; reflexivity).
  eapply test_of; [eapply (rule_test VUnit (CfgPigz 12) (enc_Pigz p) _ 0); [cbn; lia|exact I|exact I|reflexivity|exact Ei|nonneg]|].
  body ltac:(rewrite src_pigz_default, E by lia; cbn [as_out]; reduce).
Qed.
Lemma gear32_cuts_0 : decided "gear32_cuts_0" [] (lists (CfgGear 13) (bytes 0 STREAM (Z.to_nat 32768)) [11031; 7789; 10463]).
Proof.
  assert (exists p, gear_default = Ok p /\ instance_value VUnit (CfgGear 13) = Ok (enc_Gear32 p)) as (p & E & Ei) by (eexists; split; vm_compute; reflexivity).
  eapply test_of; [eapply (rule_test VUnit (CfgGear 13) (enc_Gear32 p) _ 0); [cbn; unfold is_u64; lia|exact I|exact I|reflexivity|exact Ei|nonneg]|].
  body ltac:(rewrite src_gear_default, E by lia; cbn [as_out]; reduce).
Qed.
Lemma ram_cuts_0 : decided "ram_cuts_0" [] (lists (CfgRam 8192) (bytes 0 STREAM (Z.to_nat 32768)) [8264; 8368; 8341]).
Proof.
  eapply test_of; [eapply (rule_test VUnit (CfgRam 8192) (enc_Ram (ram_with_w 8192)) _ 0); [cbn; unfold is_u64; lia|exact I|exact I|reflexivity|reflexivity|nonneg]|].
  body ltac:(rewrite src_ram_with_w by lia; reduce).
Qed.
Lemma fastcdc_cuts_0 : decided "fastcdc_cuts_0" [] (lists (CfgFastCdc GEAR_64 2048 8192 65536) (bytes 0 STREAM (Z.to_nat 32768)) [8463; 9933; 9029]).
Proof.
  eapply test_of; [apply (proj1 (fastcdc_test 0 [8463; 9933; 9029] ltac:(nonneg)))|].
  body ltac:(rewrite src_fastcdc_default by lia; reduce).
Qed.
Lemma fastcdc_cuts_incr_0 : decided "fastcdc_cuts_incr_0" [] (lists (CfgFastCdc GEAR_64 2048 8192 65536) (bytes 0 STREAM (Z.to_nat 32768)) [8463; 9933; 9029]).
Proof.
  eapply test_of; [apply (proj2 (fastcdc_test 0 [8463; 9933; 9029] ltac:(nonneg)))|].
  body ltac:(rewrite src_fc_incr_default by lia; reduce).
Qed.
Lemma zstd_cuts_0_2mb : decided "zstd_cuts_0_2mb" [] (lists (CfgZstd 8388608) (bytes 0 STREAM (Z.to_nat 2097152)) [1660511]).
Proof.
  destruct (zstd_test 0 2097152 1660511 ltac:(lia) ltac:(lia)) as (p & E & D). eapply test_of; [exact D|].
  body ltac:(rewrite src_zstd_default, E by lia; cbn [as_out]; reduce; change (1572864 + 87647 <? 2 ^ 64) with true; change (1572864 + 87647) with 1660511; reduce).
Qed.

End Tests.

(** ** The thirteen tests

    Name, seed, number of bytes, chunker and the numbers listed: whatever the generator returns, the test passes if the chunk sizes
    on these bytes are the numbers, and it panics if they are not. *)
Definition tests_of_cuts : list (string * Z * Z * config * list Z) :=
  [("mii_cuts_1"%string, 0, 32768, CfgMii 5,
      [1212; 40; 261; 1548; 1881; 312; 2043; 285; 1062; 677; 542; 1473; 303; 172; 318; 839; 2560; 3242; 396; 202; 123; 898; 2454; 544; 3541; 571; 483; 383; 103; 2629; 929; 47; 524]);
   ("bup_cuts_1"%string, 0, 32768, CfgRollSum WINDOW_SIZE, [2600; 6245]);
   ("gzip_cuts_1"%string, 0, 32768, CfgGzip (Z.to_nat 8192) 4096, [2941; 2077; 5263; 7263; 392; 4371; 5204]);
   ("gzip_cuts_2"%string, 2, 32768, CfgGzip (Z.to_nat 8192) 4096, [9277; 2758; 3074; 7415; 3579; 4141]);
   ("buzhash_cuts_1"%string, 0, 32768, CfgBuzHash 67 4095 (table_byte_salt_hash x00 GO_BUZHASH) 16777216, [6265; 1745; 11527; 6851; 1089]);
   ("zpaq_cuts_0"%string, 0, 32768, CfgZpaq 13 (Included 512, Excluded 66584576), [10785; 6329; 1287; 860; 4716; 7419]);
   ("zpaq_cuts_3"%string, 3, 32768, CfgZpaq 13 (Included 512, Excluded 66584576), [16353; 2334; 970; 5326; 1557]);
   ("pigz_cuts_0"%string, 0, 32768, CfgPigz 12, [9069; 1191; 3685; 8629; 2119; 2939]);
   ("zstd_cuts_0_2mb"%string, 0, 2097152, CfgZstd 8388608, [1660511]);
   ("gear32_cuts_0"%string, 0, 32768, CfgGear 13, [11031; 7789; 10463]);
   ("fastcdc_cuts_incr_0"%string, 0, 32768, CfgFastCdc GEAR_64 2048 8192 65536, [8463; 9933; 9029]);
   ("fastcdc_cuts_0"%string, 0, 32768, CfgFastCdc GEAR_64 2048 8192 65536, [8463; 9933; 9029]);
   ("ram_cuts_0"%string, 0, 32768, CfgRam 8192, [8264; 8368; 8341])].

Theorem C79_cut_tests : forall bytes user x seed size c numbers, (forall a b n, length (bytes a b n) = n) ->
  In (x, seed, size, c, numbers) tests_of_cuts ->
  exists enough, forall n, (enough <= n)%nat ->
    (lists c (bytes seed STREAM (Z.to_nat size)) numbers -> call (cut_tested bytes user) n x [] = Done ([], VUnit)) /\
    (~ lists c (bytes seed STREAM (Z.to_nat size)) numbers -> call (cut_tested bytes user) n x [] = Panics).
Proof.
  intros bytes user x seed size c numbers HB. unfold cut_tested.
  assert (X : forall y, In y tests_of_cuts -> match y with (x, seed, size, c, numbers) => decided bytes user x [] (lists c (bytes seed STREAM (Z.to_nat size)) numbers) end);
    [|intros i; exact (X _ i)].
  apply Forall_forall. unfold tests_of_cuts.
  repeat apply Forall_cons; [apply mii_cuts_1|apply bup_cuts_1|apply gzip_cuts_1|apply gzip_cuts_2|apply buzhash_cuts_1|apply zpaq_cuts_0|apply zpaq_cuts_3|apply pigz_cuts_0
    |apply zstd_cuts_0_2mb|apply gear32_cuts_0|apply fastcdc_cuts_incr_0|apply fastcdc_cuts_0|apply ram_cuts_0|apply Forall_nil]; exact HB.
Qed.
Print Assumptions C79_cut_tests.

(** The table has all of them. *)
Theorem C79_all : map (fun y => match y with (x, _, _, _, _) => x end) tests_of_cuts = tl cut_tests.
Proof. reflexivity. Qed.
Print Assumptions C79_all.
