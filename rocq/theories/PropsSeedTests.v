(** * PropsSeedTests: C85, the tests of tests/fastcdc.rs with the data they make. *)

From Coq Require Import String ZifyBool ZifyNat.
From Verif Require Import Base Lists Pcg Rust RustLex RustParse RustElab RustSource RustFiles RustTests SeedTests RustText DriverText RustSim RustLib RustFastCdc DriverSim RustRules PropsTyping.
Open Scope list_scope.
Open Scope Z_scope.

(** ** Their text *)

Definition seed_text := Eval vm_compute in match seed_test_functions with Some l => accepted l | None => [] end.

(** Of the functions of the file these and the callers of C73 are read; [shrink] works on counterexamples and [o1_qc] gives [oracle_1] to quickcheck. *)
Theorem C85_text : seed_test_functions = Some (map (fun p => (fst p, Fine (snd p))) seed_text) /\
  option_map fn_names (tokens tests_fastcdc_rs) = Some (["arbitrary"; "shrink"; "oracle_1"; "oracle_1_test"; "o1_empty"; "o1_qc"; "o1_8k_seed"; "o1_8k1"; "o1_8k_t1"; "o1_8k_t2";
    "feed_until_5_chunks"; "fast_cdc_8kb"])%string.
Proof. split; vm_compute; reflexivity. Qed.
Print Assumptions C85_text.

(** Their elaboration follows the rules of C82. *)
Definition seed_def : seed_test_functions = compile_cut_tests seed_tests (parse_all crate_files) seed_helpers (option_map plain (tokens tests_fastcdc_rs)) :=
  eq_refl (compile_cut_tests seed_tests (parse_all crate_files) seed_helpers (option_map plain (tokens tests_fastcdc_rs))).
Theorem C85_typed : exists l ds ts fs, parse_all crate_files = Some l /\ seed_helpers = Some ds /\ option_map plain (tokens tests_fastcdc_rs) = Some ts /\
  cuts_of seed_tests ts = Some fs /\ forall x g, In (x, g) seed_text -> exists f, In f fs /\ follows (items_of (l ++ concat ds)) true f x g.
Proof. refine (cuts_follow _ _ _ _ seed_test_functions _ (proj1 C85_text) seed_def _). vm_compute. reflexivity. Qed.
Print Assumptions C85_typed.

(** The elaborator takes a slice for a copy, which is right unless something is written to it.  Nowhere else in what is read is a slice lent to be written to. *)
Definition tok_eq_dec (a b : tok) : {a = b} + {a <> b}.
Proof. repeat decide equality. Defined.
Theorem C85_lent :
  Forall (fun f => exists ts, tokens f = Some ts /\ ~ In (TOp "[") (lent ts)) (crate_files ++ [tests_cuts_rs; tests_cuts_qc_rs; tests_qc_bup_rs]) /\
  exists ts, tokens tests_fastcdc_rs = Some ts /\ count_occ tok_eq_dec (lent ts) (TOp "[") = 1%nat /\ ~ In (TOp "[") (lent (plain ts)).
Proof.
  assert (E : forall f, match tokens f with Some ts => negb (existsb (is_tok "[") (lent ts)) | None => false end = true ->
    exists ts, tokens f = Some ts /\ ~ In (TOp "[") (lent ts)).
  { intros f H. destruct (tokens f) as [ts|]; [|discriminate]. exists ts. split; [reflexivity|]. intros K.
    assert (existsb (is_tok "[") (lent ts) = true) as F by (apply existsb_exists; exists (TOp "["); split; [exact K|reflexivity]). rewrite F in H. discriminate. }
  split.
  - apply Forall_forall. intros f Hf. apply E. revert f Hf. apply forallb_forall. vm_compute. reflexivity.
  - assert (H : match tokens tests_fastcdc_rs with Some ts => (count_occ tok_eq_dec (lent ts) (TOp "[") =? 1)%nat && negb (existsb (is_tok "[") (lent (plain ts))) | None => false end = true)
      by (vm_compute; reflexivity).
    destruct (tokens tests_fastcdc_rs) as [ts|]; [|discriminate]. exists ts. apply andb_prop in H as [A B]. apply conj; [reflexivity|]. apply conj; [now apply Nat.eqb_eq|].
    intros K. assert (existsb (is_tok "[") (lent (plain ts)) = true) as F by (apply existsb_exists; exists (TOp "["); split; [exact K|reflexivity]). rewrite F in B. discriminate.
Qed.
Print Assumptions C85_lent.
Example C85_case_lent : option_map lent (tokens "f(&mut a.b[..], &mut c, &a[1..], &mut d[..]); g::<&mut [u8]>(&mut self.x.y)"%source) = Some (map TOp ["["; ","; "["; ")"]%string).
Proof. vm_compute. reflexivity. Qed.

(** ** What they call

    A vector has room for [cap] bytes, whatever was asked for; [set_len] makes it that long, with anything in it; the generator fills a
    slice with anything, the next time with something else.  [limit] is how often it does so before it panics: it is there to count.
    [rand::random] is any number, and the generator of quickcheck has any size and fills a slice with [any]thing. *)
Definition vpcg (state stream : Z) (used : nat) : value :=
  VStruct "Pcg64" [("state"%string, VInt U128 state); ("stream"%string, VInt U128 stream); ("used"%string, vsize used)].
Definition given_capacity (cap : Z) (vs : list value) : out (list value * value) := Done (vs, VInt Usize cap).
Definition given_set_len (junk : nat -> list byte) (vs : list value) : out (list value * value) :=
  match vs with [VList _; VInt Usize c] => Done ([vbytes (junk (Z.to_nat c)); VInt Usize c], VUnit) | _ => Stuck end.
Definition given_new (vs : list value) : out (list value * value) :=
  match vs with [VInt U128 a; VInt U128 b] => Done (vs, vpcg a b 0) | _ => Stuck end.
Definition given_fill (limit : nat) (draw : Z -> Z -> nat -> nat -> list byte) (vs : list value) : out (list value * value) :=
  match vs with
  | [VStruct _ [(_, VInt U128 a); (_, VInt U128 b); (_, VInt Usize i)]; VList l] =>
      if (Z.to_nat i <? limit)%nat then Done ([vpcg a b (S (Z.to_nat i)); vbytes (draw a b (Z.to_nat i) (length l))], VUnit) else Panics
  | _ => Stuck
  end.
Definition vquick (size : Z) : value := VStruct "Gen" [("size"%string, VInt Usize size)].
Definition given_size (vs : list value) : out (list value * value) :=
  match vs with [VStruct _ [(_, VInt Usize n)]] => Done (vs, VInt Usize n) | _ => Stuck end.
Definition given_any (any : nat -> list byte) (vs : list value) : out (list value * value) :=
  match vs with [g; VList l] => Done ([g; vbytes (any (length l))], VUnit) | _ => Stuck end.
Definition outside (cap : Z) (junk any : nat -> list byte) (limit : nat) (draw : Z -> Z -> nat -> nat -> list byte) (random : Z) (user : program) : program := fun f =>
  if String.eqb f "random" then Some (Given [] (fun vs => Done (vs, VInt U128 random)))
  else if String.eqb f "Gen::size" then Some (Given [("self"%string, false)] given_size)
  else if String.eqb f "Gen::fill_bytes" then Some (Given [("self"%string, true); ("dest"%string, true)] (given_any any))
  else if String.eqb f "R::capacity" then Some (Given [("self"%string, false)] (given_capacity cap))
  else if String.eqb f "R::set_len" then Some (Given [("self"%string, true); ("n"%string, false)] (given_set_len junk))
  else if String.eqb f "Pcg64::new" then Some (Given [("state"%string, false); ("stream"%string, false)] given_new)
  else if String.eqb f "Pcg64::fill_bytes" then Some (Given [("self"%string, true); ("dest"%string, true)] (given_fill limit draw))
  else user f.
Definition with_seeds (user : program) : program := fun f =>
  match find_fn seed_text f with
  | Some g => Some (Rust.Source g)
  | None => user f
  end.
Definition seeded (cap : Z) (junk any : nat -> list byte) (limit : nat) (draw : Z -> Z -> nat -> nat -> list byte) (random : Z) (user : program) : program :=
  crate (drivers (with_seeds (outside cap junk any limit draw random user))).

Ltac look_seeds :=
  look_driver;
  repeat match goal with
  | |- context [with_seeds ?u ?f] =>
      is_string f;
      let r := eval vm_compute in (find_fn seed_text f) in
      match r with
      | Some ?g => change (with_seeds u f) with (Some (Rust.Source g))
      | None => change (with_seeds u f) with (u f)
      end
  end.
Ltac reduce_hook ::= look_seeds.

Section Seeds.
Variable cap : Z.
Hypothesis cap_range : 0 <= cap < 2 ^ 62.
Variable junk : nat -> list byte.
Hypothesis junk_length : forall n, length (junk n) = n.
Variable limit : nat.
Variable draw : Z -> Z -> nat -> nat -> list byte.
Hypothesis draw_length : forall a b i n, length (draw a b i n) = n.
Variable any : nat -> list byte.
Variable random : Z.
Variable user : program.
Notation u := (with_seeds (outside cap junk any limit draw random user)).
Notation prog := (crate (drivers u)).

Lemma out_capacity : outside cap junk any limit draw random user "R::capacity" = Some (Given [("self"%string, false)] (given_capacity cap)).
Proof. reflexivity. Qed.
Lemma out_set_len : outside cap junk any limit draw random user "R::set_len" = Some (Given [("self"%string, true); ("n"%string, false)] (given_set_len junk)).
Proof. reflexivity. Qed.
Lemma out_new : outside cap junk any limit draw random user "Pcg64::new" = Some (Given [("state"%string, false); ("stream"%string, false)] given_new).
Proof. reflexivity. Qed.
Lemma out_fill : outside cap junk any limit draw random user "Pcg64::fill_bytes" = Some (Given [("self"%string, true); ("dest"%string, true)] (given_fill limit draw)).
Proof. reflexivity. Qed.
Lemma src_capacity k v : call prog k "R::capacity" [v] = Done ([v], VInt Usize cap).
Proof. enter. rewrite out_capacity. reflexivity. Qed.
Lemma src_set_len k l c : call prog k "R::set_len" [VList l; VInt Usize c] = Done ([vbytes (junk (Z.to_nat c)); VInt Usize c], VUnit).
Proof. enter. rewrite out_set_len. reflexivity. Qed.
Lemma src_new k a b : call prog k "Pcg64::new" [VInt U128 a; VInt U128 b] = Done ([VInt U128 a; VInt U128 b], vpcg a b 0).
Proof. enter. rewrite out_new. reflexivity. Qed.
Lemma src_fill k a b i l : call prog k "Pcg64::fill_bytes" [vpcg a b i; VList l] =
  if (i <? limit)%nat then Done ([vpcg a b (S i); vbytes (draw a b i (length l))], VUnit) else Panics.
Proof. enter. rewrite out_fill. unfold given_fill, vpcg, vsize. rewrite Nat2Z.id. destruct (i <? limit)%nat; reflexivity. Qed.

Lemma out_random : outside cap junk any limit draw random user "random" = Some (Given [] (fun vs => Done (vs, VInt U128 random))).
Proof. reflexivity. Qed.
Lemma out_size : outside cap junk any limit draw random user "Gen::size" = Some (Given [("self"%string, false)] given_size).
Proof. reflexivity. Qed.
Lemma out_any : outside cap junk any limit draw random user "Gen::fill_bytes" = Some (Given [("self"%string, true); ("dest"%string, true)] (given_any any)).
Proof. reflexivity. Qed.
Lemma src_random k : call prog k "random" [] = Done ([], VInt U128 random).
Proof. enter. rewrite out_random. reflexivity. Qed.
Lemma src_size k n : call prog k "Gen::size" [vquick n] = Done ([vquick n], VInt Usize n).
Proof. enter. rewrite out_size. reflexivity. Qed.
Lemma src_any k n l : call prog k "Gen::fill_bytes" [vquick n; VList l] = Done ([vquick n; vbytes (any (length l))], VUnit).
Proof. enter. rewrite out_any. reflexivity. Qed.

Lemma src_seed n state : Z.of_nat n >= 300 + cap ->
  call prog n "o1_8k_seed" [VInt U128 state] = if (10 <=? limit)%nat then Done ([VInt U128 state], VUnit) else Panics.
Proof.
  intros Hn. remember (10 <=? limit)%nat as enough eqn:L. assert (Hn' : (40 <= n)%nat) by lia. destruct (bump_ge _ _ Hn') as [m ->]. cbn [bump] in Hn.
  enter. change (8388608 + 1 <? 2 ^ 64) with true. reduce.
  cbn [type_of append]. look. look_seeds. rewrite out_capacity. reduce. rewrite src_capacity. reduce.
  cbn [type_of append]. look. look_seeds. rewrite out_set_len. reduce. rewrite src_set_len. reduce.
  look. look_seeds. rewrite out_new. reduce. rewrite src_new. reduce.
  set (stream := 13306513097844322491606611498424254358).
  match goal with |- context [iter_range ?b] => set (body := b) end.
  set (E := fun i d => [("rng"%string, vpcg state stream i); ("c"%string, VInt Usize cap); ("d"%string, vbytes d);
    ("l"%string, VInt Usize (8388608 + 1)); ("state"%string, VInt U128 state)]).
  assert (S1 : forall i j d, length d = Z.to_nat cap ->
    body (E i d) j = if (i <? limit)%nat then Done (E (S i) (draw state stream i (Z.to_nat cap)), Value VUnit) else Panics).
  { intros i j d Hd. unfold body, lock, E. reduce. cbn [type_of vpcg append]. look. look_seeds. rewrite out_fill. reduce.
    unfold vbytes at 1. rewrite src_fill. rewrite map_length, Hd. destruct (i <? limit)%nat; reduce; [|reflexivity].
    rewrite src_oracle_1_test by (rewrite draw_length; lia). reduce. reflexivity. }
  assert (S2 : forall k lo i d, length d = Z.to_nat cap -> if (i + k <=? limit)%nat
    then exists i' d', iter_range body lo k (E i d) = Done (E i' d', Value VUnit) else (i <= limit)%nat -> iter_range body lo k (E i d) = Panics).
  { induction k as [|k IH]; intros lo i d Hd.
    - destruct (Nat.leb_spec (i + 0) limit); [exists i, d; reflexivity|lia].
    - cbn [iter_range]. rewrite (S1 i lo d Hd). specialize (IH (lo + 1) (S i) (draw state stream i (Z.to_nat cap)) (draw_length _ _ _ _)).
      replace (i + S k)%nat with (S i + k)%nat by lia. destruct (Nat.ltb_spec i limit).
      + destruct (Nat.leb_spec (S i + k) limit); [exact IH|]. intros _. apply IH. lia.
      + destruct (Nat.leb_spec (S i + k) limit); [lia|reflexivity]. }
  specialize (S2 (Z.to_nat 10 - Z.to_nat 0)%nat 0 0%nat (junk (Z.to_nat cap)) (junk_length _)).
  fold (E 0%nat (junk (Z.to_nat cap))). change (0 + (Z.to_nat 10 - Z.to_nat 0))%nat with 10%nat in S2. rewrite <- L in S2. destruct enough.
  - destruct S2 as (i' & d' & H). rewrite H. unfold E. reduce. reflexivity.
  - rewrite (S2 ltac:(lia)). reflexivity.
Qed.
Lemma src_random_seed n : Z.of_nat n >= 340 + cap -> call prog n "o1_8k1" [] = if (10 <=? limit)%nat then Done ([], VUnit) else Panics.
Proof.
  intros Hn. remember (10 <=? limit)%nat as enough eqn:L. assert (Hn' : (40 <= n)%nat) by lia. destruct (bump_ge _ _ Hn') as [m ->]. cbn [bump] in Hn.
  enter. look. look_seeds. rewrite ?out_random. reduce. rewrite src_random. reduce. rewrite src_seed by lia; rewrite <- L; destruct enough; reduce; reflexivity.
Qed.
Lemma src_empty n : (340 <= n)%nat -> call prog n "o1_empty" [] = Done ([], VUnit).
Proof.
  clear cap_range junk_length draw_length. intros Hn. assert (Hn' : (40 <= n)%nat) by lia. destruct (bump_ge _ _ Hn') as [m ->]. cbn [bump] in Hn.
  enter. match goal with |- context [call _ _ "oracle_1_test" [?v]] => change v with (vbytes [x00]) end.
  rewrite src_oracle_1_test by (cbn [length]; lia). reduce. reflexivity.
Qed.
Lemma src_arbitrary n size : 0 <= size -> 1024 + size < 2 ^ 63 -> (40 <= n)%nat ->
  call prog n "arbitrary" [vquick size] = Done ([vquick size], VStruct "Vec8K" [("data"%string, vbytes (any (Z.to_nat (1024 + size))))]).
Proof.
  clear cap_range junk_length draw_length. intros Hs F Hn'. destruct (bump_ge _ _ Hn') as [m ->].
  enter. cbn [type_of vquick append]. look. look_seeds. rewrite out_size. reduce. rewrite src_size. reduce.
  replace (1024 + size <? 2 ^ 64) with true by lia. reduce. cbn [type_of vquick append]. look. look_seeds. rewrite out_any. reduce.
  rewrite src_any. rewrite repeat_length. reduce. reflexivity.
Qed.
Lemma src_seeded x seed n : Z.of_nat n >= 340 + cap -> In (x, seed) [("o1_8k_t1"%string, 132107216379465006236604286738388392660); ("o1_8k_t2"%string, 46388687839717057017529036763442659785)] ->
  call prog n x [] = if (10 <=? limit)%nat then Done ([], VUnit) else Panics.
Proof.
  intros Hn H. remember (10 <=? limit)%nat as enough eqn:L. assert (Hn' : (40 <= n)%nat) by lia. destruct (bump_ge _ _ Hn') as [m ->]. cbn [bump] in Hn.
  destruct H as [H|[H|[]]]; injection H as <- <-; enter; rewrite src_seed by lia; rewrite <- L; destruct enough; reduce; reflexivity.
Qed.
End Seeds.

(** ** C85 *)
Definition keeps (f : nat -> list byte) : Prop := forall n, length (f n) = n.

(** The test passes whatever the seed is, whatever the vector holds before it is filled, however much room it has and whatever the generator
    draws; and it looks at ten draws, no fewer and no more. *)
Theorem C85_seed : forall cap junk any limit draw random user state n, 0 <= cap < 2 ^ 62 -> keeps junk -> (forall a b i, keeps (draw a b i)) ->
  Z.of_nat n >= 300 + cap ->
  call (seeded cap junk any limit draw random user) n "o1_8k_seed" [VInt U128 state] = if (10 <=? limit)%nat then Done ([VInt U128 state], VUnit) else Panics.
Proof. intros cap junk any limit draw random user state n Hc Hj Hd Hn. exact (src_seed cap Hc junk Hj limit draw Hd any random user n state Hn). Qed.
Print Assumptions C85_seed.

(** So do the three tests that start it: with a random seed and with two that are in the text. *)
Theorem C85_tests : forall cap junk any limit draw random user n, 0 <= cap < 2 ^ 62 -> keeps junk -> (forall a b i, keeps (draw a b i)) ->
  Z.of_nat n >= 340 + cap -> forall x, In x ["o1_8k1"; "o1_8k_t1"; "o1_8k_t2"]%string ->
  call (seeded cap junk any limit draw random user) n x [] = if (10 <=? limit)%nat then Done ([], VUnit) else Panics.
Proof.
  intros cap junk any limit draw random user n Hc Hj Hd Hn x H.
  destruct H as [<-|[<-|[<-|[]]]]; [exact (src_random_seed cap Hc junk Hj limit draw Hd any random user n Hn)| |];
    eapply (src_seeded cap Hc junk Hj limit draw Hd any random user); try exact Hn; [left; reflexivity|right; left; reflexivity].
Qed.
Print Assumptions C85_tests.

(** What [arbitrary] makes for quickcheck are the bytes of the generator, 1024 and its size of them, and [oracle_1] holds of every one of them.
    The one byte of [o1_empty] passes too. *)
Theorem C85_quickcheck : forall cap junk any limit draw random user n size, keeps any -> 0 <= size -> 1024 + size < 2 ^ 63 -> Z.of_nat n >= 1224 + size ->
  let prog := seeded cap junk any limit draw random user in
  let d := VStruct "Vec8K" [("data"%string, vbytes (any (Z.to_nat (1024 + size))))] in
  call prog n "arbitrary" [vquick size] = Done ([vquick size], d) /\
  call prog n "oracle_1" [d] = Done ([d], VBool true) /\
  call prog n "o1_empty" [] = Done ([], VUnit).
Proof.
  intros cap junk any limit draw random user n size Ha Hs F Hn. cbv zeta. unfold seeded. repeat apply conj.
  - apply src_arbitrary; lia.
  - apply src_oracle_1; rewrite Ha; lia.
  - apply src_empty. lia.
Qed.
Print Assumptions C85_quickcheck.

(** A vector of thirty bytes. *)
Definition zeros (k : nat) : list byte := repeat x00 k.
Definition pattern (a b : Z) (i k : nat) : list byte := map (fun j => byte_of_Z ((a + b * Z.of_nat i + Z.of_nat j * Z.of_nat j) mod 256)) (List.seq 0 k).
Example C85_case : let run limit x := call (seeded 30 zeros (pattern 0 0 0) limit pattern 5 (fun _ => None)) 400 x [] in
  (map (run 10%nat) ["o1_8k1"; "o1_8k_t1"; "o1_8k_t2"]%string, run 9%nat "o1_8k_t1"%string, run 0%nat "o1_empty"%string) =
  ([Done ([], VUnit); Done ([], VUnit); Done ([], VUnit)], Panics, Done ([], VUnit)).
Proof. vm_compute. reflexivity. Qed.
(** The bytes are those of the generator, not the zeros that were there before. *)
Example C85_case_arbitrary : match call (seeded 30 zeros (pattern 7 0 0) 0 pattern 5 (fun _ => None)) 400 "arbitrary" [vquick 3] with
  | Done ([g], VStruct x [(y, VList l)]) => (x, y, length l, firstn 5 l) = ("Vec8K"%string, "data"%string, 1027%nat, map vbyte [x07; x08; x0b; x10; x17])
  | _ => False
  end.
Proof. vm_compute. reflexivity. Qed.
(** The two tests are the literals they start from. *)
Example C85_case_seeds : map (fun x => option_map fn_body (find_fn seed_text x)) ["o1_8k_t1"; "o1_8k_t2"]%string =
  [Some (Block [Call "o1_8k_seed" [Lit U128 132107216379465006236604286738388392660]; Con "()" []]);
   Some (Block [Call "o1_8k_seed" [Lit U128 46388687839717057017529036763442659785]; Con "()" []])].
Proof. vm_compute. reflexivity. Qed.
