(** * DriverSim: the callers of [DriverText.v] compute what the models in Drivers.v compute.

    The callers are generic in the chunker; here it is any value [pv] whose [to_search_state] and [find_chunk_edge] compute
    those of a model [C], and likewise for [push]. *)

From Coq Require Import String ZifyBool ZifyNat.
From Verif Require Import Base Api Tables FastCdc Oracle Lists Rust RustText DriverText RustSim RustLib RustFastCdc RustConfig RustMeta Drivers.
Open Scope list_scope.
Open Scope Z_scope.

(** The crate and the callers; whatever else is called comes from the user ([test_data], [thread_rng]). *)
Definition drivers (user : program) : program := fun f =>
  match find_fn driver_text f with
  | Some g => Some (Source g)
  | None => user f
  end.

Ltac look_driver :=
  repeat match goal with
  | |- context [drivers ?u ?f] =>
      is_string f;
      let r := eval vm_compute in (find_fn driver_text f) in
      match r with
      | Some ?g => change (drivers u f) with (Some (Source g))
      | None => change (drivers u f) with (u f)
      end
  end.
Ltac reduce_hook ::= look_driver.

Notation vsizes l := (VList (map vsize l)).

(** [pv.to_search_state()] and [pv.find_chunk_edge(state, data)] compute those of [C]. *)
Definition computes_chunk (prog : program) (pv : value) (C : Chunk) (enc : search_state C -> value) (Inv : search_state C -> Prop) : Prop :=
  computes_find prog (type_of pv) pv C enc Inv 120 /\
  (exists x y, params_of prog (append (type_of pv) "::find_chunk_edge") = [("self"%string, false); (x, true); (y, false)]) /\
  params_of prog (append (type_of pv) "::to_search_state") = [("self"%string, false)] /\
  (forall n, (120 <= n)%nat -> call prog n (append (type_of pv) "::to_search_state") [pv] = Done ([pv], enc (to_search_state C))) /\
  Inv (to_search_state C) /\
  (forall s buf s' a, Inv s -> find_chunk_edge C s buf = Ok (s', a) -> Inv s').

(** No index lies more than one byte past the end of the buffer. *)
Definition answers_near (C : Chunk) : Prop := forall s buf s' o d, find_chunk_edge C s buf = Ok (s', (o, d)) ->
  (d <= length buf + 1)%nat /\ match o with Some k => (k <= length buf + 1)%nat | None => True end.

(** [pv.to_chunk_incr()] and [push] compute those of [C]. *)
Definition computes_incr (prog : program) (pv : value) (T : string) (C : Incr) (enc : incr_state C -> value) (Inv : incr_state C -> Prop) : Prop :=
  computes_push prog T C enc Inv 120 /\
  params_of prog (append (type_of pv) "::to_chunk_incr") = [("self"%string, false)] /\
  (forall n, (120 <= n)%nat -> call prog n (append (type_of pv) "::to_chunk_incr") [pv] = Done ([pv], enc (incr_new C))) /\
  Inv (incr_new C) /\
  (forall s buf s' o, Inv s -> incr_push C s buf = Ok (s', o) -> Inv s').

Definition sizes_eqb (a b : list nat) : bool := if list_eq_dec Nat.eq_dec a b then true else false.

Lemma ints_eqb_sizes a b : ints_eqb (map vsize a) (map vsize b) = Done (sizes_eqb a b).
Proof.
  unfold sizes_eqb. revert b. induction a as [|x a IH]; intros [|y b]; try reflexivity.
  cbn [map ints_eqb vsize ity_eqb]. rewrite IH.
  destruct (Z.of_nat x =? Z.of_nat y) eqn:E.
  - assert (x = y) by lia. subst y. destruct (list_eq_dec Nat.eq_dec a b) as [->|N]; destruct (list_eq_dec _ _ _) as [|N']; try reflexivity; congruence.
  - destruct (list_eq_dec _ _ _) as [[= -> ->]|N]; [lia|reflexivity].
Qed.

(** The loops of [cut_test_incr] and [cut_test_sz]. *)
Section ByteLoop.
Variable C : Incr.
Variable Inv : incr_state C -> Prop.
Variable E : incr_state C -> list nat -> nat -> env.
Variable body : env -> Z -> value -> Rust.out (env * flow).
Hypothesis HI : forall s buf s' o, Inv s -> incr_push C s buf = Ok (s', o) -> Inv s'.
Hypothesis Hbody : forall s acc last i v, Inv s -> Z.of_nat i < 2 ^ 63 ->
  body (E s acc last) (Z.of_nat i) (vbyte v) =
  match incr_push C s [v] with
  | Ok (s', Some _) => match sub_usize (i + 1) last with Ok k => Done (E s' (acc ++ [k]) (i + 1), Value VUnit) | _ => Panics end
  | Ok (s', None) => Done (E s' acc last, Value VUnit)
  | Panic => Panics
  | Diverge => NoFuel
  end.

Lemma byte_loop : forall l i s acc last, Inv s -> Z.of_nat (i + length l) < 2 ^ 63 ->
  match byte_splits_from C s last i l with
  | Ok ns => exists s' last', iter_enum body (Z.of_nat i) (map vbyte l) (E s acc last) = Done (E s' (acc ++ ns) last', Value VUnit)
  | Panic => iter_enum body (Z.of_nat i) (map vbyte l) (E s acc last) = Panics
  | Diverge => iter_enum body (Z.of_nat i) (map vbyte l) (E s acc last) = NoFuel
  end.
Proof.
  intros l. induction l as [|v l IH]; intros i s acc last Hi HL; cbn [byte_splits_from map iter_enum length] in *.
  - exists s, last. rewrite app_nil_r. reflexivity.
  - rewrite Hbody by (assumption || lia). destruct (incr_push C s [v]) as [[s' [k|]]| |] eqn:Ep; cbn [bind]; try reflexivity.
    + destruct (sub_usize (i + 1) last) as [m| |] eqn:Em; cbn [bind]; try reflexivity; [|unfold sub_usize in Em; destruct (_ <=? _)%nat; discriminate].
      specialize (IH (i + 1)%nat s' (acc ++ [m]) (i + 1)%nat (HI _ _ _ _ Hi Ep) ltac:(lia)).
      replace (Z.of_nat i + 1) with (Z.of_nat (i + 1)) by lia.
      destruct (byte_splits_from C s' (i + 1) (i + 1) l) as [ns| |]; cbn [bind]; try exact IH.
      destruct IH as (s2 & l2 & ->). exists s2, l2. rewrite <- app_assoc. reflexivity.
    + specialize (IH (i + 1)%nat s' acc last (HI _ _ _ _ Hi Ep) ltac:(lia)).
      replace (Z.of_nat i + 1) with (Z.of_nat (i + 1)) by lia. exact IH.
Qed.
End ByteLoop.

Ltac byte_body body E C Ht Hp Hc :=
  intros s acc last i v Hi Hb;
  unfold body, lock, E; reduce; rewrite Ht, Hp;
  change (VList [VInt U8 (b2z v)]) with (vbytes [v]);
  rewrite (Hc _ s [v]) by (assumption || (cbn [length]; lia));
  destruct (incr_push C s [v]) as [[s' [k|]]| |]; unfold as_out; reduce; try reflexivity;
  unfold sub_usize; rewrite ?map_length;
  [replace (Z.of_nat i + 1 <? 2 ^ 64) with true by lia; reduce;
   destruct (Nat.leb_spec last (i + 1)); [replace (Z.of_nat last <=? Z.of_nat i + 1) with true by lia|replace (Z.of_nat last <=? Z.of_nat i + 1) with false by lia]; reduce; try reflexivity;
   rewrite map_app; cbn [map]; agree].

(** [test_data] returns [data]. *)
Definition gives_data (u : program) (seed size : value) (data : list byte) : Prop :=
  params_of u "test_data" = [("seed"%string, false); ("size"%string, false)] /\
  forall n, (100 <= n)%nat -> call (crate (drivers u)) n "test_data" [seed; size] = Done ([seed; size], vbytes data).

Section Incr.
Variable u : program.
Variable T : string.
Variable C : Incr.
Variable enc : incr_state C -> value.
Variable Inv : incr_state C -> Prop.
Hypothesis HC : computes_push (crate (drivers u)) T C enc Inv 120.
Hypothesis HI0 : Inv (incr_new C).
Hypothesis HI : forall s buf s' o, Inv s -> incr_push C s buf = Ok (s', o) -> Inv s'.
Variable data : list byte.
Hypothesis HL : Z.of_nat (length data) < 2 ^ 62.

Lemma src_cut_test_incr n seed size expected : gives_data u seed size data -> (200 <= n)%nat ->
  let args := [seed; size; enc (incr_new C); vsizes expected] in
  call (crate (drivers u)) n "cut_test_incr" args =
  match byte_splits C data with
  | Ok ns => if sizes_eqb expected ns then Done (args, VUnit) else Panics
  | Panic => Panics
  | Diverge => NoFuel
  end.
Proof.
  intros [Du Hu] Hn args. destruct HC as (Ht & (x & Hp) & Hc).
  assert (Hn' : (40 <= n)%nat) by lia. destruct (bump_ge _ _ Hn') as [m ->]. cbn [bump] in Hn.
  unfold params_of in Hp, Du. unfold args. enter. rewrite Du. reduce. rewrite Hu by lia. reduce.
  set (E := fun s acc (last : nat) => [("last_split"%string, vsize last); ("buf"%string, vbytes data); ("incr"%string, enc s); ("incr_splits"%string, vsizes acc);
    ("buf"%string, vbytes data); ("seed"%string, seed); ("size"%string, size); ("chunker"%string, enc (incr_new C)); ("expected_splits"%string, vsizes expected)]).
  match goal with |- context [iter_enum ?b ?k ?l ?rho] => set (body := b);
     pose proof (byte_loop C Inv E body HI) as G end.
  assert (S : forall s acc last i v, Inv s -> Z.of_nat i < 2 ^ 63 ->
  body (E s acc last) (Z.of_nat i) (vbyte v) =
  match incr_push C s [v] with
  | Ok (s', Some _) => match sub_usize (i + 1) last with Ok k => Done (E s' (acc ++ [k]) (i + 1)%nat, Value VUnit) | _ => Panics end
  | Ok (s', None) => Done (E s' acc last, Value VUnit)
  | Panic => Panics
  | Diverge => NoFuel
  end).
  { byte_body body E C Ht Hp Hc. }
  specialize (G S data 0%nat (incr_new C) [] 0%nat HI0 ltac:(lia)). clearbody body.
  unfold byte_splits. change (Z.of_nat 0) with 0 in G.
  destruct (byte_splits_from C (incr_new C) 0 0 data) as [ns| |]; [destruct G as (s' & l' & G)| |]; unfold E in G; cbn [map app] in G; change (VInt Usize 0) with (vsize 0); rewrite G; reduce; try reflexivity.
  rewrite ints_eqb_sizes. reduce. destruct (sizes_eqb expected ns); reduce; reflexivity.
Qed.
End Incr.

Section Find.
Variable u : program.
Variable pv : value.
Variable C : Chunk.
Variable enc : search_state C -> value.
Variable Inv : search_state C -> Prop.
Hypothesis HC : computes_chunk (crate (drivers u)) pv C enc Inv.
Hypothesis HA : answers_near C.

(** ** src/lib.rs, the example in the documentation *)

Definition printed (chunks : list (list byte)) : list value := map (fun c => VCon "chunk: {:?}" [vbytes c]) chunks.
Definition printed_end (remain : list byte) : list value := [VCon "no chunk, done with data we have" []; VCon "remain: {:?}" [vbytes remain]].

Lemma src_doc_example n fuel orig out : (200 + fuel + length orig <= n)%nat -> Z.of_nat (length orig) < 2 ^ 62 ->
  match doc_loop C fuel orig with
  | Ok (chunks, remain) =>
      call (crate (drivers u)) n "doc_example" [pv; vbytes orig; VList out] =
      Done ([pv; vbytes orig; VList (out ++ printed chunks ++ printed_end remain)], VUnit)
  | Panic => call (crate (drivers u)) n "doc_example" [pv; vbytes orig; VList out] = Panics
  | Diverge => True
  end.
Proof.
  intros Hn HL. destruct HC as (Hf & (x & y & Hp) & Ht & Hs & HI0 & HI).
  assert (Hn' : (40 <= n)%nat) by lia. destruct (bump_ge _ _ Hn') as [m ->]. cbn [bump] in Hn.
  unfold params_of in Hp, Ht.
  enter. 
  rewrite Hs, Ht by lia. reduce.
  match goal with |- context [iter_loop ?k ?b ?rho] => set (body := b); assert (Hk : (fuel <= k)%nat) by lia; revert Hk; generalize k; intros rounds Hk end.
  set (E := fun s data (prev : nat) out => [("prev_cut"%string, vsize prev); ("ss"%string, enc s); ("data"%string, vbytes data);
    ("chunk"%string, pv); ("orig_data"%string, vbytes orig); ("stdout"%string, VList out)]).
  assert (S : forall s data prev out, Inv s -> (length data <= length orig)%nat ->
    body (E s data prev out) =
    match find_chunk_edge C s data with
    | Ok (s', (Some k, d)) =>
        match (g_cut <- sub_usize (k + length orig) (length data) ;; c <- sub_slice orig prev g_cut ;; r <- sub_slice data d (length data) ;; Ok (g_cut, c, r)) with
        | Ok (g_cut, c, r) => Done (E s' r g_cut (out ++ printed [c]), Value VUnit)
        | _ => Panics
        end
    | Ok (s', (None, d)) =>
        match sub_slice data d (length data) with
        | Ok r => Done (E s' data prev (out ++ printed_end r), Breaking)
        | _ => Panics
        end
    | Panic => Panics
    | Diverge => NoFuel
    end).
  { intros s data prev out' Hi Hd. unfold body, lock, E. reduce.
    rewrite Hf, Hp by (assumption || lia).
    destruct (find_chunk_edge C s data) as [[s' [[k|] d]]| |] eqn:Ef; unfold as_out; reduce; try reflexivity.
    - apply HA in Ef. destruct Ef as [Ed Ek].
      replace (_ <? 2 ^ 64) with true by (rewrite map_length; lia). reduce.
      replace (Z.of_nat (length (map vbyte data)) <=? _) with true by (rewrite !map_length; lia). reduce.
      rewrite (slice_bytes orig _ _ prev (k + length orig - length data)) by (rewrite ?map_length; lia).
      unfold sub_usize. replace (length data <=? k + length orig)%nat with true by lia. cbn [bind].
      destruct (sub_slice orig prev _) as [c| |] eqn:Ec; cbn [bind]; reduce; try reflexivity.
      rewrite (slice_bytes data _ _ d (length data)) by (rewrite ?map_length; lia).
      destruct (sub_slice data d _) as [r| |] eqn:Er; cbn [bind]; reduce; try reflexivity.
      rewrite !map_length. agree.
    - rewrite (slice_bytes data _ _ d (length data)) by (rewrite ?map_length; lia).
      destruct (sub_slice data d _) as [r| |] eqn:Er; reduce; try reflexivity.
      unfold printed_end. rewrite <- app_assoc. reflexivity. }
  clearbody body.
  assert (G : forall fuel rounds s data prev out, (fuel <= rounds)%nat -> Inv s -> (length data <= length orig)%nat ->
    match doc_loop_from C fuel orig s data prev with
    | Ok (chunks, remain) => exists s' d' p',
        iter_loop rounds body (E s data prev out) = Done (E s' d' p' (out ++ printed chunks ++ printed_end remain), Value VUnit)
    | Panic => iter_loop rounds body (E s data prev out) = Panics
    | Diverge => True
    end).
  { clear - S HI. intros fuel. induction fuel as [|fuel IH]; intros rounds s data prev out Hr Hi Hd; cbn [doc_loop_from]; [exact I|].
    destruct rounds as [|rounds]; [lia|]. cbn [iter_loop]. rewrite S by assumption.
    destruct (find_chunk_edge C s data) as [[s' [[k|] d]]| |] eqn:Ef; cbn [bind]; try reflexivity; try exact I.
    - destruct (sub_usize _ _) as [g| |]; cbn [bind]; try reflexivity; try exact I.
      destruct (sub_slice orig prev g) as [c| |]; cbn [bind]; try reflexivity; try exact I.
      destruct (sub_slice data d _) as [r| |] eqn:Er; cbn [bind]; try reflexivity; try exact I.
      apply HI in Ef; [|exact Hi]. apply sub_slice_len in Er.
      specialize (IH rounds s' r g (out ++ printed [c]) ltac:(lia) Ef ltac:(lia)).
      destruct (doc_loop_from C fuel orig s' r g) as [[chunks remain]| |]; cbn [bind]; [|exact IH|exact I].
      destruct IH as (s2 & d2 & p2 & ->). exists s2, d2, p2. unfold printed. cbn [map app]. rewrite <- app_assoc. reflexivity.
    - destruct (sub_slice data d _) as [r| |] eqn:Er; cbn [bind]; try reflexivity; try exact I.
      exists s', data, prev. reflexivity. }
  change [("prev_cut"%string, VInt Usize 0); ("ss"%string, enc (to_search_state C)); ("data"%string, vbytes orig); ("chunk"%string, pv);
    ("orig_data"%string, vbytes orig); ("stdout"%string, VList out)] with (E (to_search_state C) orig 0%nat out).
  specialize (G fuel rounds (to_search_state C) orig 0%nat out Hk HI0 (le_n _)).
  unfold doc_loop. destruct (doc_loop_from C fuel orig (to_search_state C) orig 0) as [[chunks remain]| |]; [| |exact I].
  - destruct G as (s' & d' & p' & ->). unfold E. reduce. reflexivity.
  - rewrite G. reflexivity.
Qed.
End Find.

(** ** tests/cuts.rs:37-98 *)

Section CutTest.
Variable u : program.
Variable pv : value.
Variable C : Chunk.
Variable enc : search_state C -> value.
Variable Inv : search_state C -> Prop.
Hypothesis HC : computes_chunk (crate (drivers u)) pv C enc Inv.
Hypothesis HA : answers_near C.
Variable T : string.
Variable CI : Incr.
Variable encI : incr_state CI -> value.
Variable InvI : incr_state CI -> Prop.
Hypothesis HCI : computes_incr (crate (drivers u)) pv T CI encI InvI.
Variable data : list byte.
Hypothesis HL : Z.of_nat (length data) < 2 ^ 62.

Lemma src_cut_test_sz n fuel seed size expected : gives_data u seed size data -> (200 + fuel + length data <= n)%nat ->
  let args := [seed; size; pv; vsizes expected] in
  match whole_splits C fuel data with
  | Ok a =>
      call (crate (drivers u)) n "cut_test_sz" args =
      match byte_splits CI data with
      | Ok b => if sizes_eqb a b && sizes_eqb expected a then Done (args, VUnit) else Panics
      | Panic => Panics
      | Diverge => NoFuel
      end
  | Panic => call (crate (drivers u)) n "cut_test_sz" args = Panics
  | Diverge => True
  end.
Proof.
  intros [Du Hu] Hn args. destruct HC as (Hf & (x & y & Hp) & Ht & Hs & HI0 & HI).
  destruct HCI as ((HTI & (xi & HpI) & HcI) & HtI & HsI & HI0I & HII).
  assert (Hn' : (40 <= n)%nat) by lia. destruct (bump_ge _ _ Hn') as [m ->]. cbn [bump] in Hn.
  unfold params_of in Hp, Ht, HpI, HtI, Du. unfold args.
  enter. rewrite Du. rewrite Hu by lia. reduce.
  rewrite Hs, Ht by lia. reduce.
  match goal with |- context [iter_loop ?k ?b ?rho] => set (body := b) end.
  set (E := fun s (di lc : nat) acc => [("last_chunk_idx"%string, vsize lc); ("discard_idx"%string, vsize di); ("state"%string, enc s); ("splits"%string, vsizes acc);
    ("buf"%string, vbytes data); ("seed"%string, seed); ("size"%string, size); ("chunker"%string, pv); ("expected_splits"%string, vsizes expected)]).
  assert (S : forall s di lc acc, Inv s -> (di <= length data + 1)%nat ->
    body (E s di lc acc) =
    match (b <- sub_slice data di (length data) ;; find_chunk_edge C s b) with
    | Ok (s', (Some k, d)) =>
        if Nat.ltb (di + k) lc then Panics
        else Done (E s' (di + d)%nat (di + k)%nat (acc ++ [(di + k - lc)%nat]), Value VUnit)
    | Ok (s', (None, d)) => Done (E s' di lc acc, Breaking)
    | Panic => Panics
    | Diverge => NoFuel
    end).
  { intros s di lc acc Hi Hd. unfold body, lock, E. reduce.
    rewrite (slice_bytes data _ _ di (length data)) by (rewrite ?map_length; lia).
    destruct (sub_slice data di (length data)) as [b| |] eqn:Eb; cbn [bind]; reduce; try reflexivity;
     [|unfold sub_slice in Eb; destruct (_ && _); discriminate].
    apply sub_slice_len in Eb.
    rewrite Hf, Hp by (assumption || lia).
    destruct (find_chunk_edge C s b) as [[s' [[k|] d]]| |] eqn:Ef; unfold as_out; reduce; try reflexivity.
    apply HA in Ef. destruct Ef as [Ed Ek].
    replace (Z.of_nat di + Z.of_nat k <? 2 ^ 64) with true by lia. reduce.
    destruct (Nat.ltb_spec (di + k) lc); [replace (Z.of_nat di + Z.of_nat k <? Z.of_nat lc) with true by lia|replace (Z.of_nat di + Z.of_nat k <? Z.of_nat lc) with false by lia]; reduce; try reflexivity.
    replace (Z.of_nat lc <=? Z.of_nat di + Z.of_nat k) with true by lia. reduce.
    replace (Z.of_nat di + Z.of_nat d <? 2 ^ 64) with true by lia. reduce.
    rewrite map_app. cbn [map]. agree. }
  clearbody body.
  assert (G : forall fuel rounds s di lc acc, (fuel <= rounds)%nat -> Inv s -> (di <= length data + 1)%nat ->
    match whole_splits_from C fuel data s di lc with
    | Ok ns => exists s' di' lc', iter_loop rounds body (E s di lc acc) = Done (E s' di' lc' (acc ++ ns), Value VUnit)
    | Panic => iter_loop rounds body (E s di lc acc) = Panics
    | Diverge => True
    end).
  { clear - S HI HA. intros fuel. induction fuel as [|fuel IH]; intros rounds s di lc acc Hr Hi Hd; cbn [whole_splits_from]; [exact I|].
    destruct rounds as [|rounds]; [lia|]. cbn [iter_loop]. rewrite S by assumption.
    destruct (sub_slice data di _) as [b| |] eqn:Eb; cbn [bind]; try reflexivity; try exact I.
    destruct (find_chunk_edge C s b) as [[s' [[k|] d]]| |] eqn:Ef; cbn [bind]; try reflexivity; try exact I.
    - destruct (Nat.ltb (di + k) lc); [reflexivity|].
      apply sub_slice_len in Eb. assert (N := HA _ _ _ _ _ Ef). apply HI in Ef; [|exact Hi].
      specialize (IH rounds s' (di + d)%nat (di + k)%nat (acc ++ [(di + k - lc)%nat]) ltac:(lia) Ef ltac:(lia)).
      destruct (whole_splits_from C fuel data s' _ _) as [ns| |]; cbn [bind]; [|exact IH|exact I].
      destruct IH as (s2 & d2 & p2 & ->). exists s2, d2, p2. rewrite <- app_assoc. reflexivity.
    - exists s', di, lc. rewrite app_nil_r. reflexivity. }
  change [("last_chunk_idx"%string, VInt Usize 0); ("discard_idx"%string, VInt Usize 0); ("state"%string, enc (to_search_state C)); ("splits"%string, VList []);
    ("buf"%string, vbytes data); ("seed"%string, seed); ("size"%string, size); ("chunker"%string, pv); ("expected_splits"%string, vsizes expected)]
    with (E (to_search_state C) 0%nat 0%nat []).
  match goal with |- context [iter_loop ?k body _] => specialize (G fuel k (to_search_state C) 0%nat 0%nat [] ltac:(lia) HI0 ltac:(lia)) end.
  unfold whole_splits. destruct (whole_splits_from C fuel data (to_search_state C) 0 0) as [a| |]; [|rewrite G; reflexivity|exact I].
  destruct G as (s0 & di' & lc' & ->). clear S. unfold E. clear E. reduce.
  rewrite HsI, HtI by lia. reduce. cbn [app].
  set (E := fun s acc (last : nat) => [("last_split"%string, vsize last); ("buf"%string, vbytes data); ("incr"%string, encI s); ("incr_splits"%string, vsizes acc);
    ("splits"%string, vsizes a); ("buf"%string, vbytes data); ("seed"%string, seed); ("size"%string, size); ("chunker"%string, pv); ("expected_splits"%string, vsizes expected)]).
  match goal with |- context [iter_enum ?b ?k ?l ?rho] => set (bodyI := b);
     pose proof (byte_loop CI InvI E bodyI HII) as G end.
  assert (S : forall s acc last i v, InvI s -> Z.of_nat i < 2 ^ 63 ->
  bodyI (E s acc last) (Z.of_nat i) (vbyte v) =
  match incr_push CI s [v] with
  | Ok (s', Some _) => match sub_usize (i + 1) last with Ok k => Done (E s' (acc ++ [k]) (i + 1)%nat, Value VUnit) | _ => Panics end
  | Ok (s', None) => Done (E s' acc last, Value VUnit)
  | Panic => Panics
  | Diverge => NoFuel
  end).
  { byte_body bodyI E CI HTI HpI HcI. }
  specialize (G S data 0%nat (incr_new CI) [] 0%nat HI0I ltac:(lia)). clearbody bodyI.
  unfold byte_splits. change (Z.of_nat 0) with 0 in G.
  destruct (byte_splits_from CI (incr_new CI) 0 0 data) as [ns| |]; [destruct G as (s2 & l2 & G)| |]; unfold E in G; cbn [map app] in G; change (VInt Usize 0) with (vsize 0); rewrite G; reduce; try reflexivity.
  rewrite !ints_eqb_sizes. destruct (sizes_eqb a ns); reduce; [|reflexivity]. rewrite ints_eqb_sizes. destruct (sizes_eqb expected a); reduce; reflexivity.
Qed.

(** [cut_test]: 4 times 8192 bytes. *)
Lemma src_cut_test n fuel seed expected : gives_data u seed (VInt Usize 32768) data -> (210 + fuel + length data <= n)%nat ->
  let args := [seed; pv; vsizes expected] in
  match whole_splits C fuel data with
  | Ok a =>
      call (crate (drivers u)) n "cut_test" args =
      match byte_splits CI data with
      | Ok b => if sizes_eqb a b && sizes_eqb expected a then Done (args, VUnit) else Panics
      | Panic => Panics
      | Diverge => NoFuel
      end
  | Panic => call (crate (drivers u)) n "cut_test" args = Panics
  | Diverge => True
  end.
Proof.
  intros Hu Hn args. assert (Hn' : (6 <= n)%nat) by lia. destruct (bump_ge _ _ Hn') as [m ->]. cbn [bump] in Hn.
  pose proof (fun k => src_cut_test_sz k fuel seed (VInt Usize 32768) expected Hu) as G. cbv zeta in G.
  unfold args. destruct (whole_splits C fuel data) as [a| |]; try exact I; enter;
    match goal with |- context [eval _ (lock ?k)] => specialize (G k ltac:(lia)) end; rewrite G;
    [destruct (byte_splits CI data) as [b| |]; [destruct (_ && _)| |]|]; reduce; reflexivity.
Qed.
End CutTest.

(** ** tests/cuts_qc.rs:11-65 *)

Section SplitsFce.
Variable u : program.
Variable pv : value.
Variable C : Chunk.
Variable enc : search_state C -> value.
Variable Inv : search_state C -> Prop.
Hypothesis HC : computes_chunk (crate (drivers u)) pv C enc Inv.
Hypothesis HA : answers_near C.

Lemma src_splits_fce n fuel data buf_sizes : (200 + fuel + length data <= n)%nat -> Z.of_nat (length data) < 2 ^ 62 ->
  Forall (fun k => Z.of_nat k < 2 ^ 62) buf_sizes -> Z.of_nat fuel < 2 ^ 62 ->
  let args := [pv; vbytes data; vsizes buf_sizes] in
  match splits_fce C fuel data buf_sizes with
  | Ok ns => call (crate (drivers u)) n "splits_fce" args = Done (args, vsizes ns)
  | Panic => call (crate (drivers u)) n "splits_fce" args = Panics
  | Diverge => True
  end.
Proof.
  intros Hn HL HB HF args. destruct HC as (Hf & (x & y & Hp) & Ht & Hs & HI0 & HI).
  assert (Hn' : (40 <= n)%nat) by lia. destruct (bump_ge _ _ Hn') as [m ->]. cbn [bump] in Hn.
  unfold params_of in Hp, Ht. unfold args.
  enter. rewrite Hs, Ht by lia. reduce.
  match goal with |- context [iter_loop ?k ?b ?rho] => set (body := b) end.
  set (E := fun s (i lsp cd pbs : nat) acc => [("prev_buf_size"%string, vsize pbs); ("curr_discard"%string, vsize cd); ("last_split_point"%string, vsize lsp);
    ("ss"%string, enc s); ("i"%string, vsize i); ("splits"%string, vsizes acc);
    ("chunker"%string, pv); ("buf"%string, vbytes data); ("buf_sizes"%string, vsizes buf_sizes)]).
  assert (S : forall s i lsp cd pbs acc, Inv s -> (cd <= length data + 1)%nat -> (pbs <= length data)%nat -> Z.of_nat i < 2 ^ 62 ->
    body (E s i lsp cd pbs acc) =
    if Nat.eqb (length data) cd then Done (E s i lsp cd pbs acc, Breaking)
    else match (bs <- (match length buf_sizes with O => Panic | n => index buf_sizes (i mod n) end) ;;
        room <- sub_usize (length data) cd ;;
        b <- sub_slice data cd (Nat.min (bs + pbs) room + cd) ;;
        r <- find_chunk_edge C s b ;; Ok (Nat.min (bs + pbs) room, room, r)) with
    | Ok (bs, room, (s', (Some k, d))) =>
        match sub_usize (cd + k) lsp with Ok l => Done (E s' (i + 1) (cd + k) (cd + d) 0 (acc ++ [l]), Value VUnit) | _ => Panics end%nat
    | Ok (bs, room, (s', (None, d))) =>
        if Nat.eqb bs room then Done (E s' (i + 1)%nat lsp cd pbs acc, Breaking)
        else Done (E s' (i + 1)%nat lsp (cd + d)%nat bs acc, Value VUnit)
    | Panic => Panics
    | Diverge => NoFuel
    end).
  { intros s i lsp cd pbs acc Hi Hd Hb Hi2. unfold body, lock, E. reduce. rewrite map_length.
    destruct (Nat.eqb_spec (length data) cd) as [Ec|Ec]; [replace (Z.of_nat (length data) =? Z.of_nat cd) with true by lia|replace (Z.of_nat (length data) =? Z.of_nat cd) with false by lia]; reduce; try reflexivity.
    rewrite (map_length vsize). unfold index.
    destruct (Nat.eq_dec (length buf_sizes) 0) as [E0|E0].
    { rewrite E0. reduce. reflexivity. }
    replace (Z.of_nat (length buf_sizes) =? 0) with false by lia. reduce.
    rewrite <- Nat2Z.inj_mod, Nat2Z.id, nth_error_map.
    replace (match length buf_sizes with O => Panic | n => match nth_error buf_sizes (i mod n) with Some a => Ok a | None => Panic end end)
      with (match nth_error buf_sizes (i mod length buf_sizes) with Some a => Ok a | None => Panic end) by (destruct (length buf_sizes); [congruence|reflexivity]).
    destruct (nth_error buf_sizes (i mod length buf_sizes)) as [bs|] eqn:En; cbn [option_map bind]; reduce; [|reflexivity].
    apply nth_error_In in En. rewrite Forall_forall in HB. apply HB in En.
    replace (Z.of_nat bs + Z.of_nat pbs <? 2 ^ 64) with true by lia. reduce.
    replace (Z.of_nat i + 1 <? 2 ^ 64) with true by lia. reduce.
    rewrite map_length. unfold sub_usize.
    destruct (Nat.leb_spec cd (length data)) as [Lc|Lc]; [replace (Z.of_nat cd <=? Z.of_nat (length data)) with true by lia|replace (Z.of_nat cd <=? Z.of_nat (length data)) with false by lia]; cbn [bind]; reduce; [|reflexivity].
    replace (Z.min (Z.of_nat bs + Z.of_nat pbs) (Z.of_nat (length data) - Z.of_nat cd)) with (Z.of_nat (Nat.min (bs + pbs) (length data - cd))) by lia.
    set (bz := Nat.min (bs + pbs) (length data - cd)). assert (Hz : (bz <= length data - cd)%nat) by apply Nat.le_min_r. clearbody bz.
    replace (Z.of_nat bz + Z.of_nat cd <? 2 ^ 64) with true by lia. reduce.
    rewrite (slice_bytes data _ _ cd (bz + cd)) by lia.
    destruct (sub_slice data cd (bz + cd)) as [b| |] eqn:Eb; cbn [bind]; reduce; try reflexivity;
     [|unfold sub_slice in Eb; destruct (_ && _); discriminate].
    apply sub_slice_len in Eb.
    rewrite Hf, Hp by (assumption || lia).
    destruct (find_chunk_edge C s b) as [[s' [[k|] d]]| |] eqn:Ef; unfold as_out; cbn [bind]; reduce; try reflexivity; apply HA in Ef; destruct Ef as [Ed Ek];
    (replace (Z.of_nat cd + Z.of_nat d <? 2 ^ 64) with true by lia); reduce.
    - replace (Z.of_nat cd + Z.of_nat k <? 2 ^ 64) with true by lia. reduce.
      destruct (Nat.leb_spec lsp (cd + k)); [replace (Z.of_nat lsp <=? Z.of_nat cd + Z.of_nat k) with true by lia|replace (Z.of_nat lsp <=? Z.of_nat cd + Z.of_nat k) with false by lia]; reduce; try reflexivity.
      replace (Z.of_nat cd + Z.of_nat d <? 2 ^ 64) with true by lia; reduce.
      rewrite map_app. cbn [map]. agree.
    - rewrite map_length. replace (Z.of_nat cd <=? Z.of_nat (length data)) with true by lia. reduce.
      destruct (Nat.eqb_spec bz (length data - cd)); [replace (Z.of_nat bz =? Z.of_nat (length data) - Z.of_nat cd) with true by lia|replace (Z.of_nat bz =? Z.of_nat (length data) - Z.of_nat cd) with false by lia]; reduce.
      + agree.
      + replace (Z.of_nat cd + Z.of_nat d <? 2 ^ 64) with true by lia; reduce. agree. }
  clearbody body.
  assert (G : forall fuel rounds s i lsp cd pbs acc, (fuel <= rounds)%nat -> Inv s -> (cd <= length data + 1)%nat -> (pbs <= length data)%nat -> Z.of_nat (i + fuel) < 2 ^ 62 ->
    match splits_fce_from C fuel data buf_sizes i s lsp cd pbs with
    | Ok ns => exists s' i' lsp' cd' pbs', iter_loop rounds body (E s i lsp cd pbs acc) = Done (E s' i' lsp' cd' pbs' (acc ++ ns), Value VUnit)
    | Panic => iter_loop rounds body (E s i lsp cd pbs acc) = Panics
    | Diverge => True
    end).
  { clear - S HI HA. intros fuel. induction fuel as [|fuel IH]; intros rounds s i lsp cd pbs acc Hr Hi Hd Hb Hf; cbn [splits_fce_from]; [exact I|].
    destruct rounds as [|rounds]; [lia|]. cbn [iter_loop]. rewrite S by (assumption || lia).
    destruct (Nat.eqb (length data) cd). { exists s, i, lsp, cd, pbs. rewrite app_nil_r. reflexivity. }
    destruct (match length buf_sizes with O => Panic | _ => _ end) as [bs| |]; cbn [bind]; try reflexivity; try exact I.
    destruct (sub_usize (length data) cd) as [room| |] eqn:Er; cbn [bind]; try reflexivity; try exact I.
    unfold sub_usize in Er. destruct (Nat.leb_spec cd (length data)) as [Lc|Lc]; [|discriminate]. injection Er as <-.
    set (bz := Nat.min (bs + pbs) (length data - cd)). assert (Hz : (bz <= length data - cd)%nat) by apply Nat.le_min_r. clearbody bz.
    destruct (sub_slice data cd _) as [b| |] eqn:Eb; cbn [bind]; try reflexivity; try exact I.
    destruct (find_chunk_edge C s b) as [[s' [[k|] d]]| |] eqn:Ef; cbn [bind]; try reflexivity; try exact I;
      apply sub_slice_len in Eb; assert (N := HA _ _ _ _ _ Ef); (apply HI in Ef; [|exact Hi]).
    - destruct (sub_usize (cd + k) lsp) as [l| |] eqn:El; cbn [bind]; try reflexivity; try exact I.
      specialize (IH rounds s' (i + 1)%nat (cd + k)%nat (cd + d)%nat 0%nat (acc ++ [l]) ltac:(lia) Ef ltac:(lia) ltac:(lia) ltac:(lia)).
      destruct (splits_fce_from C fuel data buf_sizes _ s' _ _ _) as [ns| |]; cbn [bind]; [|exact IH|exact I].
      destruct IH as (s2 & i2 & l2 & c2 & p2 & ->). exists s2, i2, l2, c2, p2. rewrite <- app_assoc. reflexivity.
    - destruct (Nat.eqb bz _). { exists s', (i + 1)%nat, lsp, cd, pbs. rewrite app_nil_r. reflexivity. }
      specialize (IH rounds s' (i + 1)%nat lsp (cd + d)%nat bz acc ltac:(lia) Ef ltac:(lia) ltac:(lia) ltac:(lia)).
      exact IH. }
  change [("prev_buf_size"%string, VInt Usize 0); ("curr_discard"%string, VInt Usize 0); ("last_split_point"%string, VInt Usize 0);
    ("ss"%string, enc (to_search_state C)); ("i"%string, VInt Usize 0); ("splits"%string, VList []);
    ("chunker"%string, pv); ("buf"%string, vbytes data); ("buf_sizes"%string, vsizes buf_sizes)] with (E (to_search_state C) 0%nat 0%nat 0%nat 0%nat []).
  match goal with |- context [iter_loop ?k body _] => specialize (G fuel k (to_search_state C) 0%nat 0%nat 0%nat 0%nat [] ltac:(lia) HI0 ltac:(lia) ltac:(lia) ltac:(lia)) end.
  unfold splits_fce. destruct (splits_fce_from C fuel data buf_sizes 0 (to_search_state C) 0 0 0) as [a| |]; [|rewrite G; reflexivity|exact I].
  destruct G as (s0 & i0 & l0 & c0 & p0 & ->). unfold E. reduce. reflexivity.
Qed.
End SplitsFce.

(** ** tests/fastcdc.rs *)

Definition oracle_env (data : list byte) (nz nn : Z) (fp : Z) : env :=
  [("normal_size"%string, VInt Usize nz); ("n"%string, VInt Usize nn); ("fp"%string, VWrap U64 fp); ("NORMAL_SIZE"%string, VInt U64 8192);
   ("MAX_SIZE"%string, VInt U64 65536); ("MIN_SIZE"%string, VInt U64 2048); ("MASK_L"%string, VInt U64 238594078998528);
   ("MASK_S"%string, VInt U64 942311585546240); ("src"%string, vbytes data)].

Ltac sim_from Inv env_of v model_body lo cnt s :=
  match goal with
  | |- context [iter_range ?b ?zlo ?n ?rho] =>
      let H := fresh "Hloop" in
      assert (H : iter_range b zlo n rho = lift_loop env_of env_of v (for_range model_body lo cnt s));
      [ let Hz := fresh in let Hn := fresh in
        assert (Hz : zlo = Z.of_nat lo) by lia; assert (Hn : n = cnt) by lia;
        refine (eq_trans (f_equal2 (fun z c => iter_range b z c rho) Hz Hn) _); clear Hz Hn;
        refine (iter_range_sim Inv env_of env_of v model_body b lo (lo + cnt) _ cnt lo s _ (le_n lo) (le_n (lo + cnt)))
      | rewrite H; clear H ]
  end.
Ltac oracle_body data :=
  let fp := fresh "fp" in let i := fresh "i" in let b := fresh "b" in let Eb := fresh "Eb" in
  intros fp i _ ?; split; [|intros; exact I]; unfold lock, oracle_env; reduce; enter;
  rewrite (nth_vbyte _ _ i) by lia; unfold fast_cdc_8kb_body, index;
  destruct (nth_error data i) as [b|] eqn:Eb; unfold option_map; cbn [bind]; reduce; [|reflexivity];
  rewrite byte_mod, nth_error_map by lia;
  destruct (nth_error GEAR_64 (Z.to_nat (b2z b))) as [g|]; unfold option_map; cbn [bind]; reduce; [|reflexivity];
  unfold wrap64, two64, oracle_env; decide_if; reduce; reflexivity.
Ltac oracle_second data nz nn znz znn fp :=
  sim_from (fun _ : Z => True) (oracle_env data znz znn) vsize (fast_cdc_8kb_body GEAR_64 238594078998528 data) nz (nn - nz)%nat fp; [oracle_body data|exact I|];
  destruct (for_range _ nz _ fp) as [[?|? ?|?]| |]; cbn [lift_loop bind]; unfold oracle_env; reduce; try reflexivity;
  unfold as_out;
  [destruct (Nat.eqb_spec nn (Z.to_nat 65536)); [first [replace (znn =? 65536) with true by lia | idtac]|first [replace (znn =? 65536) with false by lia | exfalso; lia]]; reduce; unfold vsize; do 3 f_equal; lia ..].

Section FastCdcTests.
Variable u : program.

Lemma src_fast_cdc_8kb n data : (100 <= n)%nat -> Z.of_nat (length data) < 2 ^ 64 ->
  call (crate (drivers u)) n "fast_cdc_8kb" [vbytes data] = as_out (fun k => ([vbytes data], vsize k)) (fast_cdc_8kb GEAR_64 data).
Proof.
  intros Hn HL. assert (Hn' : (40 <= n)%nat) by lia. destruct (bump_ge _ _ Hn') as [m ->]. cbn [bump] in Hn.
  enter. rewrite map_length. unfold fast_cdc_8kb. cbv zeta.
  replace (Nat.leb (length data) (Z.to_nat 2048)) with (Z.of_nat (length data) <=? 2048) by lia.
  destruct (Z.of_nat (length data) <=? 2048) eqn:E1; reduce; [reflexivity|].
  replace (Nat.leb (Z.to_nat 65536) (length data)) with (65536 <=? Z.of_nat (length data)) by lia.
  replace (Nat.leb (length data) (Z.to_nat 8192)) with (Z.of_nat (length data) <=? 8192) by lia.
  destruct (65536 <=? Z.of_nat (length data)) eqn:E2; reduce; [|destruct (Z.of_nat (length data) <=? 8192) eqn:E3; reduce].
  - sim_from (fun _ : Z => True) (oracle_env data 8192 65536) vsize (fast_cdc_8kb_body GEAR_64 942311585546240 data) (Z.to_nat 2048) (Z.to_nat 8192 - Z.to_nat 2048)%nat 0; [oracle_body data|exact I|].
    change 0x0003590703530000 with 942311585546240. change 0x0000d90003530000 with 238594078998528.
    destruct (for_range _ (Z.to_nat 2048) _ 0) as [[fp|fp k|fp]| |]; cbn [lift_loop bind]; unfold oracle_env; reduce; try reflexivity.
    + oracle_second data (Z.to_nat 8192) (Z.to_nat 65536) 8192 65536 fp.
    + oracle_second data (Z.to_nat 8192) (Z.to_nat 65536) 8192 65536 fp.
  - sim_from (fun _ : Z => True) (oracle_env data (Z.of_nat (length data)) (Z.of_nat (length data))) vsize (fast_cdc_8kb_body GEAR_64 942311585546240 data) (Z.to_nat 2048) (length data - Z.to_nat 2048)%nat 0; [oracle_body data|exact I|].
    change 0x0003590703530000 with 942311585546240. change 0x0000d90003530000 with 238594078998528.
    destruct (for_range _ (Z.to_nat 2048) _ 0) as [[fp|fp k|fp]| |]; cbn [lift_loop bind]; unfold oracle_env; reduce; try reflexivity.
    + oracle_second data (length data) (length data) (Z.of_nat (length data)) (Z.of_nat (length data)) fp.
    + oracle_second data (length data) (length data) (Z.of_nat (length data)) (Z.of_nat (length data)) fp.
  - sim_from (fun _ : Z => True) (oracle_env data 8192 (Z.of_nat (length data))) vsize (fast_cdc_8kb_body GEAR_64 942311585546240 data) (Z.to_nat 2048) (Z.to_nat 8192 - Z.to_nat 2048)%nat 0; [oracle_body data|exact I|].
    change 0x0003590703530000 with 942311585546240. change 0x0000d90003530000 with 238594078998528.
    destruct (for_range _ (Z.to_nat 2048) _ 0) as [[fp|fp k|fp]| |]; cbn [lift_loop bind]; unfold oracle_env; reduce; try reflexivity.
    + oracle_second data (Z.to_nat 8192) (length data) 8192 (Z.of_nat (length data)) fp.
    + oracle_second data (Z.to_nat 8192) (length data) 8192 (Z.of_nat (length data)) fp.
Qed.

(** The oracle says what [push] says, so both tests pass (C57). *)
Lemma src_oracle_1 n data ty : (200 + length data <= n)%nat -> Z.of_nat (length data) < 2 ^ 64 ->
  call (crate (drivers u)) n "oracle_1" [VStruct ty [("data"%string, vbytes data)]] = Done ([VStruct ty [("data"%string, vbytes data)]], VBool true).
Proof.
  intros Hn HL. assert (Hn' : (40 <= n)%nat) by lia. destruct (bump_ge _ _ Hn') as [m ->]. cbn [bump] in Hn.
  destruct (oracle_push data HL) as (s & o & Ep & Eo).
  pose proof (fun k => src_fastcdc_push (drivers u) k fastcdc_default fastcdc_state_default data) as P.
  change fastcdc_state_default with (incr_new (fastcdc_incr fastcdc_default)) in P. rewrite Ep in P. cbn [as_out] in P.
  enter. rewrite src_fc_incr_default by lia. reduce. rewrite src_fast_cdc_8kb, Eo by lia. unfold as_out. reduce.
  cbn [type_of enc_FcIncr append]. look. cbn [fn_params]. 
  match goal with |- context [eval _ (lock ?k)] => specialize (P k ltac:(lia) HL ltac:(cbn; lia) ltac:(cbn; lia)) end.
  change (incr_new (fastcdc_incr fastcdc_default)) with fastcdc_state_default in P. rewrite P. clear P.
  reduce. destruct o as [k|]; unfold vopt; reduce; [replace (Z.of_nat k =? Z.of_nat k) with true by lia|]; reflexivity.
Qed.

Lemma src_oracle_1_test n data : (200 + length data <= n)%nat -> Z.of_nat (length data) < 2 ^ 64 ->
  call (crate (drivers u)) n "oracle_1_test" [vbytes data] = Done ([vbytes data], VUnit).
Proof.
  intros Hn HL. assert (Hn' : (40 <= n)%nat) by lia. destruct (bump_ge _ _ Hn') as [m ->]. cbn [bump] in Hn.
  destruct (oracle_push data HL) as (s & o & Ep & Eo).
  pose proof (fun k => src_fastcdc_push (drivers u) k fastcdc_default fastcdc_state_default data) as P.
  change fastcdc_state_default with (incr_new (fastcdc_incr fastcdc_default)) in P. rewrite Ep in P. cbn [as_out] in P.
  enter. rewrite src_fc_incr_default by lia. reduce. rewrite src_fast_cdc_8kb, Eo by lia. unfold as_out. reduce.
  cbn [type_of enc_FcIncr append]. look. cbn [fn_params]. 
  match goal with |- context [eval _ (lock ?k)] => specialize (P k ltac:(lia) HL ltac:(cbn; lia) ltac:(cbn; lia)) end.
  change (incr_new (fastcdc_incr fastcdc_default)) with fastcdc_state_default in P. rewrite P. clear P.
  reduce. destruct o as [k|]; unfold vopt; reduce; [replace (Z.of_nat k =? Z.of_nat k) with true by lia|]; reflexivity.
Qed.

(** [feed_until_5_chunks] with a generator that fills the buffer with the blocks of any stream, one after the other. *)
Variable blocks : nat -> list byte.
Definition vrng (i : nat) : value := VStruct "Rng" [("next"%string, vsize i)].
Hypothesis Hnew : u "thread_rng"%string = Some (Given [] (fun vs => Done (vs, vrng 0))).
Hypothesis Hfill : u "Rng::fill_bytes"%string = Some (Given [("self"%string, true); ("dest"%string, true)] (fun vs =>
  match vs with
  | [VStruct _ [(_, VInt Usize z)]; _] => Done ([vrng (S (Z.to_nat z)); vbytes (blocks (Z.to_nat z))], VUnit)
  | _ => Stuck
  end)).
Hypothesis Hblocks : forall i, length (blocks i) = 256%nat.

Notation CF := (fastcdc_incr fastcdc_default).

Lemma src_thread_rng k : call (crate (drivers u)) k "thread_rng" [] = Done ([], vrng 0).
Proof. enter. rewrite Hnew. reflexivity. Qed.

Lemma src_fill_bytes k i d : call (crate (drivers u)) k "Rng::fill_bytes" [vrng i; d] = Done ([vrng (S i); vbytes (blocks i)], VUnit).
Proof. enter. rewrite Hfill. unfold vrng. reduce. rewrite Nat2Z.id. reflexivity. Qed.

Lemma src_feed_until_5_chunks n fuel N : (500 + fuel <= n)%nat ->
  match feed_until_5_chunks CF fuel (map blocks (List.seq 1 N)) with
  | Ok Enough => (500 + N <= n)%nat -> call (crate (drivers u)) n "feed_until_5_chunks" [] = Done ([], VUnit)
  | Ok (Hungry _ _) => (n <= N)%nat -> call (crate (drivers u)) n "feed_until_5_chunks" [] = NoFuel
  | Panic => (500 + N <= n)%nat -> call (crate (drivers u)) n "feed_until_5_chunks" [] = Panics
  | Diverge => True
  end.
Proof.
  intros Hn. remember (call (crate (drivers u)) n "feed_until_5_chunks" []) as X eqn:HX. revert HX.
  assert (Hn' : (40 <= n)%nat) by lia. destruct (bump_ge _ _ Hn') as [m ->]. cbn [bump] in *.
  enter. rewrite src_fc_incr_default by lia. reduce. rewrite src_thread_rng, Hnew. reduce.
  cbn [type_of vrng append]. look. look_driver. rewrite Hfill, src_fill_bytes. reduce.
  match goal with |- context [iter_loop ?k ?b ?rho] => set (body := b) end.
  set (E := fun s (ct i : nat) d => [("d"%string, d); ("rng"%string, vrng i); ("ct"%string, VInt U32 (Z.of_nat ct)); ("cdc"%string, enc_FcIncr fastcdc_default s)]).
  assert (S1 : forall s ct i d, 0 <= fc_l s -> (ct <= 5)%nat ->
    match feed_block CF fuel s ct (blocks i) with
    | Ok Enough => exists s' ct' i' d', body (E s ct i d) = Done (E s' ct' i' d', Returning VUnit)
    | Ok (Hungry s' ct') => body (E s ct i d) = Done (E s' ct' (S i) (vbytes (blocks i)), Value VUnit) /\ 0 <= fc_l s' /\ (ct' <= 5)%nat
    | Panic => body (E s ct i d) = Panics
    | Diverge => True
    end).
  { intros s ct i d Hs Hct. remember (body (E s ct i d)) as Y eqn:HY. revert HY. unfold body, lock, E. reduce.
    cbn [type_of vrng append]. look. look_driver. rewrite Hfill, src_fill_bytes. reduce.
    match goal with |- context [iter_loop ?k ?b ?rho] => set (inner := b) end.
    set (EI := fun s (ct : nat) data => [("data"%string, vbytes data); ("d"%string, vbytes (blocks i)); ("rng"%string, vrng (S i)); ("ct"%string, VInt U32 (Z.of_nat ct)); ("cdc"%string, enc_FcIncr fastcdc_default s)]).
    assert (S2 : forall s ct data, 0 <= fc_l s -> (ct <= 5)%nat -> (length data <= 256)%nat ->
      inner (EI s ct data) =
      match incr_push CF s data with
      | Ok (s', None) => Done (EI s' ct data, Breaking)
      | Ok (s', Some k) =>
          if Nat.eqb k (length data) then Done (EI s' ct data, Breaking)
          else if Nat.ltb 5 (ct + 1) then Done (EI s' (ct + 1)%nat data, Returning VUnit)
          else match sub_slice data k (length data) with Ok r => Done (EI s' (ct + 1)%nat r, Value VUnit) | _ => Panics end
      | Panic => Panics
      | Diverge => NoFuel
      end).
    { clear s ct d Hs Hct. intros s ct data Hs Hct Hd. unfold inner, lock, EI. reduce.
      cbn [type_of enc_FcIncr append]. look. cbn [fn_params].
      change (VStruct "FastCdcIncr" [("params"%string, enc_FastCdc fastcdc_default); ("state"%string, enc_FcState s)]) with (enc_FcIncr fastcdc_default s).
      rewrite src_fastcdc_push by (assumption || lia || (cbn; lia)).
      destruct (incr_push CF s data) as [[s' [k|]]| |]; unfold as_out; reduce; try reflexivity.
      rewrite map_length.
      destruct (Nat.eqb_spec k (length data)); [replace (Z.of_nat k =? Z.of_nat (length data)) with true by lia|replace (Z.of_nat k =? Z.of_nat (length data)) with false by lia]; reduce; [reflexivity|].
      replace (Z.of_nat ct + 1 <? 2 ^ 32) with true by lia. reduce.
      destruct (Nat.ltb_spec 5 (ct + 1)); [replace (5 <? Z.of_nat ct + 1) with true by lia|replace (5 <? Z.of_nat ct + 1) with false by lia]; reduce; [agree|].
      rewrite (slice_bytes data _ _ k (length data)) by (rewrite ?map_length; lia).
      destruct (sub_slice data k (length data)) as [r| |]; reduce; try reflexivity. agree. }
    clearbody inner.
    match goal with |- context [iter_loop ?k inner _] => set (rounds := k); assert (Hr : (fuel <= rounds)%nat) by (unfold rounds; lia); clearbody rounds end.
    assert (G : forall f r s ct data, (f <= r)%nat -> 0 <= fc_l s -> (ct <= 5)%nat -> (length data <= 256)%nat ->
      match feed_block CF f s ct data with
      | Ok Enough => exists s' ct' data', iter_loop r inner (EI s ct data) = Done (EI s' ct' data', Returning VUnit)
      | Ok (Hungry s' ct') => (exists data', iter_loop r inner (EI s ct data) = Done (EI s' ct' data', Value VUnit)) /\ 0 <= fc_l s' /\ (ct' <= 5)%nat
      | Panic => iter_loop r inner (EI s ct data) = Panics
      | Diverge => True
      end).
    { clear - S2. intros f. induction f as [|f IH]; intros r s ct data Hr Hs Hct Hd; cbn [feed_block]; [exact I|].
      destruct r as [|r]; [lia|]. cbn [iter_loop]. rewrite S2 by assumption.
      destruct (incr_push CF s data) as [[s' [k|]]| |] eqn:Ep; cbn [bind]; try reflexivity; try exact I; try (assert (Hs' : 0 <= fc_l s') by exact (fastcdc_keeps _ _ _ _ _ Hs Ep)).
      - destruct (Nat.eqb k (length data)); [eauto|]. destruct (Nat.ltb_spec 5 (ct + 1)); [eauto|].
        destruct (sub_slice data k (length data)) as [rest| |] eqn:Er; cbn [bind]; try reflexivity; try exact I.
        apply sub_slice_len in Er. apply IH; (assumption || lia).
      - eauto. }
    change [("data"%string, vbytes (blocks i)); ("d"%string, vbytes (blocks i)); ("rng"%string, vrng (S i)); ("ct"%string, VInt U32 (Z.of_nat ct)); ("cdc"%string, enc_FcIncr fastcdc_default s)] with (EI s ct (blocks i)).
    specialize (G fuel rounds s ct (blocks i) Hr Hs Hct ltac:(rewrite Hblocks; lia)).
    destruct (feed_block CF fuel s ct (blocks i)) as [[|s' ct']| |]; intros ->; try exact I.
    - destruct G as (s' & ct' & data' & ->). exists s', ct', (S i), (vbytes (blocks i)). unfold EI. reduce. reflexivity.
    - destruct G as ((data' & ->) & Hs' & Hct'). unfold EI. reduce. auto.
    - rewrite G. reflexivity. }
  clearbody body.
  match goal with |- context [iter_loop ?k body _] => set (rounds := k) end.
  assert (G : forall N rounds s ct j d, 0 <= fc_l s -> (ct <= 5)%nat ->
    match feed_from CF fuel s ct (map blocks (List.seq j N)) with
    | Ok Enough => (N <= rounds)%nat -> exists s' ct' i' d', iter_loop rounds body (E s ct j d) = Done (E s' ct' i' d', Returning VUnit)
    | Ok (Hungry _ _) => (rounds <= N)%nat -> iter_loop rounds body (E s ct j d) = NoFuel
    | Panic => (N <= rounds)%nat -> iter_loop rounds body (E s ct j d) = Panics
    | Diverge => True
    end).
  { clear - S1. intros N. induction N as [|N IH]; intros rounds s ct j d Hs Hct; cbn [List.seq map feed_from].
    - intros H. replace rounds with 0%nat by lia. reflexivity.
    - specialize (S1 s ct j d Hs Hct). destruct (feed_block CF fuel s ct (blocks j)) as [[|s' ct']| |]; cbn [bind]; try exact I.
      + destruct S1 as (s' & ct' & i' & d' & S1). intros H. destruct rounds as [|r]; [lia|]. cbn [iter_loop]. rewrite S1. eauto 6.
      + destruct S1 as (S1 & Hs' & Hct').
        destruct (feed_from CF fuel s' ct' (map blocks (List.seq (S j) N))) as [[|s2 ct2]| |] eqn:Ef; try exact I;
        intros H; (destruct rounds as [|r]; [solve [lia|reflexivity]|]); cbn [iter_loop]; rewrite S1;
        specialize (IH r s' ct' (S j) (vbytes (blocks j)) Hs' Hct'); rewrite Ef in IH; apply IH; lia.
      + intros H. destruct rounds as [|r]; [lia|]. cbn [iter_loop]. rewrite S1. reflexivity. }
  change [("d"%string, vbytes (blocks 0)); ("rng"%string, vrng 1); ("ct"%string, VInt U32 0); ("cdc"%string, enc_FcIncr fastcdc_default fastcdc_state_default)]
    with (E fastcdc_state_default 0%nat 1%nat (vbytes (blocks 0))).
  specialize (G N rounds fastcdc_state_default 0%nat 1%nat (vbytes (blocks 0)) ltac:(cbn; lia) ltac:(lia)).
  unfold feed_until_5_chunks. change (incr_new CF) with fastcdc_state_default. clear Hn Hn'. clearbody rounds.
  destruct (feed_from CF fuel fastcdc_state_default 0 (map blocks (List.seq 1 N))) as [[|s2 ct2]| |]; intros ->; try exact I; intros H.
  - destruct G as (s' & ct' & i' & d' & ->); [lia|]. reflexivity.
  - rewrite G by lia. reflexivity.
  - rewrite G by lia. reflexivity.
Qed.
End FastCdcTests.
