(** * RustFastCdc: the text of src/fastcdc.rs computes what the model in FastCdc.v computes. *)

From Coq Require Import String ZifyBool ZifyNat.
From Verif Require Import Base Api Tables Answers FastCdc Rust RustText RustSim.
Open Scope list_scope.
Open Scope Z_scope.

Definition enc_FastCdc (p : FastCdc) : value :=
  VStruct "FastCdc" [("gear"%string, VList (map (VInt U64) (fc_gear p))); ("min_size"%string, VInt U64 (fc_min_size p));
                     ("max_size"%string, VInt U64 (fc_max_size p)); ("normal_size"%string, VInt U64 (fc_normal_size p))].
Definition enc_FcState (s : FastCdcState) : value :=
  VStruct "FastCdcState" [("l"%string, VInt U64 (fc_l s)); ("fp"%string, VWrap U64 (fc_fp s))].
Definition enc_FcIncr (p : FastCdc) (s : FastCdcState) : value :=
  VStruct "FastCdcIncr" [("params"%string, enc_FastCdc p); ("state"%string, enc_FcState s)].

Ltac reduce_hook ::=
  cbn beta iota zeta delta
    [enc_FastCdc enc_FcState enc_FcIncr type_of get_field set_field assoc assoc_set String.eqb Ascii.eqb Bool.eqb obind
     fc_gear fc_min_size fc_max_size fc_normal_size fc_l fc_fp].

Section Crate.
Variable u : program.

(** ** Construction *)

Lemma src_fastcdc_new n gear lo nrm hi : (20 <= n)%nat ->
  call (crate u) n "FastCdc::new" [VList (map (VInt U64) gear); VInt U64 lo; VInt U64 nrm; VInt U64 hi] =
  Done ([VList (map (VInt U64) gear); VInt U64 lo; VInt U64 nrm; VInt U64 hi], enc_FastCdc (fastcdc_new gear lo nrm hi)).
Proof. start. enter. reflexivity. Qed.

Lemma src_fastcdc_default n : (20 <= n)%nat -> call (crate u) n "FastCdc::default" [] = Done ([], enc_FastCdc fastcdc_default).
Proof. start. enter. repeat (decide_if; [|exfalso; lia]; reduce). run. reflexivity. Qed.

Lemma src_fc_state_default n : (20 <= n)%nat -> call (crate u) n "FastCdcState::default" [] = Done ([], enc_FcState fastcdc_state_default).
Proof. start. enter. reflexivity. Qed.

Lemma src_fastcdc_to_search_state n p : (40 <= n)%nat ->
  call (crate u) n "FastCdc::to_search_state" [enc_FastCdc p] = Done ([enc_FastCdc p], enc_FcState (to_search_state (fastcdc_chunk p))).
Proof. start. enter. rewrite src_fc_state_default by lia. reduce. reflexivity. Qed.

Lemma src_fc_incr_from n p : (40 <= n)%nat ->
  call (crate u) n "FastCdcIncr::from<&FastCdc>" [enc_FastCdc p] = Done ([enc_FastCdc p], enc_FcIncr p fastcdc_state_default).
Proof. start. enter. rewrite src_fc_state_default by lia. reduce. reflexivity. Qed.

Lemma src_fastcdc_to_chunk_incr n p : (60 <= n)%nat ->
  call (crate u) n "FastCdc::to_chunk_incr" [enc_FastCdc p] = Done ([enc_FastCdc p], enc_FcIncr p (incr_new (fastcdc_incr p))).
Proof. start. enter. rewrite src_fc_incr_from by lia. reduce. reflexivity. Qed.

Lemma src_fc_incr_default n : (40 <= n)%nat ->
  call (crate u) n "FastCdcIncr::default" [] = Done ([], enc_FcIncr fastcdc_default fastcdc_state_default).
Proof.
  start. enter. rewrite src_fastcdc_default by lia. reduce. rewrite src_fc_state_default by lia. reduce. reflexivity.
Qed.

Lemma ints_eqb_map a : forall b, ints_eqb (map (VInt U64) a) (map (VInt U64) b) = Done (list_Z_eqb a b).
Proof.
  induction a as [|x a IH]; intros [|y b]; cbn [map ints_eqb list_Z_eqb ity_eqb]; try reflexivity.
  destruct (x =? y); cbn [andb]; [apply IH | reflexivity].
Qed.

Lemma src_fastcdc_eq n p q : (20 <= n)%nat ->
  call (crate u) n "FastCdc::eq" [enc_FastCdc p; enc_FastCdc q] = Done ([enc_FastCdc p; enc_FastCdc q], VBool (fastcdc_eqb p q)).
Proof.
  start. enter. unfold fastcdc_eqb.
  destruct (fc_min_size p =? fc_min_size q); reduce; [|reflexivity].
  destruct (fc_max_size p =? fc_max_size q); reduce; [|reflexivity].
  destruct (fc_normal_size p =? fc_normal_size q); reduce; [|reflexivity].
  rewrite ints_eqb_map. reduce. reflexivity.
Qed.

Lemma src_fc_state_reset n s : (20 <= n)%nat ->
  call (crate u) n "FastCdcState::reset" [enc_FcState s] = Done ([enc_FcState (fastcdc_state_reset s)], VUnit).
Proof. start. enter. reflexivity. Qed.

(** ** push *)

(** The bodies of the two loops, as they stand in the text. *)
Definition fc_loop_text (k : nat) : expr :=
  match find_fn text "FastCdcState::push" with
  | Some f =>
      match fn_body f with
      | Block es => match nth_error es k with Some (Loop b) => b | _ => Rust.Break end
      | _ => Rust.Break
      end
  | None => Rust.Break
  end.
Definition fc_loop1_text : expr := Eval vm_compute in fc_loop_text 5.
Definition fc_loop2_text : expr := Eval vm_compute in fc_loop_text 6.

(** The variables of [push] in its loops. *)
Definition fc_env (p : FastCdc) (s : FastCdcState) (ge : Z) (data : list byte) (x : FcLocals) : env :=
  [("fp"%string, VWrap U64 (fl_fp x)); ("i"%string, vsize (fl_i x)); ("ge"%string, VInt U64 ge);
   ("gi"%string, VInt U64 (fl_gi x)); ("self"%string, enc_FcState s); ("params"%string, enc_FastCdc p);
   ("data"%string, vbytes data)].
(** .. and when it returns from there. *)
Definition fc_returned (p : FastCdc) (s : FastCdcState) (data : list byte) (rho : env) : Prop :=
  exists fp i ge gi,
    rho = [("fp"%string, fp); ("i"%string, i); ("ge"%string, ge); ("gi"%string, gi);
           ("self"%string, enc_FcState (fastcdc_state_reset s)); ("params"%string, enc_FastCdc p);
           ("data"%string, vbytes data)].

Lemma fc_loop1_sim n p s ge data x : (30 <= n)%nat -> Z.of_nat (length data) < 2 ^ 64 ->
  match fastcdc_loop1 p data x with
  | Ok (Next x') => eval (crate u) (lock n) (fc_env p s ge data x) fc_loop1_text = Done (fc_env p s ge data x', Value VUnit)
  | Ok (Base.Return _ k) =>
      exists rho, eval (crate u) (lock n) (fc_env p s ge data x) fc_loop1_text = Done (rho, Returning (VSome (vsize k))) /\
                  fc_returned p s data rho
  | Ok (Base.Break x') => eval (crate u) (lock n) (fc_env p s ge data x) fc_loop1_text = Done (fc_env p s ge data x', Breaking)
  | Panic => eval (crate u) (lock n) (fc_env p s ge data x) fc_loop1_text = Panics
  | Diverge => eval (crate u) (lock n) (fc_env p s ge data x) fc_loop1_text = NoFuel
  end.
Proof.
  intros Hn Hd. destruct (bump_ge _ _ Hn) as [m ->]. destruct x as [gi i fp]. unfold fc_loop1_text, lock, fc_env.
  cbn [fl_gi fl_i fl_fp]. reduce. rewrite map_length.
  unfold fastcdc_loop1, fastcdc_roll, index. cbn [fl_gi fl_i fl_fp].
  destruct (Nat.leb_spec (length data) i) as [Hi|Hi].
  { replace (Z.of_nat (length data) <=? Z.of_nat i) with true by lia. reduce. reflexivity. }
  replace (Z.of_nat (length data) <=? Z.of_nat i) with false by lia. reduce.
  destruct (fc_normal_size p <=? gi); reduce; [reflexivity|].
  rewrite (nth_vbyte _ _ i) by lia.
  destruct (nth_error data i) as [b|]; unfold option_map, bind; reduce; [|reflexivity].
  rewrite byte_mod, nth_error_map by lia.
  destruct (nth_error (fc_gear p) (Z.to_nat (b2z b))) as [g|]; unfold option_map; reduce; [|reflexivity].
  enter. unfold wrap64, two64, MASK_S.
  decide_if; reduce.
  { enter. eexists. split; [reflexivity|]. repeat eexists. }
  unfold add_u64, two64. decide_if; reduce; [|reflexivity].
  decide_if; reduce; [|exfalso; lia]. cbn [fl_gi fl_i fl_fp]. agree.
Qed.

Lemma fc_loop2_sim n p s ge data x : (30 <= n)%nat -> Z.of_nat (length data) < 2 ^ 64 ->
  match fastcdc_loop2 p data x with
  | Ok (Next x') => eval (crate u) (lock n) (fc_env p s ge data x) fc_loop2_text = Done (fc_env p s ge data x', Value VUnit)
  | Ok (Base.Return _ k) =>
      exists rho, eval (crate u) (lock n) (fc_env p s ge data x) fc_loop2_text = Done (rho, Returning (VSome (vsize k))) /\
                  fc_returned p s data rho
  | Ok (Base.Break x') => eval (crate u) (lock n) (fc_env p s ge data x) fc_loop2_text = Done (fc_env p s ge data x', Breaking)
  | Panic => eval (crate u) (lock n) (fc_env p s ge data x) fc_loop2_text = Panics
  | Diverge => eval (crate u) (lock n) (fc_env p s ge data x) fc_loop2_text = NoFuel
  end.
Proof.
  intros Hn Hd. destruct (bump_ge _ _ Hn) as [m ->]. destruct x as [gi i fp]. unfold fc_loop2_text, lock, fc_env.
  cbn [fl_gi fl_i fl_fp]. reduce.
  unfold fastcdc_loop2, fastcdc_roll, index. cbn [fl_gi fl_i fl_fp].
  destruct (fc_max_size p <=? gi); reduce.
  { enter. eexists. split; [reflexivity|]. repeat eexists. }
  rewrite map_length.
  destruct (Nat.leb_spec (length data) i) as [Hi|Hi].
  { replace (Z.of_nat (length data) <=? Z.of_nat i) with true by lia. reduce. reflexivity. }
  replace (Z.of_nat (length data) <=? Z.of_nat i) with false by lia. reduce.
  rewrite (nth_vbyte _ _ i) by lia.
  destruct (nth_error data i) as [b|]; unfold option_map, bind; reduce; [|reflexivity].
  rewrite byte_mod, nth_error_map by lia.
  destruct (nth_error (fc_gear p) (Z.to_nat (b2z b))) as [g|]; unfold option_map; reduce; [|reflexivity].
  enter. unfold wrap64, two64, MASK_L.
  decide_if; reduce.
  { enter. eexists. split; [reflexivity|]. repeat eexists. }
  unfold add_u64, two64. decide_if; reduce; [|reflexivity].
  decide_if; reduce; [|exfalso; lia]. cbn [fl_gi fl_i fl_fp]. agree.
Qed.

(** The loops end: each round moves [i] towards the end of the data. *)
Lemma fc_loop1_next p data x x' : fastcdc_loop1 p data x = Ok (Next x') -> (fl_i x < length data)%nat /\ fl_i x' = S (fl_i x).
Proof.
  unfold fastcdc_loop1. destruct (Nat.leb_spec (length data) (fl_i x)) as [|Hi]; [discriminate|].
  destruct (fc_normal_size p <=? fl_gi x); [discriminate|].
  destruct (index data (fl_i x)); cbn [bind]; try discriminate.
  destruct (fastcdc_roll p (fl_fp x) _); cbn [bind]; try discriminate.
  destruct (Z.land _ MASK_S =? 0); [discriminate|]. destruct (add_u64 _ _); cbn [bind]; try discriminate.
  intros E. inversion E. cbn [fl_i]. lia.
Qed.

Lemma fc_loop2_next p data x x' : fastcdc_loop2 p data x = Ok (Next x') -> (fl_i x < length data)%nat /\ fl_i x' = S (fl_i x).
Proof.
  unfold fastcdc_loop2. destruct (fc_max_size p <=? fl_gi x); [discriminate|].
  destruct (Nat.leb_spec (length data) (fl_i x)) as [|Hi]; [discriminate|].
  destruct (index data (fl_i x)); cbn [bind]; try discriminate.
  destruct (fastcdc_roll p (fl_fp x) _); cbn [bind]; try discriminate.
  destruct (Z.land _ MASK_L =? 0); [discriminate|]. destruct (add_u64 _ _); cbn [bind]; try discriminate.
  intros E. inversion E. cbn [fl_i]. lia.
Qed.

Lemma index_total {A} (l : list A) i : index l i <> Diverge.
Proof. unfold index. destruct (nth_error l i); discriminate. Qed.
Lemma add_total a b : add_u64 a b <> Diverge.
Proof. unfold add_u64. destruct (a + b <? two64); discriminate. Qed.
Lemma roll_total p fp v : fastcdc_roll p fp v <> Diverge.
Proof. unfold fastcdc_roll, index. destruct (nth_error _ _); discriminate. Qed.

Lemma fc_loop1_total p data x : fastcdc_loop1 p data x <> Diverge.
Proof.
  unfold fastcdc_loop1. destruct (_ <=? _)%nat; [discriminate|]. destruct (_ <=? _); [discriminate|].
  pose proof (index_total data (fl_i x)). destruct (index data (fl_i x)) as [b| |]; cbn [bind]; try congruence.
  pose proof (roll_total p (fl_fp x) b). destruct (fastcdc_roll p (fl_fp x) b); cbn [bind]; try congruence.
  destruct (_ =? 0); [discriminate|]. pose proof (add_total (fl_gi x) 1). destruct (add_u64 _ _); cbn [bind]; congruence.
Qed.
Lemma fc_loop2_total p data x : fastcdc_loop2 p data x <> Diverge.
Proof.
  unfold fastcdc_loop2. destruct (_ <=? _); [discriminate|]. destruct (_ <=? _)%nat; [discriminate|].
  pose proof (index_total data (fl_i x)). destruct (index data (fl_i x)) as [b| |]; cbn [bind]; try congruence.
  pose proof (roll_total p (fl_fp x) b). destruct (fastcdc_roll p (fl_fp x) b); cbn [bind]; try congruence.
  destruct (_ =? 0); [discriminate|]. pose proof (add_total (fl_gi x) 1). destruct (add_u64 _ _); cbn [bind]; congruence.
Qed.

Lemma loop_ends {R} (data : list byte) (body : FcLocals -> res (ctl FcLocals R)) :
  (forall x x', body x = Ok (Next x') -> (fl_i x < length data)%nat /\ fl_i x' = S (fl_i x)) ->
  (forall x, body x <> Diverge) ->
  forall fuel x, (0 < fuel)%nat -> (length data < fuel + fl_i x)%nat -> loop fuel body x <> Diverge.
Proof.
  intros Hnext Htot. induction fuel as [|fuel IH]; intros x H0 Hf; [lia|]. cbn [loop].
  pose proof (Htot x) as T. destruct (body x) as [[x'|x' r|x']| |] eqn:B; cbn [bind]; try congruence.
  apply Hnext in B. apply IH; lia.
Qed.

(** The two loops. *)
Definition fc_iter (k : nat) (body : expr) (rho : env) : out (env * flow) :=
  iter_loop k (fun rho => eval (crate u) (lock k) rho body) rho.

Lemma fc_iter1 k p s ge data x : (30 <= k)%nat -> (length data < k)%nat -> Z.of_nat (length data) < 2 ^ 64 ->
  match loop (S (length data)) (fastcdc_loop1 p data) x with
  | Ok (Next x') | Ok (Base.Break x') => fc_iter k fc_loop1_text (fc_env p s ge data x) = Done (fc_env p s ge data x', Value VUnit)
  | Ok (Base.Return _ r) =>
      exists rho, fc_iter k fc_loop1_text (fc_env p s ge data x) = Done (rho, Returning (VSome (vsize r))) /\ fc_returned p s data rho
  | Panic => fc_iter k fc_loop1_text (fc_env p s ge data x) = Panics
  | Diverge => False
  end.
Proof.
  intros Hk Hdk Hd.
  pose proof (iter_loop_sim (fun _ => True) (fc_env p s ge data) (fun _ => fc_returned p s data)
                (fun r => VSome (vsize r)) (fastcdc_loop1 p data)
                (fun rho => eval (crate u) (lock k) rho fc_loop1_text)) as L.
  specialize (L ltac:(intros y _; pose proof (fc_loop1_sim k p s ge data y Hk Hd) as B;
                      destruct (fastcdc_loop1 p data y) as [[?|? ?|?]| |]; try split; auto)
                (S (length data)) k x I ltac:(lia)).
  pose proof (loop_ends data _ (fc_loop1_next p data) (fc_loop1_total p data) (S (length data)) x ltac:(lia) ltac:(lia)) as T.
  unfold fc_iter. destruct (loop (S (length data)) (fastcdc_loop1 p data) x) as [[x'|x' r|x']| |]; tauto.
Qed.

Lemma fc_iter2 k p s ge data x : (30 <= k)%nat -> (length data < k)%nat -> Z.of_nat (length data) < 2 ^ 64 ->
  match loop (S (length data)) (fastcdc_loop2 p data) x with
  | Ok (Next x') | Ok (Base.Break x') => fc_iter k fc_loop2_text (fc_env p s ge data x) = Done (fc_env p s ge data x', Value VUnit)
  | Ok (Base.Return _ r) =>
      exists rho, fc_iter k fc_loop2_text (fc_env p s ge data x) = Done (rho, Returning (VSome (vsize r))) /\ fc_returned p s data rho
  | Panic => fc_iter k fc_loop2_text (fc_env p s ge data x) = Panics
  | Diverge => False
  end.
Proof.
  intros Hk Hdk Hd.
  pose proof (iter_loop_sim (fun _ => True) (fc_env p s ge data) (fun _ => fc_returned p s data)
                (fun r => VSome (vsize r)) (fastcdc_loop2 p data)
                (fun rho => eval (crate u) (lock k) rho fc_loop2_text)) as L.
  specialize (L ltac:(intros y _; pose proof (fc_loop2_sim k p s ge data y Hk Hd) as B;
                      destruct (fastcdc_loop2 p data y) as [[?|? ?|?]| |]; try split; auto)
                (S (length data)) k x I ltac:(lia)).
  pose proof (loop_ends data _ (fc_loop2_next p data) (fc_loop2_total p data) (S (length data)) x ltac:(lia) ltac:(lia)) as T.
  unfold fc_iter. destruct (loop (S (length data)) (fastcdc_loop2 p data) x) as [[x'|x' r|x']| |]; tauto.
Qed.

Ltac fc_return L :=
  let rho := fresh "rho" in let Hrho := fresh in
  destruct L as [rho [-> Hrho]]; unfold fc_returned in Hrho; destruct Hrho as [? [? [? [? ->]]]];
  unfold as_out; reduce; reflexivity.
Ltac fc_second p s ge data x :=
  unfold fc_env; reduce;
  match goal with
  | |- context [iter_loop ?k ?b ?env0] =>
      change (iter_loop k b env0) with (fc_iter k fc_loop2_text (fc_env p s ge data x));
      let L := fresh "L" in
      pose proof (fc_iter2 k p s ge data x ltac:(lia) ltac:(lia) ltac:(lia)) as L;
      destruct (loop (S (length data)) (fastcdc_loop2 p data) x) as [[?x|?x ?r|?x]| |];
      [ rewrite L; unfold fc_env, as_out; reduce; reflexivity
      | fc_return L
      | rewrite L; unfold fc_env, as_out; reduce; reflexivity
      | rewrite L; reflexivity
      | contradiction ]
  end.
Ltac fc_finish p s ge data x :=
  match goal with
  | |- context [iter_loop ?k ?b ?env0] =>
      change (iter_loop k b env0) with (fc_iter k fc_loop1_text (fc_env p s ge data x));
      let L := fresh "L" in let x' := fresh "x'" in
      pose proof (fc_iter1 k p s ge data x ltac:(lia) ltac:(lia) ltac:(lia)) as L;
      destruct (loop (S (length data)) (fastcdc_loop1 p data) x) as [[x'|x' ?r|x']| |];
      [ rewrite L; fc_second p s ge data x'
      | fc_return L
      | rewrite L; fc_second p s ge data x'
      | rewrite L; reflexivity
      | contradiction ]
  end.

Lemma src_fc_state_push n p s data :
  (60 + length data <= n)%nat -> Z.of_nat (length data) < 2 ^ 64 -> 0 <= fc_l s -> fc_min_size p < 2 ^ 64 ->
  call (crate u) n "FastCdcState::push" [enc_FcState s; enc_FastCdc p; vbytes data] =
  as_out (fun '(s', o) => ([enc_FcState s'; enc_FastCdc p; vbytes data], vopt o)) (fastcdc_state_push p s data).
Proof.
  intros Hn Hd Hl Hmin.
  destruct (bump_ge 60 n ltac:(lia)) as [m ->]. assert (Hm : (length data <= m)%nat). { revert Hn. cbn [bump]. lia. }
  enter. rewrite map_length, small_mod by lia.
  unfold fastcdc_state_push, add_u64, sub_u64, two64, bind.
  decide_if; [|reflexivity]. reduce.
  decide_if; reduce; [reflexivity|].
  set (ge := Z.of_nat (length data) + fc_l s) in *.
  decide_if; reduce.
  - replace (fc_l s + (fc_min_size p - fc_l s) <? 2 ^ 64) with true by lia. reduce.
    rewrite small_mod by lia.
    replace (VInt Usize (fc_min_size p - fc_l s)) with (vsize (Z.to_nat (fc_min_size p - fc_l s))) by (unfold vsize; agree).
    fc_finish p s ge data {| fl_gi := fc_l s + (fc_min_size p - fc_l s); fl_i := Z.to_nat (fc_min_size p - fc_l s); fl_fp := fc_fp s |}.
  - fc_finish p s ge data {| fl_gi := fc_l s; fl_i := 0%nat; fl_fp := fc_fp s |}.
Qed.

Lemma src_fastcdc_push n p s data :
  (80 + length data <= n)%nat -> Z.of_nat (length data) < 2 ^ 64 -> 0 <= fc_l s -> fc_min_size p < 2 ^ 64 ->
  call (crate u) n "FastCdcIncr::push" [enc_FcIncr p s; vbytes data] =
  as_out (fun '(s', o) => ([enc_FcIncr p s'; vbytes data], vopt o)) (incr_push (fastcdc_incr p) s data).
Proof.
  intros Hn Hd Hl Hm. destruct (bump_ge 20 n ltac:(lia)) as [m ->]. cbn [bump] in Hn. enter.
  rewrite src_fc_state_push by lia. cbn [incr_push fastcdc_incr].
  destruct (fastcdc_state_push p s data) as [[s' o]| |]; unfold as_out; reduce; reflexivity.
Qed.

(** ** find_chunk_edge *)

Lemma src_fastcdc_find_chunk_edge n p s data :
  (80 + length data <= n)%nat -> Z.of_nat (length data) < 2 ^ 64 - 1 -> 0 <= fc_l s -> fc_min_size p < 2 ^ 64 ->
  call (crate u) n "FastCdc::find_chunk_edge" [enc_FastCdc p; enc_FcState s; vbytes data] =
  as_out (fun '(s', (o, k)) => ([enc_FastCdc p; enc_FcState s'; vbytes data], VPair (vopt o) (vsize k)))
    (find_chunk_edge (fastcdc_chunk p) s data).
Proof.
  intros Hn Hd Hl Hm. destruct (bump_ge 20 n ltac:(lia)) as [m ->]. cbn [bump] in Hn. enter.
  rewrite src_fc_state_push by lia. cbn [find_chunk_edge fastcdc_chunk]. unfold fastcdc_find_chunk_edge.
  destruct (fastcdc_state_push p s data) as [[s' [k|]]| |] eqn:E; unfold as_out, bind; reduce; try reflexivity.
  - apply fastcdc_push_answer in E. cases. agree.
  - rewrite map_length. reflexivity.
Qed.

End Crate.
