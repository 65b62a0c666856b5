(** * IterOps: the strict slice iterator under any mixture of [next] and [take_rem]. *)

From Verif Require Import Base Api Tables Range Spec Lists Contract Step Words Rot CutFacts IterProofs.
From Verif Require Import Mii Ram Gear Pigz Gzip FastCdc Bup BuzHash Zpaq Zstd.
From Verif Require Import MiiProofs RamProofs GearProofs PigzProofs GzipProofs FastCdcProofs BupProofs BupAny BuzProofs ZpaqProofs ZpaqCtor ZstdProofs.
From Verif Require Import Builtin BuiltinProofs IterAll Answers.

(** ** Any mixture of calls *)
Inductive strict_op : Type := OpNext | OpTakeRem.
Inductive strict_event : Type :=
| Got (v : list byte)     (** [next] returned a slice *)
| NotYet                  (** [next] returned [None] *)
| Took (v : list byte).   (** [take_rem] returned the remainder *)

Definition strict_call {C : Incr} (it : SliceIter C) (op : strict_op) : res (SliceIter C * strict_event) :=
  match op with
  | OpNext => '(it', o) <- iter_slices_strict_next it ;; Ok (it', match o with Some v => Got v | None => NotYet end)
  | OpTakeRem => let '(it', v) := take_rem it in Ok (it', Took v)
  end.

Fixpoint strict_calls {C : Incr} (ops : list strict_op) (it : SliceIter C) : res (list strict_event * SliceIter C) :=
  match ops with
  | [] => Ok ([], it)
  | op :: ops' =>
      '(it', e) <- strict_call it op ;;
      '(rest, it'') <- strict_calls ops' it' ;;
      Ok (e :: rest, it'')
  end.

Definition event_bytes (e : strict_event) : list byte := match e with Got v | Took v => v | NotYet => [] end.

Lemma strict_call_bytes : forall C (it it' : SliceIter C) op e, strict_call it op = Ok (it', e) ->
  it_rem it = event_bytes e ++ it_rem it'.
Proof.
  intros C it it' op e E. destruct op; cbn [strict_call] in E.
  - destruct (iter_slices_strict_next it) as [[it1 o]| |] eqn:En; cbn [bind] in E; try discriminate. inversion E; subst.
    apply strict_next_inv in En. destruct o as [v|]; cbn [event_bytes]; [apply En|]. destruct En as [-> _]. reflexivity.
  - unfold take_rem in E. inversion E; subst. cbn [event_bytes it_rem]. now rewrite app_nil_r.
Qed.

Theorem strict_lossless : forall C ops (it it' : SliceIter C) ev, strict_calls ops it = Ok (ev, it') ->
  concat (map event_bytes ev) ++ it_rem it' = it_rem it.
Proof.
  intros C. induction ops as [|op ops IH]; intros it it' ev E; cbn [strict_calls] in E.
  - inversion E; subst. reflexivity.
  - destruct (strict_call it op) as [[it1 e]| |] eqn:E1; cbn [bind] in E; try discriminate.
    destruct (strict_calls ops it1) as [[rest it2]| |] eqn:E2; cbn [bind] in E; try discriminate. inversion E; subst.
    cbn [map concat]. apply strict_call_bytes in E1. apply IH in E2. rewrite E1, <- E2, app_assoc. reflexivity.
Qed.

(** ** From a fresh built-in chunker: exactly the complete chunks *)

(** The pieces of [data] that end at a cut (what follows the last cut is left out). *)
Fixpoint cut_slices (base : nat) (cs : list nat) (data : list byte) : list (list byte) :=
  match cs with
  | [] => []
  | p :: cs' => firstn (p - base) data :: cut_slices p cs' (skipn (p - base) data)
  end.
(** What follows the last cut. *)
Fixpoint cut_rest (base : nat) (cs : list nat) (data : list byte) : list byte :=
  match cs with
  | [] => data
  | p :: cs' => cut_rest p cs' (skipn (p - base) data)
  end.

Lemma pieces_cut_slices : forall cs base data,
  pieces base cs data = cut_slices base cs data ++ match cut_rest base cs data with [] => [] | r => [r] end.
Proof.
  induction cs as [|p cs IH]; intros base data; cbn [pieces cut_slices cut_rest]; [now destruct data|].
  now rewrite IH.
Qed.

Lemma collect_cut_slices : forall C first lim R, first_laws first -> progressive first -> down_closed lim ->
  push_ok 0 (incr_push C) first lim R ->
  forall n s h rem, R s h [] -> lim (length (h ++ rem)) -> (length rem < n)%nat ->
  exists cs it, cuts_of first h rem cs /\
    collect iter_slices_strict_next (S n) {| it_rem := rem; it_chunker := s |} = Ok (cut_slices (length h) cs rem, it) /\
    it_rem it = cut_rest (length h) cs rem.
Proof.
  intros C first lim R L P D K. induction n as [|n IH]; intros s h rem HR Hl Hn; [lia|].
  rewrite collect_S. unfold iter_slices_strict_next at 1. cbn [it_rem it_chunker].
  destruct (K s h [] rem HR (fl_nil _ L h) Hl) as [(m & k & s' & F & Em & Ep & HR')|(s' & N & Ep & HR')].
  - cbn [app length] in *. rewrite Ep. cbn [bind]. assert (Hm := fl_len _ L _ _ _ F). assert (H1 := P _ _ _ F).
    assert (k = m) by lia. subst k. unfold split_at. rewrite (proj2 (Nat.leb_le _ _) Hm). cbn [bind].
    destruct (IH s' (h ++ firstn m rem) (skipn m rem) HR') as (cs & it & Hc & Ec & Er).
    { rewrite <- app_assoc, firstn_skipn. exact Hl. }
    { rewrite skipn_length. lia. }
    setoid_rewrite Ec. cbn [bind]. exists ((length h + m)%nat :: cs), it. split; [now constructor|].
    cbn [cut_slices cut_rest]. replace (length h + m - length h)%nat with m by lia.
    rewrite app_length, firstn_length, Nat.min_l in * by lia. split; [reflexivity|exact Er].
  - cbn [app length] in *. rewrite Ep. cbn [bind]. exists [], {| it_rem := rem; it_chunker := s' |}. split; [now constructor|].
    split; reflexivity.
Qed.

(** What the built-in chunkers guarantee to a slice iterator. *)
Definition iter_contract_for (c : config) (C : Incr) : Prop := exists lim R,
  first_laws (iter_first c) /\ progressive (iter_first c) /\ down_closed lim /\ push_ok 0 (incr_push C) (iter_first c) lim R /\
  R (incr_new C) [] [] /\ forall n, stream_len n -> lim n.

Lemma iter_contract : forall c C, typed c -> incr_of c = Ok C -> iter_sound c -> iter_contract_for c C.
Proof.
  intros c C T E S. unfold iter_contract_for. destruct c; cbn [incr_of iter_first incr_first iter_sound incr_sound] in *.
  - inversion E; subst C. exists any_length, (fun s h c => mii_rel w s (mii_virtual h c)).
    exact (conj (ends_at_laws _) (conj (ends_at_progressive _) (conj any_length_down (conj (mii_push_ok w) (conj (mii_new_rel w) stream_any))))).
  - inversion E; subst C. exists below_2_64, (fun s h c => ram_rel s c).
    exact (conj (ends_before_laws _) (conj (ram_before_progressive w (proj1 T)) (conj below_down (conj (ram_push_before w) (conj ram_default_rel stream_below))))).
  - destruct (gear_with_average_size_log2 average_size_log2) as [p| |] eqn:Ep; cbn [bind] in E; try discriminate. inversion E; subst C.
    exists any_length, gear_rel.
    exact (conj (ends_before_laws _) (conj (gear_before_progressive _ S) (conj any_length_down (conj (gear_push_before _ _ Ep) (conj eq_refl stream_any))))).
  - destruct (pigz_with_bits bits) as [p| |] eqn:Ep; cbn [bind] in E; try discriminate. inversion E; subst C. exists any_length, (pigz_rel bits).
    exact (conj (ends_at_laws _) (conj (ends_at_progressive _) (conj any_length_down (conj (pigz_push_ok _ _ Ep) (conj (pigz_new_rel _ _ Ep) stream_any))))).
  - inversion E; subst C. set (p := gzip_with_window_and_modulus window modulus). exists any_length. eexists.
    exact (conj (ends_at_laws _) (conj (ends_at_progressive _) (conj any_length_down (conj (gzip_push_ok p (proj2 S) (proj1 S)) (conj (gzip_new_rel p) stream_any))))).
  - inversion E; subst C. cbn [typed] in T. unfold is_u64 in T. set (p := fastcdc_new gear min normal max).
    assert (H0 : 0 <= fc_min_size p) by (cbn; lia). assert (H1 : 1 <= fc_min_size p) by (cbn; lia). exists below_2_64, (fun s h c => fc_rel p s c).
    exact (conj (fc_laws p H0) (conj (fc_progressive p H1) (conj below_down (conj (fc_push_ok p (conj (proj1 T) (conj H0 (proj2 S)))) (conj (fc_default_rel p) stream_below))))).
  - inversion E; subst C. exists any_length. eexists.
    exact (conj (ends_at_laws _) (conj (ends_at_progressive _) (conj any_length_down (conj (bup_any_push_ok window S) (conj (bup_any_new window S) stream_any))))).
  - destruct (buzhash_new capacity mask hash max) as [p| |] eqn:Ep; cbn [bind] in E; try discriminate. inversion E; subst C.
    assert (G := buz_good_of _ _ _ _ _ T Ep). apply buz_ctor_inv in Ep. destruct Ep as [_ ->]. exists below_2_64. eexists.
    exact (conj (ends_at_laws _) (conj (ends_at_progressive _) (conj below_down (conj (buz_push_ok _ _ G) (conj (buz_incr_new_rel _ _ G) stream_below))))).
  - destruct (zpaq_with_average_and_range average_size_pow_2 r) as [p| |] eqn:Ep; cbn [bind] in E; try discriminate.
    inversion E; subst C. apply zpaq_ctor_inv in Ep. destruct Ep as [_ ->]. exists below_2_64. eexists.
    exact (conj (ends_at_laws _) (conj (ends_at_progressive _) (conj below_down (conj (zpaq_push_ok _) (conj (zpaq_default_rel []) stream_below))))).
  - destruct S.
Qed.

(** [iter_slices_strict] returns exactly the complete chunks and keeps what follows the last of them; [iter_slices] returns
    the same slices and then the rest. *)
Theorem strict_all : forall c C, typed c -> incr_of c = Ok C -> iter_sound c -> forall data, stream_len (length data) ->
  exists cs it, cuts_of (iter_first c) [] data cs /\
    collect iter_slices_strict_next (2 + length data) (iter_slices_strict C (incr_new C) data) = Ok (cut_slices 0 cs data, it) /\
    it_rem it = cut_rest 0 cs data.
Proof.
  intros c C T E S data Hl. destruct (iter_contract c C T E S) as (lim & R & L & P & D & K & R0 & Hlim).
  exact (collect_cut_slices C _ lim R L P D K (1 + length data)%nat (incr_new C) [] data R0 (Hlim _ Hl) ltac:(lia)).
Qed.

Theorem strict_then_rest : forall c C, typed c -> incr_of c = Ok C -> iter_sound c -> forall data, stream_len (length data) ->
  exists full it1 out it2,
    collect iter_slices_strict_next (2 + length data) (iter_slices_strict C (incr_new C) data) = Ok (full, it1) /\
    collect iter_slices_next (2 + length data) (iter_slices C (incr_new C) data) = Ok (out, it2) /\
    out = full ++ match it_rem it1 with [] => [] | r => [r] end.
Proof.
  intros c C T E S data Hl. destruct (strict_all c C T E S data Hl) as (cs & it1 & Hc & E1 & Er).
  destruct (iter_all c C T E S data Hl) as (cs' & it2 & Hc' & E2).
  destruct (iter_contract c C T E S) as (lim & R & L & _). assert (cs' = cs) by exact (cuts_of_fun _ L _ _ _ Hc' _ Hc). subst cs'.
  exists (cut_slices 0 cs data), it1, (pieces 0 cs data), it2. split; [exact E1|]. split; [exact E2|]. rewrite Er. apply pieces_cut_slices.
Qed.

(** ** Once the remainder is empty there is nothing more *)
Definition quiet (e : strict_event) : Prop := e = NotYet \/ e = Took [].

(** The states from which FastCdc finds nothing in an empty slice. *)
Definition fc_undecided (p : FastCdc) (s : FastCdcState) : Prop := fc_l s <= fc_min_size p \/ fc_l s < fc_max_size p.

Lemma loop_break : forall S (body : S -> res (ctl S nat)) (P B : S -> Prop),
  (forall s c, P s -> body s = Ok c -> match c with Next s' => P s' | Break s' => B s' | Return _ _ => True end) ->
  forall fuel s c, P s -> loop fuel body s = Ok c -> match c with Next _ => False | Break s' => B s' | Return _ _ => True end.
Proof.
  intros S body P B H. induction fuel as [|fuel IH]; intros s c HP E; cbn [loop] in E; [discriminate|].
  destruct (body s) as [c1| |] eqn:Eb; cbn [bind] in E; try discriminate. specialize (H s c1 HP Eb).
  destruct c1 as [s1|s1 k1|s1].
  - exact (IH _ _ H E).
  - inversion E; subst c. exact I.
  - inversion E; subst c. exact H.
Qed.

Lemma fc_stays_undecided : forall p s d s' o, fc_undecided p s -> fastcdc_state_push p s d = Ok (s', o) ->
  0 <= fc_min_size p -> fc_undecided p s' /\ (d = [] -> o = None).
Proof.
  intros p s d s' o U E H0. assert (E' := E). unfold fastcdc_state_push in E. cbv zeta in E.
  unfold add_u64 in E at 1. destruct (Z.of_nat (length d) + fc_l s <? two64); cbn [bind] in E; [|discriminate].
  destruct (Z.leb_spec (Z.of_nat (length d) + fc_l s) (fc_min_size p)) as [G|G].
  { inversion E; subst. split; [left; exact G|reflexivity]. }
  match type of E with bind ?x _ = _ => destruct x as [[gi i]| |] eqn:E0; cbn [bind] in E; try discriminate end.
  assert (Hi : (i <= length d)%nat /\ gi = fc_l s + Z.of_nat i).
  { destruct (Z.leb_spec (fc_l s) (fc_min_size p)) as [G1|G1]; [|inversion E0; lia].
    unfold sub_u64 in E0. rewrite (proj2 (Z.leb_le _ _) G1) in E0. cbn [bind] in E0. unfold add_u64 in E0.
    destruct (fc_l s + (fc_min_size p - fc_l s) <? two64); cbn [bind] in E0; inversion E0. lia. }
  clear E0. set (P := fun x : FcLocals => (fl_i x <= length d)%nat /\ fl_gi x = fc_l s + Z.of_nat (fl_i x)).
  assert (B1 : forall x c, P x -> fastcdc_loop1 p d x = Ok c ->
     match c with Next x' => P x' | Break x' => P x' | Return _ k => True end).
  { intros x c Hx Ex. unfold fastcdc_loop1 in Ex. unfold P in *. destruct (Nat.leb_spec (length d) (fl_i x)) as [G1|G1]; [inversion Ex; subst; exact Hx|].
    destruct (fc_normal_size p <=? fl_gi x); [inversion Ex; subst; exact Hx|].
    unfold add_u64 in Ex. peel Ex; inversion Ex; subst; cbn [fl_i fl_gi]; try exact I.
    match goal with H : (if ?b then Ok _ else Panic) = Ok _ |- _ => destruct b; inversion H end. lia. }
  set (B := fun x : FcLocals => fl_gi x = fc_l s + Z.of_nat (length d) /\ fl_gi x < fc_max_size p).
  assert (B2 : forall x c, P x -> fastcdc_loop2 p d x = Ok c ->
     match c with Next x' => P x' | Break x' => B x' | Return _ k => True end).
  { intros x c Hx Ex. unfold fastcdc_loop2 in Ex. unfold P, B in *. destruct (Z.leb_spec (fc_max_size p) (fl_gi x)) as [G1|G1]; [inversion Ex; subst; exact I|].
    destruct (Nat.leb_spec (length d) (fl_i x)) as [G2|G2]; [inversion Ex; subst; split; [|exact G1]; assert (fl_i x = length d) by lia; lia|].
    unfold add_u64 in Ex. peel Ex; inversion Ex; subst; cbn [fl_i fl_gi]; try exact I.
    match goal with H : (if ?b then Ok _ else Panic) = Ok _ |- _ => destruct b; inversion H end. lia. }
  match type of E with bind ?x _ = _ => destruct x as [c1| |] eqn:E1; cbn [bind] in E; try discriminate end.
  assert (F : forall k, d = [] -> o = Some k -> False).
  { intros k -> ->. apply fastcdc_push_answer in E' as Hk. cbn [length] in *. assert (k = 0%nat) by lia. subst k.
    destruct U as [U|U]; [lia|].
    assert (Z1 : loop 1 (fastcdc_loop1 p []) {| fl_gi := gi; fl_i := i; fl_fp := fc_fp s |} = Ok (Break {| fl_gi := gi; fl_i := i; fl_fp := fc_fp s |})) by reflexivity.
    rewrite Z1 in E1. inversion E1; subst c1. cbn [loop] in E. unfold fastcdc_loop2 in E. cbn [fl_gi fl_i] in E.
    replace (fc_max_size p <=? gi) with false in E by (symmetry; apply Z.leb_gt; lia). cbn [length Nat.leb bind] in E. discriminate. }
  split; [|intros Ed; destruct o as [k|]; [destruct (F k Ed eq_refl)|reflexivity]].
  apply (loop_break _ _ P P B1) in E1; [|split; cbn [fl_i fl_gi]; lia]. destruct c1 as [x|x k1|x]; [contradiction| |].
  - inversion E; subst. left. cbn. exact H0.
  - match type of E with bind ?y _ = _ => destruct y as [c2| |] eqn:E2; cbn [bind] in E; try discriminate end.
    apply (loop_break _ _ P B B2) in E2; [|exact E1]. destruct c2 as [y|y k2|y]; [contradiction| |]; inversion E; subst.
    + left. cbn. exact H0.
    + right. cbn [fc_l]. destruct E2. lia.
Qed.

(** For every constructible built-in chunker: in any state a run of calls can reach, an empty slice has no cut. *)
Lemma empty_no_cut : forall c C, typed c -> incr_of c = Ok C -> exists I : incr_state C -> Prop,
  I (incr_new C) /\ forall s d s' o, I s -> incr_push C s d = Ok (s', o) -> I s' /\ (d = [] -> o = None).
Proof.
  intros c C T E. destruct c as [w|w|n|b|w m|g min normal max|w|k mask h max|f r|t]; try (exists (fun _ => True); split; [exact I|];
    intros s d s' o _ Ep; split; [exact I|]; intros ->; destruct o as [k0|]; [|reflexivity]; exfalso;
    apply (push_answer _ _ _ _ _ _ E) in Ep; cbn in Ep; lia).
  cbn [incr_of] in E. inversion E; subst C. cbn [incr_state incr_new incr_push fastcdc_incr]. set (p := fastcdc_new g min normal max).
  assert (H0 : 0 <= fc_min_size p) by (cbn [typed] in T; unfold is_u64 in T; cbn; lia).
  exists (fc_undecided p). split; [left; cbn; exact H0|]. intros s d s' o U Ep. exact (fc_stays_undecided p s d s' o U Ep H0).
Qed.

Lemma quiet_calls : forall C (I : incr_state C -> Prop),
  (forall s d s' o, I s -> incr_push C s d = Ok (s', o) -> I s' /\ (d = [] -> o = None)) ->
  forall ops (it it' : SliceIter C) ev, I (it_chunker it) -> strict_calls ops it = Ok (ev, it') ->
  I (it_chunker it') /\ (it_rem it = [] -> it_rem it' = [] /\ Forall quiet ev).
Proof.
  intros C I H. induction ops as [|op ops IH]; intros it it' ev HI E; cbn [strict_calls] in E.
  - inversion E; subst. auto.
  - destruct (strict_call it op) as [[it1 e]| |] eqn:E1; cbn [bind] in E; try discriminate.
    destruct (strict_calls ops it1) as [[rest it2]| |] eqn:E2; cbn [bind] in E; try discriminate. inversion E; subst.
    assert (H1 : I (it_chunker it1) /\ (it_rem it = [] -> it_rem it1 = [] /\ quiet e)).
    { destruct op; cbn [strict_call] in E1.
      - destruct (iter_slices_strict_next it) as [[it3 o]| |] eqn:En; cbn [bind] in E1; try discriminate. inversion E1; subst.
        unfold iter_slices_strict_next in En. destruct (incr_push C (it_chunker it) (it_rem it)) as [[s' o']| |] eqn:Ep; cbn [bind] in En; try discriminate.
        destruct (H _ _ _ _ HI Ep) as [HI' Hn]. destruct o' as [k|].
        + destruct (split_at (it_rem it) k) as [[a b]| |] eqn:Es; cbn [bind] in En; try discriminate. inversion En; subst. split; [exact HI'|].
          intros Hr. discriminate (Hn Hr).
        + inversion En; subst. split; [exact HI'|]. intros Hr. split; [exact Hr|left; reflexivity].
      - unfold take_rem in E1. inversion E1; subst. split; [exact HI|]. intros Hr. cbn [it_rem]. split; [reflexivity|right; now rewrite Hr]. }
    destruct H1 as [HI1 Hq]. destruct (IH _ _ _ HI1 E2) as [HI2 Hq2]. split; [exact HI2|]. intros Hr. destruct (Hq Hr) as [Hr1 He].
    destruct (Hq2 Hr1) as [Hr2 Hf]. split; [exact Hr2|constructor; assumption].
Qed.

(** [iter_slices_strict], any constructible built-in chunker, any configuration: once a mixture of [next] and [take_rem] calls has emptied the
    remainder, no later call returns a byte. *)
Theorem strict_fused : forall c C, typed c -> incr_of c = Ok C -> forall data before after it1 ev1 it2 ev2,
  strict_calls before (iter_slices_strict C (incr_new C) data) = Ok (ev1, it1) -> it_rem it1 = [] ->
  strict_calls after it1 = Ok (ev2, it2) -> it_rem it2 = [] /\ Forall quiet ev2.
Proof.
  intros c C T E data before after it1 ev1 it2 ev2 E1 Hr E2. destruct (empty_no_cut c C T E) as (I & I0 & H).
  destruct (quiet_calls C I H _ (iter_slices_strict C (incr_new C) data) _ _ I0 E1) as [HI1 _]. destruct (quiet_calls C I H _ _ _ _ HI1 E2) as [_ Hq]. exact (Hq Hr).
Qed.
