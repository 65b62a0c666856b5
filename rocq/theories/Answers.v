(** * Answers: what single calls can answer, from any state whatever. *)

From Verif Require Import Base Api Tables Range Spec Lists.
From Verif Require Import Mii Ram Gear Pigz Gzip FastCdc Bup BuzHash Zpaq Zstd.
From Verif Require Import Builtin.

(** ** Loops that return a position *)
Lemma for_enum_answer : forall S A (body : S -> nat -> A -> res (ctl S nat)) a,
  (forall s i v s' k, body s i v = Ok (Return s' k) -> k = (i + a)%nat) ->
  forall data i s s' k, for_enum body i data s = Ok (Return s' k) -> (i + a <= k < i + length data + a)%nat.
Proof.
  intros S A body a H. induction data as [|v data IH]; intros i s s' k E; cbn [for_enum] in E; [discriminate|].
  destruct (body s i v) as [[s1|s1 k1|s1]| |] eqn:Eb; cbn [bind] in E; try discriminate.
  - apply IH in E. cbn [length]. lia.
  - inversion E; subst. apply H in Eb. cbn [length]. lia.
Qed.

Lemma for_range_answer : forall S (body : S -> nat -> res (ctl S nat)) a,
  (forall s i s' k, body s i = Ok (Return s' k) -> k = (i + a)%nat) ->
  forall n i s s' k, for_range body i n s = Ok (Return s' k) -> (i + a <= k < i + n + a)%nat.
Proof.
  intros S body a H. induction n as [|n IH]; intros i s s' k E; cbn [for_range] in E; [discriminate|].
  destruct (body s i) as [[s1|s1 k1|s1]| |] eqn:Eb; cbn [bind] in E; try discriminate.
  - apply IH in E. lia.
  - inversion E; subst. apply H in Eb. lia.
Qed.

Lemma loop_answer : forall S (body : S -> res (ctl S nat)) (P : S -> Prop) (Q : nat -> Prop),
  (forall s c, P s -> body s = Ok c -> match c with Next s' | Break s' => P s' | Return _ k => Q k end) ->
  forall fuel s c, P s -> loop fuel body s = Ok c -> match c with Next s' | Break s' => P s' | Return _ k => Q k end.
Proof.
  intros S body P Q H. induction fuel as [|fuel IH]; intros s c HP E; cbn [loop] in E; [discriminate|].
  destruct (body s) as [c1| |] eqn:Eb; cbn [bind] in E; try discriminate. specialize (H s c1 HP Eb).
  destruct c1 as [s1|s1 k1|s1].
  - exact (IH _ _ H E).
  - inversion E; subst c. exact H.
  - inversion E; subst c. exact H.
Qed.

(** Cases of the bodies: peel every [bind], [if] and [match] off a hypothesis. *)
Ltac peel E :=
  repeat (cbn [bind] in E;
    match type of E with
    | bind ?x _ = _ => destruct x as [?| |] eqn:?
    | context [let '(_, _) := ?x in _] => destruct x eqn:?
    | (if ?x then _ else _) = _ => destruct x eqn:?
    end; try discriminate).
Ltac answer := intros; match goal with E : _ = Ok (Return _ _) |- _ => peel E; inversion E; subst; lia end.

(** ** [push] *)
Lemma fastcdc_push_answer : forall p s d s' k, fastcdc_state_push p s d = Ok (s', Some k) -> (k <= length d)%nat.
Proof.
  intros p s d s' k E. unfold fastcdc_state_push in E.
  unfold add_u64 in E at 1. destruct (Z.of_nat (length d) + fc_l s <? two64); cbn [bind] in E; [|discriminate].
  destruct (Z.leb_spec (Z.of_nat (length d) + fc_l s) (fc_min_size p)) as [G|G]; [discriminate|].
  match type of E with bind ?x _ = _ => destruct x as [[gi i]| |] eqn:E0; cbn [bind] in E; try discriminate end.
  assert (Hi : (i <= length d)%nat).
  { destruct (Z.leb_spec (fc_l s) (fc_min_size p)) as [G1|G1]; [|inversion E0; lia].
    unfold sub_u64 in E0. rewrite (proj2 (Z.leb_le _ _) G1) in E0. cbn [bind] in E0. unfold add_u64 in E0.
    destruct (fc_l s + (fc_min_size p - fc_l s) <? two64); cbn [bind] in E0; inversion E0. lia. }
  clear E0. set (P := fun x : FcLocals => (fl_i x <= length d)%nat).
  assert (B1 : forall x c, P x -> fastcdc_loop1 p d x = Ok c ->
     match c with Next x' | Break x' => P x' | Return _ k => (k <= length d)%nat end).
  { intros x c Hx Ex. unfold fastcdc_loop1 in Ex. unfold P in *. destruct (Nat.leb_spec (length d) (fl_i x)) as [G1|G1]; [inversion Ex; subst; exact Hx|].
    destruct (fc_normal_size p <=? fl_gi x); [inversion Ex; subst; exact Hx|].
    peel Ex; inversion Ex; subst; cbn [fl_i]; lia. }
  assert (B2 : forall x c, P x -> fastcdc_loop2 p d x = Ok c ->
     match c with Next x' | Break x' => P x' | Return _ k => (k <= length d)%nat end).
  { intros x c Hx Ex. unfold fastcdc_loop2 in Ex. unfold P in *. destruct (fc_max_size p <=? fl_gi x); [inversion Ex; subst; exact Hx|].
    destruct (Nat.leb_spec (length d) (fl_i x)) as [G1|G1]; [inversion Ex; subst; exact Hx|].
    peel Ex; inversion Ex; subst; cbn [fl_i]; lia. }
  match type of E with bind ?x _ = _ => destruct x as [c1| |] eqn:E1; cbn [bind] in E; try discriminate end.
  apply (loop_answer _ _ P _ B1) in E1; [|exact Hi].
  assert (E' : forall x, P x -> bind (loop (S (length d)) (fastcdc_loop2 p d) x)
     (fun r2 => match r2 with Return _ k => Ok (fastcdc_state_reset s, Some k)
        | Next x | Break x => Ok ({| fc_l := Z.of_nat (length d) + fc_l s; fc_fp := fl_fp x |}, None) end) = Ok (s', Some k) -> (k <= length d)%nat).
  { intros x Hx Ex. destruct (loop (S (length d)) (fastcdc_loop2 p d) x) as [c2| |] eqn:E2; cbn [bind] in Ex; try discriminate.
    apply (loop_answer _ _ P _ B2) in E2; [|exact Hx]. destruct c2 as [y|y k2|y]; try discriminate. inversion Ex; subst. exact E2. }
  destruct c1 as [x|x k1|x].
  - exact (E' x E1 E).
  - inversion E; subst. exact E1.
  - exact (E' x E1 E).
Qed.

Lemma zstd_rotate_answer : forall p u s d s' k, zstd_push_rotate p u s d = Ok (s', Some k) -> (k + 1 <= length d)%nat.
Proof.
  intros p u s d s' k E. unfold zstd_push_rotate in E. destruct (sub_slice d u (length d)) as [t| |] eqn:Et; cbn [bind] in E; try discriminate.
  assert (Lt : (length t + u = length d)%nat).
  { unfold sub_slice in Et. destruct (Nat.leb_spec u (length d)); cbn [andb] in Et; [|discriminate].
    destruct (Nat.leb_spec (length d) (length d)); [|lia]. apply (f_equal (fun r => match r with Ok x => length x | _ => O end)) in Et.
    rewrite <- Et, firstn_length, skipn_length. lia. }
  match type of E with bind ?x _ = _ => destruct x as [[s1|s1 k1|s1]| |] eqn:E1; cbn [bind] in E; try discriminate end.
  inversion E; subst. apply (for_enum_answer _ _ _ u) in E1; [lia|]. clear. intros s i v s' k E. unfold zstd_push_body in E. cbv zeta in E.
  peel E; inversion E; reflexivity.
Qed.

Theorem push_answer : forall c C s d s' k, incr_of c = Ok C -> incr_push C s d = Ok (s', Some k) ->
  (k + incr_adj c <= length d)%nat /\ match c with CfgFastCdc _ _ _ _ => True | _ => (1 <= k + incr_adj c)%nat end.
Proof.
  intros c C s d s' k EC E. destruct c; cbn [incr_of incr_adj] in *.
  - inversion EC; subst C. cbn [incr_push mii_incr] in E. unfold mii_push in E.
    match type of E with bind ?x _ = _ => destruct x as [[s1|s1 k1|s1]| |] eqn:E1; cbn [bind] in E; try discriminate end.
    inversion E; subst. apply (for_enum_answer _ _ _ 1) in E1; [lia|]. unfold mii_push_body. answer.
  - inversion EC; subst C. cbn [incr_push ram_incr] in E. unfold ram_state_push in E.
    match type of E with bind ?x _ = _ => destruct x as [[s1|s1 k1|s1]| |] eqn:E1; cbn [bind] in E; try discriminate end;
      [peel E; discriminate| |peel E; discriminate].
    inversion E; subst. apply (for_enum_answer _ _ _ 0) in E1; [lia|]. unfold ram_push_body. answer.
  - destruct (gear_with_average_size_log2 average_size_log2) as [p| |]; cbn [bind] in EC; try discriminate. inversion EC; subst C.
    cbn [incr_push gear_incr] in E. unfold gear_push in E.
    match type of E with bind ?x _ = _ => destruct x as [[s1|s1 k1|s1]| |] eqn:E1; cbn [bind] in E; try discriminate end.
    inversion E; subst. apply (for_enum_answer _ _ _ 0) in E1; [lia|]. unfold gear_push_body. answer.
  - destruct (pigz_with_bits bits) as [p| |]; cbn [bind] in EC; try discriminate. inversion EC; subst C.
    cbn [incr_push pigz_incr] in E. unfold pigz_push in E.
    match type of E with bind ?x _ = _ => destruct x as [[s1|s1 k1|s1]| |] eqn:E1; cbn [bind] in E; try discriminate end.
    inversion E; subst. apply (for_enum_answer _ _ _ 1) in E1; [lia|]. unfold pigz_body. answer.
  - inversion EC; subst C. cbn [incr_push gzip_incr] in E. unfold gzip_push in E.
    match type of E with bind ?x _ = _ => destruct x as [[s1|s1 k1|s1]| |] eqn:E1; cbn [bind] in E; try discriminate end.
    inversion E; subst. apply (for_enum_answer _ _ _ 1) in E1; [lia|]. unfold gzip_push_body. cbv zeta. answer.
  - inversion EC; subst C. cbn [incr_push fastcdc_incr] in E. apply fastcdc_push_answer in E. lia.
  - inversion EC; subst C. cbn [incr_push rollsum_incr] in E. unfold rollsum_push in E.
    match type of E with bind ?x _ = _ => destruct x as [[s1|s1 k1|s1]| |] eqn:E1; cbn [bind] in E; try discriminate end.
    inversion E; subst. apply (for_enum_answer _ _ _ 1) in E1; [lia|]. unfold rollsum_push_body. answer.
  - destruct (buzhash_new capacity mask hash max) as [p| |]; cbn [bind] in EC; try discriminate. inversion EC; subst C.
    cbn [incr_push buz_incr] in E. unfold buz_push in E.
    match type of E with bind ?x _ = _ => destruct x as [[s1|s1 k1|s1]| |] eqn:E1; cbn [bind] in E; try discriminate end.
    inversion E; subst. apply (for_enum_answer _ _ _ 1) in E1; [lia|]. unfold buz_push_body. answer.
  - destruct (zpaq_with_average_and_range average_size_pow_2 r) as [p| |]; cbn [bind] in EC; try discriminate. inversion EC; subst C.
    cbn [incr_push zpaq_incr] in E. unfold zpaq_push in E.
    match type of E with bind ?x _ = _ => destruct x as [[s1|s1 k1|s1]| |] eqn:E1; cbn [bind] in E; try discriminate end.
    inversion E; subst. apply (for_enum_answer _ _ _ 1) in E1; [lia|]. unfold zpaq_push_body. answer.
  - destruct (zstd_with_target_section_size target_section_size) as [p| |]; cbn [bind] in EC; try discriminate. inversion EC; subst C.
    cbn [incr_push zstd_incr] in E. split; [|lia]. unfold zstd_push in E. destruct (negb (zi_window_full s)).
    + peel E; try discriminate. apply zstd_rotate_answer in E. exact E.
    + apply zstd_rotate_answer in E. exact E.
Qed.

(** No built-in chunker makes [IterSlices::next] or [IterSlicesStrict::next] split past the end: a panic of [next] is a panic
    of [push]. *)
Theorem next_splits : forall c C (it : SliceIter C) s' r, incr_of c = Ok C ->
  incr_push C (it_chunker it) (it_rem it) = Ok (s', r) ->
  (exists it' o, iter_slices_next it = Ok (it', o)) /\ (exists it' o, iter_slices_strict_next it = Ok (it', o)).
Proof.
  intros c C it s' r EC E. unfold iter_slices_next, iter_slices_strict_next. rewrite E. cbn [bind].
  assert (S : forall l, r = Some l -> split_at (it_rem it) l = Ok (firstn l (it_rem it), skipn l (it_rem it))).
  { intros l ->. unfold split_at. apply (push_answer c C _ _ _ _ EC) in E. rewrite (proj2 (Nat.leb_le _ _)); [reflexivity|]. lia. }
  split.
  - destruct (it_rem it) as [|b rem] eqn:Er; [eauto|]. destruct r as [l|]; [|eauto]. rewrite (S l eq_refl). cbn [bind]. eauto.
  - destruct r as [l|]; [|eauto]. rewrite (S l eq_refl). cbn [bind]. eauto.
Qed.

(** ** [find_chunk_edge] *)
Definition past_end (c : config) : nat := match c with CfgFastCdc _ _ _ _ => 1%nat | _ => 0%nat end.

Ltac edge_loop L a E :=
  match type of E with bind ?x _ = _ => destruct x as [[?s1|?s1 ?k1|?s1]| |] eqn:?E1; cbn [bind] in E; try discriminate end;
  inversion E; subst; match goal with E1 : _ = Ok (Return _ _) |- _ => apply (L a) in E1; [lia|] end.

Theorem find_answer : forall c C s buf s' k d, chunk_of c = Ok C -> find_chunk_edge C s buf = Ok (s', (Some k, d)) ->
  (1 <= k <= length buf + past_end c)%nat /\
  match c with CfgZstd _ => (33 <= k)%nat /\ d = (length buf - 32)%nat | _ => d = k end.
Proof.
  intros c C s buf s' k d EC E. destruct c; cbn [chunk_of past_end] in *.
  - inversion EC; subst C. cbn [find_chunk_edge mii_chunk] in E. unfold mii_find_chunk_edge in E.
    destruct (mii_push s buf) as [[s1 [i|]]| |] eqn:E1; cbn [bind] in E; try discriminate. inversion E; subst.
    apply (push_answer (CfgMii w) (mii_incr (mii_with_w w)) s buf s1 _ eq_refl) in E1. cbn [incr_adj] in E1. lia.
  - inversion EC; subst C. cbn [find_chunk_edge ram_chunk] in E. unfold ram_find_chunk_edge in E.
    destruct (ram_state_push (ram_with_w w) s buf) as [[s1 [i|]]| |] eqn:E1; cbn [bind] in E; try discriminate. inversion E; subst.
    apply (push_answer (CfgRam w) (ram_incr (ram_with_w w)) s buf _ i eq_refl) in E1. cbn [incr_adj] in E1. lia.
  - destruct (gear_with_average_size_log2 average_size_log2) as [p| |]; cbn [bind] in EC; try discriminate. inversion EC; subst C.
    cbn [find_chunk_edge gear_chunk] in E. unfold gear_find_chunk_edge in E.
    match type of E with bind ?x _ = _ => destruct x as [[s1|s1 k1|s1]| |] eqn:E1; cbn [bind] in E; try discriminate end.
    inversion E; subst. apply (for_enum_answer _ _ _ 1) in E1; [lia|]. unfold gear_fce_body. answer.
  - destruct (pigz_with_bits bits) as [p| |]; cbn [bind] in EC; try discriminate. inversion EC; subst C.
    cbn [find_chunk_edge pigz_chunk] in E. unfold pigz_find_chunk_edge in E.
    match type of E with bind ?x _ = _ => destruct x as [[s1|s1 k1|s1]| |] eqn:E1; cbn [bind] in E; try discriminate end.
    inversion E; subst. apply (for_enum_answer _ _ _ 1) in E1; [lia|]. unfold pigz_body. answer.
  - inversion EC; subst C. cbn [find_chunk_edge gzip_chunk] in E. unfold gzip_find_chunk_edge in E. cbv zeta in E.
    match type of E with bind ?x _ = _ => destruct x as [[s1|s1 k1|s1]| |] eqn:E1; cbn [bind] in E; try discriminate end.
    inversion E; subst. apply (for_range_answer _ _ 1) in E1; [lia|]. unfold gzip_fce_body. cbv zeta. answer.
  - inversion EC; subst C. cbn [find_chunk_edge fastcdc_chunk] in E. unfold fastcdc_find_chunk_edge in E.
    destruct (fastcdc_state_push (fastcdc_new gear min normal max) s buf) as [[s1 [i|]]| |] eqn:E1; cbn [bind] in E; try discriminate. inversion E; subst.
    apply fastcdc_push_answer in E1. lia.
  - inversion EC; subst C. cbn [find_chunk_edge rollsum_chunk] in E. unfold rollsum_find_chunk_edge in E. cbv zeta in E.
    match type of E with bind ?x _ = _ => destruct x as [[s1|s1 k1|s1]| |] eqn:E1; cbn [bind] in E; try discriminate end.
    inversion E; subst. apply (for_range_answer _ _ 1) in E1; [lia|]. unfold rollsum_fce_body. cbv zeta. answer.
  - destruct (buzhash_new capacity mask hash max) as [p| |]; cbn [bind] in EC; try discriminate. inversion EC; subst C.
    cbn [find_chunk_edge buz_chunk] in E. unfold buz_find_chunk_edge in E. cbv zeta in E.
    match type of E with bind ?x _ = _ => destruct x as [[s1|s1 k1|s1]| |] eqn:E1; cbn [bind] in E; try discriminate end.
    inversion E; subst. apply (for_range_answer _ _ 1) in E1; [lia|]. unfold buz_fce_body. cbv zeta. answer.
  - destruct (zpaq_with_average_and_range average_size_pow_2 r) as [p| |]; cbn [bind] in EC; try discriminate. inversion EC; subst C.
    cbn [find_chunk_edge zpaq_chunk] in E. unfold zpaq_find_chunk_edge in E.
    match type of E with bind ?x _ = _ => destruct x as [[s1|s1 k1|s1]| |] eqn:E1; cbn [bind] in E; try discriminate end.
    inversion E; subst. apply (for_enum_answer _ _ _ 1) in E1; [lia|]. unfold zpaq_fce_body. answer.
  - destruct (zstd_with_target_section_size target_section_size) as [p| |]; cbn [bind] in EC; try discriminate. inversion EC; subst C.
    cbn [find_chunk_edge zstd_chunk] in E. unfold zstd_find_chunk_edge in E.
    match type of E with bind ?x _ = _ => destruct x as [s1| |]; cbn [bind] in E; try discriminate end.
    destruct (Nat.ltb_spec (zss_offset s1) RSYNC_LENGTH) as [G|G]; [discriminate|].
    match type of E with bind ?x _ = _ => destruct x as [[h|h k1|h]| |] eqn:E1; cbn [bind] in E; try discriminate end.
    apply (f_equal (fun r => match r with Ok (_, x) => x | _ => (None, O) end)) in E. pose proof (f_equal fst E) as X. pose proof (f_equal snd E) as Y.
    cbn [fst snd] in X, Y. assert (k1 = k) by congruence. subst k1 d. clear X E.
    apply (for_range_answer _ _ 1) in E1; [unfold RSYNC_LENGTH in *; lia|]. unfold zstd_fce_body. cbv zeta. answer.
Qed.

(** ** Order of the cuts any caller sees *)
Theorem incr_cuts_order : forall c C data sched r, incr_of c = Ok C -> run_incr (incr_adj c) C data sched = Ok r ->
  Forall (fun p => p <= length data)%nat (r_cuts r) /\ (r_base r <= length data)%nat /\
  match c with CfgFastCdc _ _ _ _ => True | _ => strictly_above 0 (r_cuts r) end.
Proof.
  intros c C data sched r EC. unfold run_incr.
  cut (forall s none seen base start, (start <= base <= length data)%nat ->
    drive_push (incr_adj c) (incr_push C) data sched s base seen none = Ok r ->
    Forall (fun p => p <= length data)%nat (r_cuts r) /\ (r_base r <= length data)%nat /\
    match c with CfgFastCdc _ _ _ _ => True | _ => strictly_above start (r_cuts r) end).
  { intros H. apply (H _ _ _ O O). lia. }
  revert r. induction sched as [|g sched IH]; intros r s none seen base start HB E; cbn [drive_push] in E.
  - inversion E; subst r. cbn [r_cuts r_base]. split; [constructor|]. split; [lia|]. destruct c; exact I.
  - set (d := firstn g (skipn base data)) in *. assert (Ld : (base + length d <= length data)%nat) by (unfold d; rewrite firstn_length, skipn_length; lia).
    destruct (incr_push C s d) as [[s' o]| |] eqn:Ep; cbn [bind] in E; try discriminate. destruct o as [k|].
    + apply (push_answer c C _ _ _ _ EC) in Ep. destruct (Nat.ltb_spec (length d) (k + incr_adj c)) as [G|G]; [discriminate|].
      match type of E with bind ?x _ = _ => destruct x as [r1| |] eqn:E1; cbn [bind] in E; try discriminate end.
      inversion E; subst r. cbn [r_cuts r_base add_cut]. apply (IH _ _ _ _ _ (base + k + incr_adj c)%nat) in E1; [|lia].
      destruct E1 as (A & B & Cc). split; [constructor; [lia|exact A]|]. split; [exact B|].
      destruct c; try exact I; cbn [strictly_above]; (split; [lia|exact Cc]).
    + eapply IH; [|exact E]. lia.
Qed.

Theorem chunk_cuts_order : forall c C sh data sched r, chunk_of c = Ok C -> run_chunk sh C data sched = Ok r ->
  strictly_above 0 (r_cuts r) /\ Forall (fun p => p <= length data)%nat (r_cuts r) /\ (r_base r <= length data)%nat.
Proof.
  intros c C sh data sched r EC. unfold run_chunk.
  cut (forall s none seen base lo start, (base <= length data)%nat -> (start <= base + match c with CfgZstd _ => 32 | _ => 0 end)%nat ->
    drive_chunk sh (find_chunk_edge C) data sched s base lo seen none = Ok r ->
    strictly_above start (r_cuts r) /\ Forall (fun p => p <= length data)%nat (r_cuts r) /\ (r_base r <= length data)%nat).
  { intros H. apply (H _ _ _ O O O); lia. }
  revert r. induction sched as [|g sched IH]; intros r s none seen base lo start HB HS E; cbn [drive_chunk] in E.
  - inversion E; subst r. cbn [r_cuts r_base strictly_above]. split; [exact I|]. split; [constructor|exact HB].
  - set (hi := Nat.min (length data) (Nat.max lo (base + g))) in *. set (buf := firstn (hi - base) (skipn base data)) in *.
    assert (Lb : (base + length buf <= length data)%nat) by (unfold buf, hi; rewrite firstn_length, skipn_length; lia).
    destruct (find_chunk_edge C s buf) as [[s' [o d]]| |] eqn:Ef; cbn [bind] in E; try discriminate.
    destruct (Nat.ltb_spec (length buf) d) as [Gd|Gd]; [discriminate|]. destruct o as [k|].
    + destruct (Nat.ltb_spec (length buf) k) as [Gk|Gk]; [discriminate|]. apply (find_answer c C _ _ _ _ _ EC) in Ef.
      match type of E with bind ?x _ = _ => destruct x as [r1| |] eqn:E1; cbn [bind] in E; try discriminate end.
      inversion E; subst r. cbn [r_cuts r_base add_cut strictly_above].
      apply (IH _ _ _ _ _ _ (base + k)%nat) in E1; [|lia|destruct c; lia].
      destruct E1 as (A & B & Cc). split; [split; [|exact A]|split; [constructor; [lia|exact B]|exact Cc]].
      destruct c; lia.
    + eapply IH; [| |exact E]; [lia|]. lia.
Qed.
