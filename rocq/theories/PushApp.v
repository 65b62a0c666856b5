(** * PushApp: pushing bytes in two calls is pushing them in one; slicing buffer by buffer. *)

From Verif Require Import Base Api Tables Range Spec Lists Contract Step Words IterProofs.
From Verif Require Import Mii Ram Gear Pigz Gzip FastCdc Bup BuzHash Zpaq Zstd FastCdcProofs FastCdcExact Builtin BuiltinProofs.

(** What [push] of [a], and of [b] if [a] gave no cut, answers; positions count from the start of [a]. *)
Definition push_twice (C : Incr) (s : incr_state C) (a b : list byte) : res (incr_state C * option nat) :=
  '(s1, o) <- incr_push C s a ;;
  match o with
  | Some k => Ok (s1, Some k)
  | None =>
      '(s2, o2) <- incr_push C s1 b ;;
      Ok (s2, match o2 with Some k => Some (length a + k)%nat | None => None end)
  end.

(** States of a chunker that has been given [n] bytes in any number of calls. *)
Inductive fed (C : Incr) : incr_state C -> nat -> Prop :=
| fed_new : fed C (incr_new C) 0
| fed_push : forall s n d s' o, fed C s n -> incr_push C s d = Ok (s', o) -> fed C s' (n + length d).

(** [ok s d]: [d] may be pushed in state [s]. *)
Record splits (C : Incr) (ok : incr_state C -> list byte -> Prop) : Prop := {
  sp_pre : forall s a b, ok s (a ++ b) -> ok s a;
  sp_split : forall s a b, ok s (a ++ b) -> incr_push C s (a ++ b) = push_twice C s a b;
  sp_after : forall s a b s1 o, ok s (a ++ b) -> incr_push C s a = Ok (s1, o) -> ok s1 b;
  sp_some : forall s a b s1 k, ok s (a ++ b) -> incr_push C s a = Ok (s1, Some k) -> ok s1 (skipn k a ++ b);
  sp_in : forall s a b s1 k, ok s (a ++ b) -> incr_push C s a = Ok (s1, Some k) -> (k <= length a)%nat;
}.

(** ** Loops over the bytes *)
Definition shift_ctl {S} (n : nat) (r : res (ctl S nat)) : res (ctl S nat) :=
  c <- r ;; Ok (match c with Next s => Next s | Return s k => Return s (n + k)%nat | Break s => Break s end).

Lemma for_enum_app : forall S A (body : S -> nat -> A -> res (ctl S nat)) a b i s,
  for_enum body i (a ++ b) s = (c <- for_enum body i a s ;; match c with Next s' => for_enum body (i + length a) b s' | other => Ok other end).
Proof.
  induction a as [|x a IH]; intros b i s; cbn [app for_enum bind length].
  - now rewrite Nat.add_0_r.
  - destruct (body s i x) as [[s'|s' k|s']| |]; cbn [bind]; try reflexivity. rewrite IH. now replace (i + Datatypes.S (length a))%nat with (Datatypes.S i + length a)%nat by lia.
Qed.

Definition body_shifts {S} (body : S -> nat -> byte -> res (ctl S nat)) : Prop :=
  forall n s i b, body s (n + i)%nat b = shift_ctl n (body s i b).
Definition body_goes {S} (body : S -> nat -> byte -> res (ctl S nat)) : Prop :=
  forall s i b, match body s i b with Ok (Return _ k) => (i <= k <= i + 1)%nat | Ok (Break _) => False | _ => True end.

Lemma for_enum_shift : forall S (body : S -> nat -> byte -> res (ctl S nat)), body_shifts body ->
  forall n d i s, for_enum body (n + i) d s = shift_ctl n (for_enum body i d s).
Proof.
  intros S body Hb n. induction d as [|x d IH]; intros i s; cbn [for_enum]; [reflexivity|]. rewrite Hb.
  destruct (body s i x) as [[s'|s' k|s']| |]; cbn [shift_ctl bind]; try reflexivity. replace (Datatypes.S (n + i)) with (n + Datatypes.S i)%nat by lia. apply IH.
Qed.

Lemma for_enum_goes : forall S (body : S -> nat -> byte -> res (ctl S nat)), body_goes body ->
  forall d i s, match for_enum body i d s with Ok (Return _ k) => (i <= k <= i + length d)%nat | Ok (Break _) => False | _ => True end.
Proof.
  intros S body Hb. induction d as [|x d IH]; intros i s; cbn [for_enum]; [exact I|]. assert (G := Hb s i x).
  destruct (body s i x) as [[s'|s' k|s']| |]; cbn [bind length]; try exact G; [|lia].
  specialize (IH (Datatypes.S i) s'). destruct (for_enum body _ d s') as [[?|? k|?]| |]; try exact IH. lia.
Qed.

Lemma scan_push_splits : forall C (body : incr_state C -> nat -> byte -> res (ctl (incr_state C) nat)), body_shifts body -> body_goes body ->
  (forall s d, incr_push C s d = scan_push body s d) -> splits C (fun _ _ => True).
Proof.
  intros C body Hs Hg Hp.
  assert (In : forall s a s1 k, incr_push C s a = Ok (s1, Some k) -> (k <= length a)%nat).
  { intros s a s1 k E. rewrite Hp in E. unfold scan_push in E. assert (G := for_enum_goes _ body Hg a 0%nat s).
    destruct (for_enum body 0 a s) as [[?|? k0|?]| |]; cbn [bind] in E; try discriminate. injection E as _ <-. lia. }
  constructor; auto.
  - intros s a b _. unfold push_twice. rewrite !Hp. unfold scan_push. rewrite for_enum_app. assert (G := for_enum_goes _ body Hg a 0%nat s).
    destruct (for_enum body 0 a s) as [[s1|s1 k|s1]| |]; cbn [bind]; try reflexivity; [|destruct G].
    rewrite Hp. unfold scan_push. replace (0 + length a)%nat with (length a + 0)%nat by lia. rewrite (for_enum_shift _ body Hs).
    destruct (for_enum body 0 b s1) as [[s2|s2 k|s2]| |]; reflexivity.
  - intros s a b s1 k _ E. exact (In _ _ _ _ E).
Qed.

Ltac scan_body :=
  match goal with
  | |- body_shifts _ => intros n s i b
  | |- body_goes _ => intros s i b
  end.
Ltac body_cases :=
  repeat match goal with
  | |- context [bind ?x _] => lazymatch x with Ok _ => cbn [bind] | _ => destruct x as [?| |] eqn:? end; cbn [bind shift_ctl]
  | |- context [if ?x then _ else _] => destruct x eqn:?
  | |- context [let '(_, _) := ?x in _] => destruct x eqn:?
  end; cbn [bind shift_ctl]; try exact I; try lia; try reflexivity; try (rewrite ?Nat.add_assoc; reflexivity).

Lemma mii_splits : forall w, splits (mii_incr w) (fun _ _ => True).
Proof. intros w. apply (scan_push_splits (mii_incr w) mii_push_body); [| |reflexivity]; scan_body; unfold mii_push_body; body_cases. Qed.
Lemma gear_splits : forall p, splits (gear_incr p) (fun _ _ => True).
Proof. intros p. apply (scan_push_splits (gear_incr p) (gear_push_body p)); [| |reflexivity]; scan_body; unfold gear_push_body, gear_state_push; body_cases. Qed.
Lemma pigz_splits : forall p, splits (pigz_incr p) (fun _ _ => True).
Proof. intros p. apply (scan_push_splits (pigz_incr p) (pigz_body p)); [| |reflexivity]; scan_body; unfold pigz_body; body_cases. Qed.
Lemma gzip_splits : forall p, splits (gzip_incr p) (fun _ _ => True).
Proof. intros p. apply (scan_push_splits (gzip_incr p) (gzip_push_body p)); [| |reflexivity]; scan_body; unfold gzip_push_body; body_cases. Qed.
Lemma rollsum_splits : forall w, splits (rollsum_incr w) (fun _ _ => True).
Proof. intros w. apply (scan_push_splits (rollsum_incr w) rollsum_push_body); [| |reflexivity]; scan_body; unfold rollsum_push_body; body_cases. Qed.
Lemma buz_splits : forall p, splits (buz_incr p) (fun _ _ => True).
Proof. intros p. apply (scan_push_splits (buz_incr p) (buz_push_body p)); [| |reflexivity]; scan_body; unfold buz_push_body; body_cases. Qed.
Lemma zpaq_splits : forall p, splits (zpaq_incr p) (fun _ _ => True).
Proof. intros p. apply (scan_push_splits (zpaq_incr p) (zpaq_push_body p)); [| |reflexivity]; scan_body; unfold zpaq_push_body; body_cases. Qed.

(** ** Ram counts the bytes of earlier calls *)
Definition ram_same (n : nat) (x y : Z) (r1 r2 : res (ctl RamState nat)) : Prop :=
  match r1, r2 with
  | Ok (Next s1), Ok (Next s2) => ram_i s1 = x /\ ram_i s2 = y /\ ram_max_val s1 = ram_max_val s2
  | Ok (Return s1 k1), Ok (Return s2 k2) => s1 = s2 /\ k1 = (n + k2)%nat
  | Panic, Panic => True
  | _, _ => False
  end.

Lemma ram_body : forall w i x m l v, ram_push_body w i {| ram_i := x; ram_max_val := m |} l v =
  if byte_geb v m then (ri <- add_u64 (Z.of_nat l) i ;; if w <? ri then Ok (Return {| ram_i := 0; ram_max_val := x00 |} l) else Ok (Next {| ram_i := x; ram_max_val := v |}))
  else Ok (Next {| ram_i := x; ram_max_val := m |}).
Proof. reflexivity. Qed.

Lemma ram_loop_shift : forall w I n d j x y m,
  ram_same n x y (for_enum (ram_push_body w I) (n + j) d {| ram_i := x; ram_max_val := m |})
    (for_enum (ram_push_body w (I + Z.of_nat n)) j d {| ram_i := y; ram_max_val := m |}).
Proof.
  intros w I n. induction d as [|v d IH]; intros j x y m; cbn [for_enum]; [now cbn|].
  assert (A : add_u64 (Z.of_nat (n + j)) I = add_u64 (Z.of_nat j) (I + Z.of_nat n)) by (unfold add_u64; replace (Z.of_nat (n + j) + I) with (Z.of_nat j + (I + Z.of_nat n)) by lia; reflexivity).
  rewrite !ram_body. destruct (byte_geb v m).
  - rewrite A. clear A. destruct (add_u64 (Z.of_nat j) (I + Z.of_nat n)) as [ri| |] eqn:E; cbn [bind].
    + destruct (w <? ri); cbn [bind]; [split; reflexivity|]. replace (S (n + j)) with (n + S j)%nat by lia. apply IH.
    + exact Logic.I.
    + unfold add_u64 in E. destruct (_ <? _) in E; discriminate.
  - cbn [bind]. replace (S (n + j)) with (n + S j)%nat by lia. apply IH.
Qed.

Lemma ram_loop_late : forall w I d j x m, two64 <= I + Z.of_nat j -> match for_enum (ram_push_body w I) j d {| ram_i := x; ram_max_val := m |} with
  | Ok (Next s1) => ram_i s1 = x | Panic => True | _ => False end.
Proof.
  intros w I. induction d as [|v d IH]; intros j x m Hj; cbn [for_enum]; [reflexivity|]. rewrite ram_body. destruct (byte_geb v m).
  - unfold add_u64. rewrite (proj2 (Z.ltb_ge _ _)) by lia. exact Logic.I.
  - cbn [bind]. apply IH. lia.
Qed.

Lemma ram_loop_keeps : forall w I d j s, match for_enum (ram_push_body w I) j d s with
  | Ok (Next s1) => ram_i s1 = ram_i s | Ok (Return s1 k) => ram_i s1 = 0 /\ (k <= j + length d)%nat | Ok (Break _) => False | _ => True end.
Proof.
  intros w I. induction d as [|v d IH]; intros j s; cbn [for_enum]; [reflexivity|]. unfold ram_push_body at 1. destruct (byte_geb v (ram_max_val s)).
  - destruct (add_u64 _ _) as [ri| |]; cbn [bind]; try exact Logic.I. destruct (w <? ri); cbn [bind length]; [cbn; lia|].
    specialize (IH (S j) {| ram_i := ram_i s; ram_max_val := v |}). destruct (for_enum _ _ d _) as [[?|? k|?]| |]; try exact IH. cbn [length]; lia.
  - cbn [bind]. specialize (IH (S j) s). destruct (for_enum _ _ d _) as [[?|? k|?]| |]; try exact IH. cbn [length]; lia.
Qed.

Definition ram_may (s : RamState) (_ : list byte) : Prop := 0 <= ram_i s.
Lemma ram_push_inv : forall w s d s' o, 0 <= ram_i s -> ram_state_push w s d = Ok (s', o) -> 0 <= ram_i s' /\ match o with Some k => (k <= length d)%nat | None => True end.
Proof.
  intros w s d s' o H E. unfold ram_state_push in E. assert (G := ram_loop_keeps w (ram_i s) d 0%nat s).
  destruct (for_enum _ 0 d s) as [[s1|s1 k|s1]| |]; cbn [bind] in E; try discriminate; [|injection E as <- <-; lia|destruct G].
  unfold add_u64 in E. destruct (_ <? _); cbn [bind] in E; [|discriminate]. injection E as <- <-. cbn. lia.
Qed.
Lemma ram_splits : forall w, splits (ram_incr w) ram_may.
Proof.
  intros w. unfold ram_may. constructor; cbn [ram_incr incr_state incr_push]; [auto| | | |].
  - intros s a b H. unfold push_twice. cbn [ram_incr incr_state incr_push]. unfold ram_state_push at 1 2. rewrite for_enum_app. assert (G := ram_loop_keeps w (ram_i s) a 0%nat s).
    destruct (for_enum _ 0 a s) as [[s1|s1 k|s1]| |] eqn:Ea; cbn [bind]; try reflexivity; [|destruct G].
    destruct s1 as [x m]. cbn [ram_i ram_max_val] in *. subst x. cbn [Nat.add]. destruct (Z.lt_ge_cases (ram_i s + Z.of_nat (length a)) two64) as [Hl|Hl].
    + replace (add_u64 (ram_i s) (Z.of_nat (length a))) with (Ok (ram_i s + Z.of_nat (length a))) by (unfold add_u64; now rewrite (proj2 (Z.ltb_lt _ _) Hl)). cbn [bind]. unfold ram_state_push. cbn [ram_i].
      assert (X := ram_loop_shift w (ram_i s) (length a) b 0%nat (ram_i s) (ram_i s + Z.of_nat (length a)) m). rewrite Nat.add_0_r in X.
      destruct (for_enum (ram_push_body w (ram_i s)) (length a) b _) as [[s1|s1 k1|s1]| |]; destruct (for_enum (ram_push_body w (ram_i s + Z.of_nat (length a))) 0 b _) as [[s2|s2 k2|s2]| |]; try destruct X; cbn [bind]; try reflexivity.
      * destruct H1 as [H1 H2]. rewrite H0, H1, H2. unfold add_u64. rewrite app_length, Nat2Z.inj_add, Z.add_assoc. destruct (_ <? _); reflexivity.
      * now subst.
    + replace (add_u64 (ram_i s) (Z.of_nat (length a))) with (@Panic Z) by (unfold add_u64; now rewrite (proj2 (Z.ltb_ge _ _) Hl)). cbn [bind].
      assert (X := ram_loop_late w (ram_i s) b (length a) (ram_i s) m Hl).
      destruct (for_enum (ram_push_body w (ram_i s)) (length a) b _) as [[s1|s1 k1|s1]| |]; try destruct X; cbn [bind]; try reflexivity.
      unfold add_u64. rewrite (proj2 (Z.ltb_ge _ _)); [reflexivity|]. rewrite app_length. lia.
  - intros s a b s1 o H E. exact (proj1 (ram_push_inv _ _ _ _ _ H E)).
  - intros s a b s1 k H E. exact (proj1 (ram_push_inv _ _ _ _ _ H E)).
  - intros s a b s1 k H E. exact (proj2 (ram_push_inv _ _ _ _ _ H E)).
Qed.

(** ** Zstd fills its window first *)
Lemma zstd_body_shifts : forall p, body_shifts (zstd_push_body p 0).
Proof. intros p. scan_body. unfold zstd_push_body. body_cases. Qed.
Lemma zstd_body_goes : forall p, body_goes (zstd_push_body p 0).
Proof. intros p. scan_body. unfold zstd_push_body. body_cases. Qed.
Lemma zstd_body_use : forall p u s i v, zstd_push_body p u s i v = shift_ctl u (zstd_push_body p 0 s i v).
Proof. intros p u s i v. unfold zstd_push_body. body_cases. replace (i + u)%nat with (u + (i + 0))%nat by lia. reflexivity. Qed.

Definition shift_ans {S} (n : nat) (r : res (S * option nat)) : res (S * option nat) :=
  '(s, o) <- r ;; Ok (s, match o with Some k => Some (n + k)%nat | None => None end).

Lemma zstd_rotate_ans : forall p u s d, (u <= length d)%nat -> zstd_push_rotate p u s d = shift_ans u (scan_push (zstd_push_body p 0) s (skipn u d)).
Proof.
  intros p u s d Hu. unfold zstd_push_rotate, sub_slice. rewrite (proj2 (Nat.leb_le _ _) Hu), Nat.leb_refl. cbn [andb bind].
  rewrite firstn_all2 by (rewrite skipn_length; lia). unfold scan_push.
  assert (X : forall d i s, for_enum (zstd_push_body p u) i d s = shift_ctl u (for_enum (zstd_push_body p 0) i d s)).
  { clear. induction d as [|v d IH]; intros i s; cbn [for_enum]; [reflexivity|]. rewrite zstd_body_use. destruct (zstd_push_body p 0 s i v) as [[?|? ?|?]| |]; cbn [shift_ctl bind]; try reflexivity. apply IH. }
  rewrite X. destruct (for_enum _ 0 _ s) as [[?|? ?|?]| |]; reflexivity.
Qed.

Definition zstd_may (s : ZstdIncr) (_ : list byte) : Prop := zi_window_full s = true \/ (zi_window_offs s <= length (zi_window s))%nat.

Lemma zstd_push_full : forall p s d, zi_window_full s = true -> zstd_push p s d = scan_push (zstd_push_body p 0) s d.
Proof.
  intros p s d F. unfold zstd_push. rewrite F. cbn [negb]. rewrite zstd_rotate_ans by lia. cbn [skipn].
  destruct (scan_push _ s d) as [[? [?|]]| |]; reflexivity.
Qed.

Definition zstd_filled (s : ZstdIncr) (win : list byte) : ZstdIncr :=
  {| zi_state := zstd_append (zi_state s) win; zi_window := win; zi_window_offs := 0; zi_window_full := true |}.

Lemma zstd_push_fill : forall p s d, zi_window_full s = false -> (zi_window_offs s <= length (zi_window s))%nat ->
  let room := (length (zi_window s) - zi_window_offs s)%nat in
  zstd_push p s d =
  if Nat.ltb (length d) room then
    Ok ({| zi_state := zi_state s; zi_window := firstn (zi_window_offs s) (zi_window s) ++ d ++ skipn (zi_window_offs s + length d) (zi_window s);
           zi_window_offs := zi_window_offs s + length d; zi_window_full := false |}, None)
  else shift_ans room (scan_push (zstd_push_body p 0) (zstd_filled s (firstn (zi_window_offs s) (zi_window s) ++ firstn room d)) (skipn room d)).
Proof.
  intros p s d F H room. unfold zstd_push. rewrite F. cbn [negb]. unfold sub_usize. rewrite (proj2 (Nat.leb_le _ _) H). cbn [bind]. fold room.
  set (o := zi_window_offs s) in *. set (w := zi_window s) in *. set (u := Nat.min room (length d)).
  unfold sub_slice at 1. rewrite (proj2 (Nat.leb_le 0 u)) by lia. rewrite (proj2 (Nat.leb_le u (length d))) by lia. cbn [andb bind skipn]. rewrite Nat.sub_0_r.
  unfold copy_from_slice, sub_slice. rewrite (proj2 (Nat.leb_le o (o + u))) by lia. rewrite (proj2 (Nat.leb_le (o + u) (length w))) by (unfold u, room; lia). cbn [andb bind].
  rewrite (proj2 (Nat.eqb_eq _ _)) by (rewrite firstn_length; unfold u; lia). cbn [bind].
  assert (Lw : length (firstn o w ++ firstn u d ++ skipn (o + u) w) = length w) by (rewrite !app_length, !firstn_length, skipn_length; unfold u, room; lia).
  rewrite Lw. destruct (Nat.ltb_spec (length d) room) as [G|G].
  - rewrite (proj2 (Nat.eqb_neq _ _)) by (unfold u, room in *; lia). cbn [negb]. replace u with (length d) by (unfold u; lia). now rewrite firstn_all.
  - rewrite (proj2 (Nat.eqb_eq _ _)) by (unfold u, room in *; lia). cbn [negb]. replace u with room by (unfold u; lia). rewrite zstd_rotate_ans by exact G.
    rewrite (skipn_all2 w) by (unfold room; lia). now rewrite app_nil_r.
Qed.

Lemma scan_twice : forall S (body : S -> nat -> byte -> res (ctl S nat)), body_shifts body -> body_goes body -> forall s a b,
  scan_push body s (a ++ b) = ('(s1, o) <- scan_push body s a ;; match o with Some k => Ok (s1, Some k) | None => shift_ans (length a) (scan_push body s1 b) end).
Proof.
  intros S body Hs Hg s a b. unfold scan_push. rewrite for_enum_app. assert (G := for_enum_goes _ body Hg a 0%nat s).
  destruct (for_enum body 0 a s) as [[s1|s1 k|s1]| |]; cbn [bind]; try reflexivity; [|destruct G].
  replace (0 + length a)%nat with (length a + 0)%nat by lia. rewrite (for_enum_shift _ body Hs). destruct (for_enum body 0 b s1) as [[s2|s2 k|s2]| |]; reflexivity.
Qed.

Lemma zstd_scan_full : forall p s d s' o, zi_window_full s = true -> scan_push (zstd_push_body p 0) s d = Ok (s', o) -> zi_window_full s' = true.
Proof.
  intros p s d s' o F E. unfold scan_push in E.
  assert (X : forall d i s, zi_window_full s = true -> match for_enum (zstd_push_body p 0) i d s with Ok (Next s1) | Ok (Return s1 _) | Ok (Break s1) => zi_window_full s1 = true | _ => True end).
  { clear. induction d as [|v d IH]; intros i s F; cbn [for_enum]; [exact F|]. unfold zstd_push_body at 1.
    destruct (index _ _) as [r| |]; cbn [bind]; try exact I. destruct (store _ _ _) as [win| |]; cbn [bind]; try exact I. destruct (length win); cbn [bind]; try exact I.
    destruct (zstd_at_split p _); cbn [bind]; [exact F|]. apply IH. exact F. }
  specialize (X d 0%nat s F). destruct (for_enum _ 0 d s) as [[?|? ?|?]| |]; cbn [bind] in E; try discriminate; injection E as <- _; exact X.
Qed.

Lemma shift_shift : forall S n m (r : res (S * option nat)), shift_ans n (shift_ans m r) = shift_ans (n + m) r.
Proof. intros S n m [[s [k|]]| |]; cbn; try reflexivity. now rewrite Nat.add_assoc. Qed.

Lemma zstd_push_inv : forall p s d s' o, zstd_may s d -> zstd_push p s d = Ok (s', o) -> zstd_may s' d /\ match o with Some k => (k <= length d)%nat | None => True end.
Proof.
  intros p s d s' o H E.
  assert (G : forall s d s' o, scan_push (zstd_push_body p 0) s d = Ok (s', o) -> match o with Some k => (k <= length d)%nat | None => True end).
  { clear. intros s d s' o E. unfold scan_push in E. assert (X := for_enum_goes _ _ (zstd_body_goes p) d 0%nat s).
    destruct (for_enum _ 0 d s) as [[?|? k|?]| |]; cbn [bind] in E; try discriminate; injection E as _ <-; [exact I|lia|destruct X]. }
  destruct (zi_window_full s) eqn:F.
  - rewrite zstd_push_full in E by exact F. split; [left; exact (zstd_scan_full _ _ _ _ _ F E)|exact (G _ _ _ _ E)].
  - destruct H as [H|H]; [congruence|]. rewrite zstd_push_fill in E by assumption. destruct (Nat.ltb_spec (length d) (length (zi_window s) - zi_window_offs s)) as [L|L].
    + injection E as <- <-. split; [right|exact I]. cbn [zi_window_offs zi_window]. rewrite !app_length, firstn_length, skipn_length. lia.
    + destruct (scan_push _ _ _) as [[s1 o1]| |] eqn:E1 in E; cbn [shift_ans bind] in E; try discriminate. injection E as <- <-. split; [left; apply (fun F => zstd_scan_full _ _ _ _ _ F E1); reflexivity|].
      assert (X := G _ _ _ _ E1). rewrite skipn_length in X. destruct o1 as [k|]; [|exact I]. lia.
Qed.

Lemma zstd_splits : forall p, splits (zstd_incr p) zstd_may.
Proof.
  intros p. constructor; cbn [zstd_incr incr_state incr_push]; [auto| | | |].
  - intros s a b H. unfold push_twice. cbn [zstd_incr incr_state incr_push].
    change ((zstd_push p s (a ++ b)) = ('(s1, o) <- zstd_push p s a ;; match o with Some k => Ok (s1, Some k) | None => shift_ans (length a) (zstd_push p s1 b) end)).
    assert (Sc := scan_twice _ _ (zstd_body_shifts p) (zstd_body_goes p)).
    destruct (zi_window_full s) eqn:F.
    + rewrite !zstd_push_full by exact F. rewrite Sc. destruct (scan_push _ s a) as [[s1 [k|]]| |] eqn:E; cbn [bind]; try reflexivity.
      now rewrite zstd_push_full by exact (zstd_scan_full _ _ _ _ _ F E).
    + destruct H as [H|H]; [congruence|]. rewrite !zstd_push_fill by assumption. set (room := (length (zi_window s) - zi_window_offs s)%nat). rewrite app_length.
      destruct (Nat.ltb_spec (length a) room) as [La|La].
      * cbn [bind].
        set (s1 := {| zi_state := zi_state s; zi_window := firstn (zi_window_offs s) (zi_window s) ++ a ++ skipn (zi_window_offs s + length a) (zi_window s);
          zi_window_offs := zi_window_offs s + length a; zi_window_full := false |}).
        assert (L1 : length (zi_window s1) = length (zi_window s)) by (unfold s1; cbn [zi_window]; rewrite !app_length, firstn_length, skipn_length; unfold room in La; lia).
        rewrite (zstd_push_fill p s1 b eq_refl) by (rewrite L1; unfold s1; cbn [zi_window_offs]; unfold room in La; lia). rewrite L1. cbn [zi_window_offs s1].
        replace (length (zi_window s) - (zi_window_offs s + length a))%nat with (room - length a)%nat by (unfold room; lia).
        assert (Fw : firstn (zi_window_offs s + length a) (zi_window s1) = firstn (zi_window_offs s) (zi_window s) ++ a).
        { unfold s1; cbn [zi_window]. rewrite app_assoc. rewrite firstn_app_le by (rewrite app_length, firstn_length; unfold room in La; lia).
          apply firstn_all2. rewrite app_length, firstn_length. lia. }
        destruct (Nat.ltb_spec (length a + length b) room) as [Lb|Lb].
        -- rewrite (proj2 (Nat.ltb_lt _ _)) by lia. cbn [shift_ans bind]. rewrite Fw.
           assert (Sk : skipn (zi_window_offs s + length a + length b) (zi_window s1) = skipn (zi_window_offs s + (length a + length b)) (zi_window s)).
           { unfold s1; cbn [zi_window]. rewrite skipn_app_ge by (rewrite firstn_length; unfold room in *; lia). rewrite skipn_app_ge by (rewrite firstn_length; unfold room in *; lia).
             rewrite skipn_skipn'. f_equal. rewrite firstn_length. unfold room in *. lia. }
           rewrite Sk. cbn [zi_state s1]. rewrite <- !app_assoc, Nat.add_assoc. reflexivity.
        -- rewrite (proj2 (Nat.ltb_ge _ _)) by lia. rewrite shift_shift. replace (length a + (room - length a))%nat with room by lia. rewrite Fw.
           rewrite firstn_app_ge by lia. rewrite skipn_app_ge by lia. rewrite <- app_assoc. reflexivity.
      * rewrite (proj2 (Nat.ltb_ge _ _)) by lia. rewrite firstn_app_le by exact La. rewrite skipn_app_le by exact La. rewrite Sc.
        destruct (scan_push _ _ (skipn room a)) as [[s1 [k|]]| |] eqn:E; cbn [shift_ans bind]; try reflexivity.
        rewrite zstd_push_full by (apply (fun F => zstd_scan_full _ _ _ _ _ F E); reflexivity). rewrite skipn_length. destruct (scan_push _ s1 b) as [[s2 [k|]]| |]; cbn [shift_ans bind]; try reflexivity.
        replace (room + (length a - room + k))%nat with (length a + k)%nat by lia. reflexivity.
  - intros s a b s1 o H E. exact (proj1 (zstd_push_inv p s a s1 _ H E)).
  - intros s a b s1 k H E. exact (proj1 (zstd_push_inv p s a s1 _ H E)).
  - intros s a b s1 k H E. exact (proj2 (zstd_push_inv p s a s1 _ H E)).
Qed.

(** ** FastCdc, when its cuts do not depend on the slicing *)
Definition fc_may (p : FastCdc) (F : first_rel) (s : FastCdcState) (d : list byte) : Prop :=
  exists c, fc_rel p s c /\ (forall n, ~ F [] c n) /\ below_2_64 (length (c ++ d)).

Lemma fc_rel_fun : forall p s s' c, fc_rel p s c -> fc_rel p s' c -> s = s'.
Proof. intros p [l f] [l' f'] c [A B] [A' B']. cbn in *. congruence. Qed.

Lemma fc_splits_of : forall p F, first_laws F -> (forall h d n, F h d n -> F [] d n) ->
  push_ok 0 (fastcdc_state_push p) F below_2_64 (fun s _ c => fc_rel p s c) -> splits (fastcdc_incr p) (fc_may p F).
Proof.
  intros p F L Fh K.
  assert (Hb : forall (c a b : list byte), below_2_64 (length (c ++ a ++ b)) -> below_2_64 (length ([] ++ c ++ a))) by (unfold below_2_64; intros c a b; cbn [app]; rewrite !app_length; lia).
  constructor; cbn [fastcdc_incr incr_state incr_push]; [intros s a b (c & Rc & Nc & Hl); exists c; exact (conj Rc (conj Nc (Hb _ _ _ Hl)))| | | |].
  - intros s a b (c & Rc & Nc & Hl). unfold push_twice. cbn [fastcdc_incr incr_state incr_push].
    destruct (K s [] c a Rc Nc (Hb _ _ _ Hl)) as [(n & k & s1 & F1 & -> & E1 & R1)|(s1 & N1 & E1 & R1)]; rewrite E1; cbn [bind].
    + destruct (K s [] c (a ++ b) Rc Nc Hl) as [(n' & k' & s2 & F2 & -> & E2 & R2)|(s2 & N2 & E2 & R2)].
      * rewrite E2. apply (fl_ext _ L _ _ b) in F1. rewrite <- app_assoc in F1. assert (X := fl_fun _ L _ _ _ _ F1 F2). replace k' with k by lia. now rewrite (fc_rel_fun _ _ _ _ R1 R2).
      * exfalso. rewrite app_assoc in N2. exact (N2 _ (fl_ext _ L _ _ b _ F1)).
    + assert (Hl' : below_2_64 (length ([] ++ (c ++ a) ++ b))) by (now rewrite <- app_assoc).
      destruct (K s1 [] (c ++ a) b R1 N1 Hl') as [(n & k & s2 & F2 & -> & E2 & R2)|(s2 & N2 & E2 & R2)]; rewrite E2; cbn [bind];
        destruct (K s [] c (a ++ b) Rc Nc Hl) as [(n' & k' & s3 & F3 & -> & E3 & R3)|(s3 & N3 & E3 & R3)]; rewrite E3.
      * rewrite <- app_assoc in F2. assert (X := fl_fun _ L _ _ _ _ F2 F3). rewrite app_length in X. replace k' with (length a + k)%nat by lia. now rewrite (fc_rel_fun _ _ _ _ R2 R3).
      * exfalso. rewrite app_assoc in N3. exact (N3 _ F2).
      * exfalso. rewrite <- app_assoc in N2. exact (N2 _ F3).
      * rewrite <- app_assoc in R2. now rewrite (fc_rel_fun _ _ _ _ R2 R3).
  - intros s a b s1 o (c & Rc & Nc & Hl) E. destruct (K s [] c a Rc Nc (Hb _ _ _ Hl)) as [(n & k & s1' & F1 & -> & E1 & R1)|(s1' & N1 & E1 & R1)]; rewrite E1 in E; injection E as <- _.
    + exists []. split; [exact R1|]. split; [apply (fl_nil _ L)|]. unfold below_2_64 in *. cbn [app]. rewrite !app_length in *. lia.
    + exists (c ++ a). split; [exact R1|]. split; [exact N1|]. now rewrite <- app_assoc.
  - intros s a b s1 k (c & Rc & Nc & Hl) E. destruct (K s [] c a Rc Nc (Hb _ _ _ Hl)) as [(n & k' & s1' & F1 & -> & E1 & R1)|(s1' & N1 & E1 & R1)]; rewrite E1 in E; [|discriminate].
    injection E as <- _. exists []. split; [exact R1|]. split; [apply (fl_nil _ L)|]. unfold below_2_64 in *. cbn [app]. rewrite !app_length in *. rewrite skipn_length. lia.
  - intros s a b s1 k (c & Rc & Nc & Hl) E. destruct (K s [] c a Rc Nc (Hb _ _ _ Hl)) as [(n & k' & s1' & F1 & -> & E1 & R1)|(s1' & N1 & E1 & R1)]; rewrite E1 in E; [|discriminate].
    injection E as _ <-. assert (B := fl_len _ L _ _ _ F1). rewrite app_length in B. lia.
Qed.

(** The sizes in order, or the order never matters. *)
Definition fc_orderly (p : FastCdc) : Prop :=
  fc_normal_size p <= fc_max_size p \/ fc_normal_size p <= fc_min_size p + 1 \/
  forall u, Z.of_nat (length u) = forced_at (fc_min_size p) (fc_max_size p) + 1 - fc_min_size p -> ~ misses (fc_gear p) u.

Lemma fc_splits : forall p, length (fc_gear p) = 256%nat -> 0 <= fc_min_size p -> fc_orderly p -> exists F, first_laws F /\ splits (fastcdc_incr p) (fc_may p F).
Proof.
  intros p Hg Hmin H. destruct (Z.le_gt_cases (fc_normal_size p) (fc_max_size p)) as [G|G].
  - exists (fc_first p). split; [exact (fc_laws p Hmin)|]. apply fc_splits_of; [exact (fc_laws p Hmin)|auto|]. apply fc_push_ok. split; [exact Hg|]. auto.
  - exists (fc_first (fc_same p)). split; [exact (fc_laws (fc_same p) Hmin)|]. apply fc_splits_of; [exact (fc_laws (fc_same p) Hmin)|auto|].
    apply fc_same_push; [exact Hg|exact Hmin|exact G|]. destruct H as [H|H]; [lia|exact H].
Qed.

(** ** All of them *)
Definition slicing_safe (c : config) : Prop :=
  match c with
  | CfgFastCdc g min normal max => fc_orderly (fastcdc_new g min normal max)
  | _ => True
  end.

Definition ready (C : Incr) (ok : incr_state C -> list byte -> Prop) : Prop :=
  splits C ok /\ forall d, stream_len (length d) -> ok (incr_new C) d.

Lemma ready_all : forall c C, typed c -> incr_of c = Ok C -> slicing_safe c -> exists ok, ready C ok.
Proof.
  intros c C T E S. unfold ready. destruct c as [w|w|n|b|w m|g min normal max|w|k mask h max|f r|t]; cbn [incr_of] in E.
  - injection E as <-. eexists. split; [apply mii_splits|auto].
  - injection E as <-. eexists. split; [apply ram_splits|]. intros d _. cbn. unfold ram_may. cbn. lia.
  - destruct (gear_with_average_size_log2 n); try discriminate. injection E as <-. eexists. split; [apply gear_splits|auto].
  - destruct (pigz_with_bits b); try discriminate. injection E as <-. eexists. split; [apply pigz_splits|auto].
  - injection E as <-. eexists. split; [apply gzip_splits|auto].
  - injection E as <-. destruct T as (T1 & T2 & T3 & T4 & T5). destruct (fc_splits (fastcdc_new g min normal max)) as (F & L & Sp); [exact T1|cbn; unfold is_u64 in *; lia|exact S|].
    exists (fc_may (fastcdc_new g min normal max) F). split; [exact Sp|]. intros d Hd. exists []. split; [apply fc_default_rel|]. split; [apply (fl_nil _ L)|exact (stream_below _ Hd)].
  - injection E as <-. eexists. split; [apply rollsum_splits|auto].
  - destruct (buzhash_new k mask h max); try discriminate. injection E as <-. eexists. split; [apply buz_splits|auto].
  - destruct (zpaq_with_average_and_range f r); try discriminate. injection E as <-. eexists. split; [apply zpaq_splits|auto].
  - destruct (zstd_with_target_section_size t); try discriminate. injection E as <-. eexists. split; [apply zstd_splits|]. intros d _. right. cbn. lia.
Qed.

Lemma fed_ok : forall C ok, ready C ok -> forall s n, fed C s n -> forall d, stream_len (n + length d) -> ok s d.
Proof.
  intros C ok [Sp N] s n F. induction F as [|s n d s' o F IH E]; intros e He; [exact (N _ He)|].
  apply (sp_after _ _ Sp s d e s' o); [|exact E]. apply IH. rewrite app_length. now rewrite Nat.add_assoc.
Qed.

Theorem push_twice_all : forall c C, typed c -> incr_of c = Ok C -> slicing_safe c -> forall s n a b, fed C s n -> stream_len (n + length a + length b) ->
  incr_push C s (a ++ b) = push_twice C s a b.
Proof.
  intros c C T E S s n a b F Hl. destruct (ready_all c C T E S) as [ok R]. apply (sp_split _ _ (proj1 R)). apply (fed_ok _ _ R _ _ F). rewrite app_length. now rewrite Nat.add_assoc.
Qed.

(** ** [iter_slices_strict] over one buffer after the other, handing on the chunker of [into_parts] and putting what was left over in front of
    the next slice *)
Fixpoint slice_stream (C : Incr) (fuel : nat) (s : incr_state C) (carry : list byte) (bufs : list (list byte)) : res (list (list byte) * (incr_state C * list byte)) :=
  match bufs with
  | [] => Ok ([], (s, carry))
  | b :: more =>
      '(out, it) <- collect iter_slices_strict_next fuel (iter_slices_strict C s b) ;;
      let '(s', rem) := into_parts it in
      let '(out', carry') := match out with [] => ([], carry ++ rem) | v :: vs => ((carry ++ v) :: vs, rem) end in
      '(rest, fin) <- slice_stream C fuel s' carry' more ;;
      Ok (out' ++ rest, fin)
  end.

Section Stream.
  Variable C : Incr.
  Variable ok : incr_state C -> list byte -> Prop.
  Hypothesis Sp : splits C ok.

  Lemma strict_S : forall fuel s rem, collect iter_slices_strict_next (S fuel) (@Build_SliceIter C rem s) =
    ('(s1, o) <- incr_push C s rem ;;
     match o with
     | None => Ok ([], Build_SliceIter rem s1)
     | Some k => '(v, rn) <- split_at rem k ;; '(rest, it) <- collect iter_slices_strict_next fuel (@Build_SliceIter C rn s1) ;; Ok (v :: rest, it)
     end).
  Proof.
    intros fuel s rem. rewrite collect_S. unfold iter_slices_strict_next. cbn [it_chunker it_rem]. destruct (incr_push C s rem) as [[s1 [k|]]| |]; cbn [bind]; try reflexivity.
    destruct (split_at rem k) as [[v rn]| |]; reflexivity.
  Qed.

  Lemma split_at_app : forall (a b : list byte) k, (k <= length a)%nat -> split_at (a ++ b) k = Ok (firstn k a, skipn k a ++ b) /\ split_at a k = Ok (firstn k a, skipn k a).
  Proof.
    intros a b k H. unfold split_at. rewrite app_length, (proj2 (Nat.leb_le k (length a + length b))), (proj2 (Nat.leb_le k (length a))) by lia.
    rewrite firstn_app_le, skipn_app_le by exact H. auto.
  Qed.

  Lemma split_carry : forall (a b t : list byte) k, (k <= length b)%nat -> split_at (a ++ b ++ t) (length a + k) = Ok (a ++ firstn k b, skipn k b ++ t).
  Proof.
    intros a b t k H. unfold split_at. rewrite !app_length, (proj2 (Nat.leb_le _ _)) by lia. rewrite firstn_app_ge, skipn_app_ge by lia.
    replace (length a + k - length a)%nat with k by lia. now rewrite firstn_app_le, skipn_app_le by exact H.
  Qed.

  (** The whole rest in one buffer, seen from its first part [rem]. *)
  Lemma strict_first : forall fuel s rem t out it, ok s (rem ++ t) -> collect iter_slices_strict_next fuel (@Build_SliceIter C (rem ++ t) s) = Ok (out, it) ->
    exists out1 s0 s1 r fuel' out2, collect iter_slices_strict_next fuel (@Build_SliceIter C rem s) = Ok (out1, Build_SliceIter r s1) /\
      incr_push C s0 r = Ok (s1, None) /\ ok s0 (r ++ t) /\ (fuel' <= fuel)%nat /\ collect iter_slices_strict_next fuel' (@Build_SliceIter C (r ++ t) s0) = Ok (out2, it) /\ out = out1 ++ out2 /\
      (out1 = [] -> s0 = s /\ r = rem).
  Proof.
    induction fuel as [|fuel IH]; intros s rem t out it Hok E; [discriminate|]. rewrite !strict_S. assert (E' := E). rewrite strict_S, (sp_split _ _ Sp s rem t Hok) in E'. unfold push_twice in E'.
    destruct (incr_push C s rem) as [[s1 [k|]]| |] eqn:P; cbn [bind] in *; try discriminate.
    - destruct (split_at_app rem t k (sp_in _ _ Sp _ _ _ _ _ Hok P)) as [Sa Sb]. rewrite Sa in E'. rewrite Sb. cbn [bind] in *.
      destruct (collect _ fuel _) as [[rest it']| |] eqn:E1 in E'; cbn [bind] in E'; try discriminate. injection E' as <- <-.
      destruct (IH _ _ _ _ _ (sp_some _ _ Sp _ _ _ _ _ Hok P) E1) as (out1 & s0 & s2 & r & fuel' & out2 & X1 & X2 & X3 & X4 & X5 & X6 & _).
      rewrite X1. cbn [bind]. exists (firstn k rem :: out1), s0, s2, r, fuel', out2. subst rest. repeat split; auto; discriminate.
    - exists [], s, s1, rem, (S fuel), out. repeat split; auto.
  Qed.

  (** The same with [carry] already pushed. *)
  Lemma stream_of : forall bufs fuel s0 s1 carry out it, incr_push C s0 carry = Ok (s1, None) -> ok s0 (carry ++ concat bufs) ->
    collect iter_slices_strict_next fuel (@Build_SliceIter C (carry ++ concat bufs) s0) = Ok (out, it) ->
    slice_stream C fuel s1 carry bufs = Ok (out, into_parts it).
  Proof.
    induction bufs as [|b bufs IH]; intros fuel s0 s1 carry out it P Hok E; cbn [slice_stream concat] in *.
    - rewrite app_nil_r in E. destruct fuel as [|fuel]; [discriminate|]. rewrite strict_S, P in E. cbn [bind] in E. injection E as <- <-. reflexivity.
    - assert (Ok1 := sp_after _ _ Sp s0 carry (b ++ concat bufs) s1 None Hok P : ok s1 (b ++ concat bufs)). destruct fuel as [|fuel]; [discriminate|]. unfold iter_slices_strict.
      assert (E' := E). rewrite strict_S, (sp_split _ _ Sp _ _ _ Hok) in E'. unfold push_twice in E'. rewrite P in E'. cbn [bind] in E'. rewrite (sp_split _ _ Sp _ _ _ Ok1) in E'. unfold push_twice in E'.
      destruct (incr_push C s1 b) as [[s2 [k|]]| |] eqn:Q; cbn [bind] in E'; try discriminate.
      + assert (Hk := sp_in _ _ Sp _ _ _ _ _ Ok1 Q). rewrite split_carry in E' by exact Hk. cbn [bind] in E'.
        destruct (collect _ fuel _) as [[rest it']| |] eqn:E1 in E'; cbn [bind] in E'; try discriminate. injection E' as <- <-.
        destruct (strict_first _ _ _ _ _ _ (sp_some _ _ Sp _ _ _ _ _ Ok1 Q) E1) as (out1 & s3 & s4 & r & fuel' & out2 & X1 & X2 & X3 & X4 & X5 & X6 & _).
        rewrite strict_S, Q. cbn [bind]. rewrite (proj2 (split_at_app b [] k Hk)). cbn [bind]. rewrite X1. cbn [bind into_parts it_chunker it_rem].
        assert (X7 := IH (S fuel) s3 s4 r out2 it' X2 X3 (collect_more _ _ _ _ _ _ X5 (S fuel) ltac:(lia))). rewrite X7. cbn [bind]. subst rest. reflexivity.
      + rewrite strict_S, Q. cbn [bind into_parts it_chunker it_rem].
        assert (Ok2 : ok s0 (carry ++ b)) by (apply (sp_pre _ _ Sp s0 _ (concat bufs)); now rewrite <- app_assoc).
        assert (P2 : incr_push C s0 (carry ++ b) = Ok (s2, None)) by (rewrite (sp_split _ _ Sp _ _ _ Ok2); unfold push_twice; rewrite P; cbn [bind]; rewrite Q; reflexivity).
        rewrite app_assoc in E, Hok. rewrite (IH (S fuel) s0 s2 (carry ++ b) out it P2 Hok E). reflexivity.
  Qed.

  (** And back. *)
  Lemma strict_join : forall fuel s rem t out r s1, ok s (rem ++ t) -> collect iter_slices_strict_next fuel (@Build_SliceIter C rem s) = Ok (out, Build_SliceIter r s1) ->
    exists s0, incr_push C s0 r = Ok (s1, None) /\ ok s0 (r ++ t) /\ forall fuel' out2 it, collect iter_slices_strict_next fuel' (@Build_SliceIter C (r ++ t) s0) = Ok (out2, it) ->
      collect iter_slices_strict_next (fuel + fuel') (@Build_SliceIter C (rem ++ t) s) = Ok (out ++ out2, it).
  Proof.
    induction fuel as [|fuel IH]; intros s rem t out r s1 Hok E; [discriminate|]. rewrite strict_S in E.
    destruct (incr_push C s rem) as [[s2 [k|]]| |] eqn:P; cbn [bind] in E; try discriminate.
    - destruct (split_at_app rem t k (sp_in _ _ Sp _ _ _ _ _ Hok P)) as [Sa Sb]. rewrite Sb in E. cbn [bind] in E.
      destruct (collect _ fuel _) as [[rest it']| |] eqn:E1 in E; cbn [bind] in E; try discriminate. injection E as <- ->.
      destruct (IH _ _ t _ _ _ (sp_some _ _ Sp _ _ _ _ _ Hok P) E1) as (s0 & X1 & X2 & X3). exists s0. split; [exact X1|]. split; [exact X2|]. intros fuel' out2 it E2.
      cbn [Nat.add app]. rewrite strict_S, (sp_split _ _ Sp _ _ _ Hok). unfold push_twice. rewrite P. cbn [bind]. rewrite Sa. cbn [bind]. rewrite (X3 _ _ _ E2). reflexivity.
    - injection E as <- <- <-. exists s. split; [exact P|]. split; [exact Hok|]. intros fuel' out2 it E2. apply (collect_more _ _ _ _ _ _ E2); lia.
  Qed.

  Lemma of_stream : forall bufs fuel s0 s1 carry out fin, incr_push C s0 carry = Ok (s1, None) -> ok s0 (carry ++ concat bufs) -> slice_stream C fuel s1 carry bufs = Ok (out, fin) ->
    exists fuel' it, collect iter_slices_strict_next fuel' (@Build_SliceIter C (carry ++ concat bufs) s0) = Ok (out, it) /\ into_parts it = fin.
  Proof.
    induction bufs as [|b bufs IH]; intros fuel s0 s1 carry out fin P Hok E; cbn [slice_stream concat] in *.
    - rewrite app_nil_r. injection E as <- <-. exists 1%nat, (Build_SliceIter carry s1). rewrite strict_S, P. auto.
    - assert (Ok1 := sp_after _ _ Sp s0 carry (b ++ concat bufs) s1 None Hok P : ok s1 (b ++ concat bufs)). unfold iter_slices_strict in E. destruct fuel as [|fuel]; [discriminate|].
      rewrite strict_S in E. destruct (incr_push C s1 b) as [[s2 [k|]]| |] eqn:Q; cbn [bind] in E; try discriminate.
      + assert (Hk := sp_in _ _ Sp _ _ _ _ _ Ok1 Q). rewrite (proj2 (split_at_app b [] k Hk)) in E. cbn [bind] in E.
        destruct (collect _ fuel _) as [[out1 [r s3]]| |] eqn:E1 in E; cbn [bind into_parts it_chunker it_rem] in E; try discriminate.
        destruct (strict_join _ _ _ (concat bufs) _ _ _ (sp_some _ _ Sp _ _ _ _ _ Ok1 Q) E1) as (s4 & X1 & X2 & X3).
        destruct (slice_stream C (S fuel) s3 r bufs) as [[rest fin']| |] eqn:E2; cbn [bind] in E; try discriminate. injection E as <- <-.
        destruct (IH _ _ _ _ _ _ X1 X2 E2) as (fuel' & it & Y1 & Y2). exists (S (fuel + fuel')), it. split; [|exact Y2].
        rewrite strict_S, (sp_split _ _ Sp _ _ _ Hok). unfold push_twice. rewrite P. cbn [bind]. rewrite (sp_split _ _ Sp _ _ _ Ok1). unfold push_twice. rewrite Q. cbn [bind].
        rewrite split_carry by exact Hk. cbn [bind]. rewrite (X3 _ _ _ Y1). reflexivity.
      + cbn [into_parts it_chunker it_rem] in E. destruct (slice_stream C (S fuel) s2 (carry ++ b) bufs) as [[rest fin']| |] eqn:E2; cbn [bind] in E; try discriminate. injection E as <- <-.
        assert (Ok2 : ok s0 (carry ++ b)) by (apply (sp_pre _ _ Sp s0 _ (concat bufs)); now rewrite <- app_assoc).
        assert (P2 : incr_push C s0 (carry ++ b) = Ok (s2, None)) by (rewrite (sp_split _ _ Sp _ _ _ Ok2); unfold push_twice; rewrite P; cbn [bind]; rewrite Q; reflexivity).
        rewrite app_assoc in Hok |- *. exact (IH _ _ _ _ _ _ P2 Hok E2).
  Qed.

  Theorem stream_iff : forall s b bufs out fin, ok s (concat (b :: bufs)) ->
    ((exists fuel, slice_stream C fuel s [] (b :: bufs) = Ok (out, fin)) <->
     (exists fuel it, collect iter_slices_strict_next fuel (iter_slices_strict C s (concat (b :: bufs))) = Ok (out, it) /\ into_parts it = fin)).
  Proof.
    intros s b bufs out fin Hok. cbn [concat] in *. unfold iter_slices_strict. split.
    - intros [fuel E]. cbn [slice_stream] in E. unfold iter_slices_strict in E. destruct (collect _ fuel _) as [[out1 [r s1]]| |] eqn:E1 in E; cbn [bind into_parts it_chunker it_rem app] in E; try discriminate.
      destruct (strict_join _ _ _ (concat bufs) _ _ _ Hok E1) as (s0 & X1 & X2 & X3).
      assert (E' : (' (rest, fin) <- slice_stream C fuel s1 r bufs ;; Ok (out1 ++ rest, fin)) = Ok (out, fin)) by (destruct out1; exact E).
      destruct (slice_stream C fuel s1 r bufs) as [[rest fin']| |] eqn:E2; cbn [bind] in E'; try discriminate. injection E' as <- <-.
      destruct (of_stream _ _ _ _ _ _ _ X1 X2 E2) as (fuel' & it & Y1 & Y2). exists (fuel + fuel')%nat, it. split; [exact (X3 _ _ _ Y1)|exact Y2].
    - intros (fuel & it & E & <-). destruct (strict_first _ _ _ _ _ _ Hok E) as (out1 & s0 & s1 & r & fuel' & out2 & X1 & X2 & X3 & X4 & X5 & X6 & _).
      exists fuel. cbn [slice_stream]. unfold iter_slices_strict. rewrite X1. cbn [bind into_parts it_chunker it_rem app].
      assert (Y := stream_of bufs fuel s0 s1 r out2 it X2 X3 (collect_more _ _ _ _ _ _ X5 fuel X4)). subst out. destruct out1; rewrite Y; reflexivity.
  Qed.
End Stream.
