(** * StateFacts: facts about single calls from any state, and about the states callers reach. *)

From Verif Require Import Base Api Tables Range Spec Lists Contract Step Words Rot CutFacts IterProofs.
From Verif Require Import Mii Ram Gear Pigz Gzip FastCdc Bup BuzHash Zpaq Zstd.
From Verif Require Import MiiProofs RamProofs GearProofs PigzProofs GzipProofs FastCdcProofs BupProofs BupAny BuzProofs ZpaqProofs ZpaqCtor ZstdProofs.
From Verif Require Import Builtin BuiltinProofs Reach Agree.

Lemma ok_discard : forall St (s s' : St) (d d' : nat), Ok (s, (None, d)) = Ok (s', (@None nat, d')) -> d' = d.
Proof. intros St s s' d d' E. now inversion E. Qed.

(** ** What an answer without a cut keeps, from any state on any buffer *)
Lemma edge_of_push : forall St (x : res (St * option nat)) (f : nat -> nat) (g : St -> St) (h : nat) s' d,
  bind x (fun '(s1, r) => match r with Some i => Ok (g s1, (Some (f i), f i)) | None => Ok (s1, (None, h)) end) = Ok (s', (None, d)) -> d = h.
Proof. intros St [[s1 [i|]]| |] f g h s' d E; cbn [bind] in E; now inversion E. Qed.

Lemma edge_of_loop : forall St (x : res (ctl St nat)) (g : St -> St) (dd d : nat) s',
  bind x (fun r => match r with Return s1 k => Ok (s1, (Some k, k)) | Next s1 | Break s1 => Ok (g s1, (None, dd)) end) = Ok (s', (None, d)) -> d = dd.
Proof. intros St [[s1|s1 k|s1]| |] g dd d s' E; cbn [bind] in E; now inversion E. Qed.

Theorem keeps_at_most : forall c C s buf s' d, chunk_of c = Ok C -> find_chunk_edge C s buf = Ok (s', (None, d)) ->
  (d <= length buf /\ length buf - d <= look_back c)%nat.
Proof.
  intros c C s buf s' d EC E. destruct c; cbn [chunk_of look_back] in *.
  - inversion EC; subst C. cbn [find_chunk_edge mii_chunk] in E. unfold mii_find_chunk_edge in E.
    apply (edge_of_push _ _ (fun v => v) mii_reset) in E. subst d. lia.
  - inversion EC; subst C. cbn [find_chunk_edge ram_chunk] in E. unfold ram_find_chunk_edge in E.
    apply (edge_of_push _ _ (fun v => v + 1)%nat (fun s => s)) in E. subst d. lia.
  - destruct (gear_with_average_size_log2 average_size_log2) as [p| |]; cbn [bind] in EC; try discriminate. inversion EC; subst C.
    cbn [find_chunk_edge gear_chunk] in E. unfold gear_find_chunk_edge in E. apply (edge_of_loop _ _ (fun s => s)) in E. subst d. lia.
  - destruct (pigz_with_bits bits) as [p| |]; cbn [bind] in EC; try discriminate. inversion EC; subst C.
    cbn [find_chunk_edge pigz_chunk] in E. unfold pigz_find_chunk_edge in E. apply (edge_of_loop _ _ (fun s => s)) in E. subst d. lia.
  - inversion EC; subst C. cbn [find_chunk_edge gzip_chunk] in E. unfold gzip_find_chunk_edge in E. cbv zeta in E.
    match type of E with bind ?x _ = _ => destruct x as [[s1|s1 k|s1]| |] end; cbn [bind gzip_window_len gzip_with_window_and_modulus] in E;
      inversion E; subst; lia.
  - inversion EC; subst C. cbn [find_chunk_edge fastcdc_chunk] in E. unfold fastcdc_find_chunk_edge in E.
    apply (edge_of_push _ _ (fun v => v + 1)%nat (fun s => s)) in E. subst d. lia.
  - inversion EC; subst C. cbn [find_chunk_edge rollsum_chunk rollsum_with_window] in E. unfold rollsum_find_chunk_edge in E. cbv zeta in E.
    match type of E with bind ?x _ = _ => destruct x as [[s1|s1 k|s1]| |] end; cbn [bind] in E;
      inversion E; subst; unfold rollsum_with_window; lia.
  - destruct (buzhash_new capacity mask hash max) as [p| |] eqn:Ep; cbn [bind] in EC; try discriminate. inversion EC; subst C.
    apply buz_ctor_inv in Ep. destruct Ep as [_ ->].
    cbn [find_chunk_edge buz_chunk] in E. unfold buz_find_chunk_edge in E. cbv zeta in E.
    match type of E with bind ?x _ = _ => destruct x as [[s1|s1 k|s1]| |] end; cbn [bind bz_k] in E; inversion E; subst; lia.
  - destruct (zpaq_with_average_and_range average_size_pow_2 r) as [p| |]; cbn [bind] in EC; try discriminate. inversion EC; subst C.
    cbn [find_chunk_edge zpaq_chunk] in E. unfold zpaq_find_chunk_edge in E. apply (edge_of_loop _ _ (fun s => s)) in E. subst d. lia.
  - destruct (zstd_with_target_section_size target_section_size) as [p| |]; cbn [bind] in EC; try discriminate. inversion EC; subst C.
    cbn [find_chunk_edge zstd_chunk] in E. unfold zstd_find_chunk_edge in E.
    destruct (Nat.ltb_spec (zss_offset s) RSYNC_LENGTH) as [G|G].
    + destruct (sub_slice buf (zss_offset s) (Nat.min RSYNC_LENGTH (length buf))) as [sb| |] eqn:Es; cbn [bind] in E; try discriminate.
      unfold sub_slice in Es. destruct (Nat.leb_spec (zss_offset s) (Nat.min RSYNC_LENGTH (length buf))) as [G1|G1]; cbn [andb] in Es; [|discriminate].
      destruct (Nat.leb_spec (Nat.min RSYNC_LENGTH (length buf)) (length buf)) as [G2|G2]; [|discriminate]. assert (Lb : length sb = (Nat.min RSYNC_LENGTH (length buf) - zss_offset s)%nat).
      { apply (f_equal (fun r => match r with Ok x => length x | _ => O end)) in Es. rewrite <- Es, firstn_length, skipn_length. lia. } clear Es.
      cbn [zss_offset zss_state] in E. rewrite Lb in E.
      match type of E with (if Nat.ltb ?a ?b then _ else _) = _ => destruct (Nat.ltb_spec a b) as [G3|G3] end.
      * apply ok_discard in E. subst d. clear -G3 G1. unfold RSYNC_LENGTH in *. lia.
      * match type of E with bind ?x _ = _ => destruct x as [[s1|s1 k|s1]| |] end; cbn [bind] in E; try discriminate E; apply ok_discard in E; subst d; clear;
          unfold RSYNC_LENGTH in *; lia.
    + cbn [bind] in E. replace (Nat.ltb (zss_offset s) RSYNC_LENGTH) with false in E by (symmetry; apply Nat.ltb_ge; lia).
      match type of E with bind ?x _ = _ => destruct x as [[s1|s1 k|s1]| |] end; cbn [bind] in E; try discriminate E; apply ok_discard in E; subst d; clear;
        unfold RSYNC_LENGTH in *; lia.
Qed.

(** ** States reached by callers of [push] *)
Theorem mii_counter_bound : forall w data sched r, run_incr 0 (mii_incr w) data sched = Ok r -> 0 <= mii_increment (r_state r) <= 255.
Proof.
  intros w data sched r E.
  destruct (incr_state_of 0 (mii_incr w) _ _ _ (ends_at_laws _) any_length_down (mii_push_ok w) (mii_new_rel w) data sched r I E) as (h & c & _ & X).
  exact (mii_counter _ _ _ X).
Qed.

Theorem gzip_window_bound : forall p data sched r, 0 < gzip_modulus p -> (1 <= gzip_window_len p)%nat ->
  run_incr 0 (gzip_incr p) data sched = Ok r -> (length (gzi_window (r_state r)) <= gzip_window_len p)%nat.
Proof.
  intros p data sched r Hm HW E.
  destruct (incr_state_of 0 (gzip_incr p) _ _ _ (ends_at_laws _) any_length_down (gzip_push_ok p Hm HW) (gzip_new_rel p) data sched r I E) as (h & c & _ & X & _).
  transitivity (length (lastn (gzip_window_len p) c)); [|rewrite lastn_length; lia]. apply Nat.eq_le_incl. f_equal. exact X.
Qed.

(** The same for callers of [find_chunk_edge]. *)
Theorem mii_counter_bound_chunk : forall sh w data s base lo, reaches sh (mii_chunk w) data s base lo -> 0 <= mii_increment s <= 255.
Proof.
  intros sh w data s base lo H.
  destruct (reach_inv sh (mii_chunk w) (ends_at (per_chunk (mii_rule w))) any_length 0 _ (ends_at_laws _) any_length_down
    (mii_find_ok w) (conj (mii_new_rel w) eq_refl) data I s base lo H) as (h & c & k & X & _).
  exact (mii_counter _ _ _ (proj1 X)).
Qed.
