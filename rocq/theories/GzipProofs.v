(** * GzipProofs *)

From Verif Require Import Base Api Spec Lists Contract Step Window Words Gzip.

Definition gzip_sum (W : nat) (c : list byte) : Z := byte_sum (lastn W c) mod 2 ^ 64.

Lemma rem_u64_ok : forall a m, 0 < m -> rem_u64 a m = Ok (a mod m).
Proof. intros a m H. unfold rem_u64. replace (m =? 0) with false; [reflexivity|]. symmetry. apply Z.eqb_neq. lia. Qed.

Lemma gzip_sum_short : forall W c b, (length c < W)%nat -> gzip_sum W (c ++ [b]) = wrap64 (gzip_sum W c + b2z b).
Proof.
  intros W c b H. unfold gzip_sum, wrap64, two64. rewrite byte_sum_slide_short by exact H.
  now rewrite Zplus_mod_idemp_l.
Qed.
Lemma gzip_sum_full : forall W c b o, (W <= length c)%nat -> nth_error (c ++ [b]) (length c - W) = Some o ->
  gzip_sum W (c ++ [b]) = wrap64 (wrap64 (gzip_sum W c - b2z o) + b2z b).
Proof.
  intros W c b o H Ho. unfold gzip_sum, wrap64, two64. rewrite (byte_sum_slide_full W c b o H Ho).
  now rewrite Zminus_mod_idemp_l, Zplus_mod_idemp_l.
Qed.

(** ** All at once *)
Definition gzip_rel (p : GzipRsyncable) (s : GzipSearchState) (h c : list byte) : Prop :=
  gzip_accum s = gzip_sum (gzip_window_len p) c.

Lemma gzip_window_step : forall p, 0 < gzip_modulus p ->
  window_step_ok (gzip_fce_body p) gzip_offset (gzip_window_len p)
    (per_chunk (gzip_rule (gzip_window_len p) (gzip_modulus p))) any_length (gzip_rel p).
Proof.
  intros p Hm buf i s h c b HR Hb _ Hi Hn. unfold per_chunk, gzip_rule, gzip_fce_body.
  rewrite (index_ok _ _ _ _ Hb). cbn [bind].
  assert (E : gzip_add p (gzip_accum s) buf i b =
              Ok (gzip_sum (gzip_window_len p) (c ++ [b]), gzip_sum (gzip_window_len p) (c ++ [b]) mod gzip_modulus p =? 0)).
  { unfold gzip_add. rewrite HR. destruct (Nat.leb_spec (gzip_window_len p) i) as [G|G].
    - assert (Gc : (gzip_window_len p <= length c)%nat) by (now apply Hi). specialize (Hn G).
      destruct (nth_error (c ++ [b]) (length c - gzip_window_len p)) as [o|] eqn:Eo.
      + rewrite (index_ok _ _ _ _ Hn). cbn [bind]. rewrite rem_u64_ok by exact Hm. cbn [bind].
        now rewrite <- (gzip_sum_full _ c b o Gc Eo).
      + apply nth_error_None in Eo. rewrite app_length in Eo. cbn [length] in Eo. lia.
    - cbn [bind]. rewrite rem_u64_ok by exact Hm. cbn [bind]. rewrite <- gzip_sum_short; [reflexivity|].
      apply Nat.nle_gt. intros X. apply Hi in X. lia. }
  rewrite E. cbn [bind]. fold (gzip_sum (gzip_window_len p) (c ++ [b])).
  destruct (Z.eqb_spec (gzip_sum (gzip_window_len p) (c ++ [b]) mod gzip_modulus p) 0) as [G|G].
  - left. split; [exact G|]. eexists. split; [reflexivity|]. split; reflexivity.
  - right. split; [exact G|]. eexists. split; [reflexivity|]. reflexivity.
Qed.

Lemma gzip_find_ok : forall p, 0 < gzip_modulus p ->
  find_ok (gzip_find_chunk_edge p) (ends_at (per_chunk (gzip_rule (gzip_window_len p) (gzip_modulus p)))) any_length
    (gzip_window_len p) (window_rel gzip_offset (gzip_window_len p) (gzip_rel p)).
Proof.
  intros p Hm.
  exact (window_find_ok (gzip_fce_body p) gzip_offset
    (fun n s => {| gzip_offset := n; gzip_accum := gzip_accum s |}) (gzip_window_len p) _ any_length (gzip_rel p)
    (gzip_window_step p Hm) any_length_down (fun n s => eq_refl) (fun n s h c H => H)).
Qed.

Lemma gzip_search_rel : forall p, window_rel gzip_offset (gzip_window_len p) (gzip_rel p) gzip_search_default [] [] 0.
Proof. intros p. split; [reflexivity|]. split; reflexivity. Qed.

Lemma gzip_chunk_conforms : forall p shrink, 0 < gzip_modulus p ->
  chunk_conforms shrink (gzip_chunk p) (ends_at (per_chunk (gzip_rule (gzip_window_len p) (gzip_modulus p)))) any_length
    (gzip_window_len p).
Proof.
  intros p shrink Hm.
  exact (chunk_conforms_of shrink (gzip_chunk p) _ _ _ _ (ends_at_laws _) (ends_at_progressive _) (ends_at_local _)
    any_length_down (gzip_find_ok p Hm) (gzip_search_rel p)).
Qed.

(** ** Incremental *)
Definition gzip_incr_rel (p : GzipRsyncable) (s : GzipIncr) (h c : list byte) : Prop :=
  gzi_window s = lastn (gzip_window_len p) c /\ gzi_accum s = gzip_sum (gzip_window_len p) c.

Lemma gzip_incr_step : forall p, 0 < gzip_modulus p -> (1 <= gzip_window_len p)%nat ->
  step_ok (gzip_push_body p) 1 (per_chunk (gzip_rule (gzip_window_len p) (gzip_modulus p))) any_length
    (fun _ => gzip_incr_rel p) (fun s h c => gzip_incr_rel p s (h ++ c) []).
Proof.
  intros p Hm HW i s h c b [Ew Ea] _. unfold per_chunk, gzip_rule, gzip_push_body.
  set (W := gzip_window_len p) in *. fold (gzip_sum W (c ++ [b])).
  assert (E : exists s1, (if Nat.leb W (length (gzi_window s)) then
           match gzi_window s with
           | [] => Panic
           | o :: w => Ok {| gzi_accum := wrap64 (gzi_accum s - b2z o); gzi_window := w |}
           end
         else Ok s) = Ok s1 /\ gzi_window s1 ++ [b] = lastn W (c ++ [b]) /\
         wrap64 (gzi_accum s1 + b2z b) = gzip_sum W (c ++ [b])).
  { rewrite Ew, lastn_length. destruct (Nat.leb_spec W (Nat.min W (length c))) as [G|G].
    - destruct (lastn_snoc_full _ W c b ltac:(lia)) as (o & E1 & E2 & E3). rewrite E2, Ea.
      eexists. split; [reflexivity|]. cbn [gzi_window gzi_accum]. split; [now rewrite E3|].
      symmetry. apply gzip_sum_full; [lia|]. rewrite nth_error_app1 by lia. exact E1.
    - destruct (lastn_snoc_short _ W c b ltac:(lia)) as [E1 E2]. exists s. split; [reflexivity|].
      rewrite Ew, Ea, E1, E2. split; [reflexivity|]. symmetry. apply gzip_sum_short. lia. }
  destruct E as (s1 & -> & E1 & E2). cbn [bind gzi_accum gzi_window]. rewrite E2.
  rewrite rem_u64_ok by exact Hm. cbn [bind].
  destruct (Z.eqb_spec (gzip_sum W (c ++ [b]) mod gzip_modulus p) 0) as [G|G].
  - left. split; [exact G|]. eexists. split; [reflexivity|]. split; [|reflexivity]. reflexivity.
  - right. split; [exact G|]. eexists. split; [reflexivity|]. split; [exact E1|reflexivity].
Qed.

Lemma gzip_push_ok : forall p, 0 < gzip_modulus p -> (1 <= gzip_window_len p)%nat ->
  push_ok 0 (gzip_push p) (ends_at (per_chunk (gzip_rule (gzip_window_len p) (gzip_modulus p)))) any_length (gzip_incr_rel p).
Proof.
  intros p Hm HW. apply (scan_push_at _ (gzip_push_body p) 1); [lia|apply any_length_down|]. now apply gzip_incr_step.
Qed.

Lemma gzip_new_rel : forall p, gzip_incr_rel p gzip_incr_new [] [].
Proof. intros p. split; reflexivity. Qed.

Lemma gzip_incr_conforms : forall p, 0 < gzip_modulus p -> (1 <= gzip_window_len p)%nat ->
  incr_conforms 0 (gzip_incr p) (ends_at (per_chunk (gzip_rule (gzip_window_len p) (gzip_modulus p)))) any_length.
Proof.
  intros p Hm HW. exact (incr_conforms_of 0 (gzip_incr p) _ _ _ (ends_at_laws _) (ends_at_progressive _) any_length_down
    (gzip_push_ok p Hm HW) (gzip_new_rel p)).
Qed.
Lemma gzip_incr_prompt : forall p, 0 < gzip_modulus p -> (1 <= gzip_window_len p)%nat ->
  incr_prompt 0 (gzip_incr p) (ends_at (per_chunk (gzip_rule (gzip_window_len p) (gzip_modulus p)))) any_length.
Proof.
  intros p Hm HW. exact (incr_prompt_of 0 (gzip_incr p) _ _ _ (ends_at_laws _) (ends_at_local _) any_length_down
    (gzip_push_ok p Hm HW) (gzip_new_rel p)).
Qed.
