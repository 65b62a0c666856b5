(** * ZstdProofs: the cut rule of Zstd. *)

From Verif Require Import Base Api Spec Lists Contract Step Words Ring Zstd.

(** ** The constructor *)
Lemma wrapping_pow_spec : forall b e, wrapping_pow_u64 b e = b ^ Z.of_nat e mod 2 ^ 64.
Proof.
  intros b e. induction e as [|e IH]; [reflexivity|]. cbn [wrapping_pow_u64].
  rewrite IH, Nat2Z.inj_succ, Z.pow_succ_r by lia. unfold wrap64, two64. apply Zmult_mod_idemp_r.
Qed.

Definition zstd_power : Z := zstd_prime ^ 31 mod 2 ^ 64.

Lemma lxor_31 : forall a, 0 <= a <= 31 -> Z.lxor (31 - a) 31 = a.
Proof.
  assert (H : forallb (fun n => Z.lxor (31 - Z.of_nat n) 31 =? Z.of_nat n) (seq 0 32) = true) by reflexivity.
  intros a Ha. rewrite forallb_forall in H. specialize (H (Z.to_nat a)).
  rewrite Z2Nat.id in H by lia. apply Z.eqb_eq, H, in_seq. lia.
Qed.

Definition zstd_bits (t : Z) : Z := 20 + Z.log2 (t / 2 ^ 20).

Lemma zstd_bits_range : forall t, 2 ^ 20 <= t < 2 ^ 52 -> 20 <= zstd_bits t <= 51.
Proof.
  intros t H. unfold zstd_bits.
  assert (1 <= t / 2 ^ 20) by (apply Z.div_le_lower_bound; lia).
  assert (t / 2 ^ 20 < 2 ^ 32) by (apply Z.div_lt_upper_bound; lia).
  assert (Z.log2 (t / 2 ^ 20) < 32) by (apply Z.log2_lt_pow2; lia).
  assert (0 <= Z.log2 (t / 2 ^ 20)) by apply Z.log2_nonneg. lia.
Qed.

Lemma zstd_ctor_ok : forall t, 2 ^ 20 <= t < 2 ^ 52 ->
  zstd_with_target_section_size t = Ok {| zd_hit_mask := 2 ^ zstd_bits t - 1; zd_prime_power := zstd_power |}.
Proof.
  intros t H. unfold zstd_with_target_section_size, try_into_u32, two32. rewrite Z.shiftr_div_pow2 by lia.
  assert (G1 : 1 <= t / 2 ^ 20) by (apply Z.div_le_lower_bound; lia).
  assert (G2 : t / 2 ^ 20 < 2 ^ 32) by (apply Z.div_lt_upper_bound; lia).
  assert (G3 : Z.log2 (t / 2 ^ 20) < 32) by (apply Z.log2_lt_pow2; lia).
  assert (G4 : 0 <= Z.log2 (t / 2 ^ 20)) by apply Z.log2_nonneg.
  replace (t / 2 ^ 20 <? 2 ^ 32) with true by (symmetry; now apply Z.ltb_lt). cbn [bind].
  replace (t / 2 ^ 20 =? 0) with false by (symmetry; apply Z.eqb_neq; lia). cbn [negb rust_assert bind].
  unfold leading_zeros_u32. replace (t / 2 ^ 20 =? 0) with false by (symmetry; apply Z.eqb_neq; lia).
  rewrite lxor_31 by lia. rewrite Z.add_comm. fold (zstd_bits t). assert (G5 := zstd_bits_range t H).
  unfold shl_u64. replace ((0 <=? zstd_bits t) && (zstd_bits t <? 64)) with true.
  2:{ symmetry. apply andb_true_iff. split; [apply Z.leb_le|apply Z.ltb_lt]; lia. }
  cbn [bind]. rewrite Z.shiftl_1_l. unfold wrap64, two64.
  assert (G6 : 2 ^ 0 < 2 ^ zstd_bits t < 2 ^ 64) by (split; apply Z.pow_lt_mono_r; lia).
  rewrite Z.mod_small by lia. unfold sub_u64.
  replace (1 <=? 2 ^ zstd_bits t) with true by (symmetry; apply Z.leb_le; lia). cbn [bind].
  rewrite wrapping_pow_spec. unfold zstd_power.
  replace (Z.of_nat (RSYNC_LENGTH - 1)) with 31 by reflexivity.
  replace PRIME_8_BYTES with zstd_prime by reflexivity. reflexivity.
Qed.

Lemma zstd_ctor_panic : forall t, 0 <= t < 2 ^ 64 -> ~ (2 ^ 20 <= t < 2 ^ 52) -> zstd_with_target_section_size t = Panic.
Proof.
  intros t H0 H. unfold zstd_with_target_section_size, try_into_u32, two32. rewrite Z.shiftr_div_pow2 by lia.
  destruct (Z.lt_ge_cases t (2 ^ 20)) as [G|G].
  - rewrite Z.div_small by lia. reflexivity.
  - assert (2 ^ 32 <= t / 2 ^ 20) by (apply Z.div_le_lower_bound; lia).
    replace (t / 2 ^ 20 <? 2 ^ 32) with false by (symmetry; apply Z.ltb_ge; lia). reflexivity.
Qed.

Lemma zstd_ctor_inv : forall t p, 0 <= t < 2 ^ 64 -> zstd_with_target_section_size t = Ok p ->
  2 ^ 20 <= t < 2 ^ 52 /\ p = {| zd_hit_mask := 2 ^ zstd_bits t - 1; zd_prime_power := zstd_power |}.
Proof.
  intros t p H0 E. destruct (Z_le_dec (2 ^ 20) t) as [A|A], (Z_lt_dec t (2 ^ 52)) as [B|B];
    try (rewrite zstd_ctor_panic in E by lia; discriminate).
  split; [lia|]. rewrite zstd_ctor_ok in E by lia. now inversion E.
Qed.

(** ** The hash *)
Lemma zstd_append_spec : forall t u, zstd_append (power_sum zstd_prime (fun b => b2z b + 10) 0 (rev t) mod 2 ^ 64) u
  = power_sum zstd_prime (fun b => b2z b + 10) 0 (rev (t ++ u)) mod 2 ^ 64.
Proof.
  intros t u. revert t. induction u as [|b u IH]; intros t; [now rewrite app_nil_r|].
  unfold zstd_append in *. cbn [fold_left].
  replace (t ++ b :: u) with ((t ++ [b]) ++ u) by (now rewrite <- app_assoc). rewrite <- IH. f_equal.
  rewrite rev_app_distr. cbn [rev app]. rewrite power_sum_cons. unfold zstd_append_byte, wrap64, two64.
  change PRIME_8_BYTES with zstd_prime. change ROLL_HASH_CHAR_OFFSET with 10. solve_mod.
Qed.

Lemma zstd_append_window : forall t, (length t <= 32)%nat -> zstd_append 0 t = zstd_hash t.
Proof.
  intros t H. unfold zstd_hash. rewrite firstn_all2 by (rewrite rev_length; lia).
  exact (zstd_append_spec [] t).
Qed.

Lemma zstd_rotate_spec : forall t b o, (32 <= length t)%nat -> nth_error (t ++ [b]) (length t - 32) = Some o ->
  zstd_rotate (zstd_hash t) o b zstd_power = zstd_hash (t ++ [b]).
Proof.
  intros t b o H Ho. unfold zstd_hash.
  destruct (firstn_rev_slide_full _ 32 t b o ltac:(lia) Ho) as (-> & -> & L).
  set (l := firstn (32 - 1) (rev t)) in *. rewrite power_sum_cons, power_sum_app. cbn [Nat.add].
  rewrite L, (power_sum_age zstd_prime _ [o]). cbn [power_sum]. change (zstd_prime ^ Z.of_nat 0) with 1.
  change (Z.of_nat (32 - 1)) with 31.
  unfold zstd_rotate, wrap64, two64, zstd_power.
  change PRIME_8_BYTES with zstd_prime. change ROLL_HASH_CHAR_OFFSET with 10.
  generalize (zstd_prime ^ 31). intros q. generalize zstd_prime. intros pr. solve_mod.
Qed.

(** ** [push] *)
Definition zstd_params (bits : Z) : Zstd := {| zd_hit_mask := 2 ^ bits - 1; zd_prime_power := zstd_power |}.

Lemma zstd_at_split_spec : forall bits h, 0 <= bits -> zstd_at_split (zstd_params bits) h = (h mod 2 ^ bits =? 2 ^ bits - 1).
Proof. intros bits h H. unfold zstd_at_split. cbn [zstd_params zd_hit_mask]. now rewrite land_mask. Qed.

(** The chunker's state after the bytes [t]. *)
Definition zstd_incr_rel (s : ZstdIncr) (t : list byte) : Prop :=
  length (zi_window s) = 32%nat /\
  if zi_window_full s then (32 <= length t)%nat /\ ring_ok (zi_window s) (zi_window_offs s) (lastn 32 t) /\ zi_state s = zstd_hash t
  else (length t < 32)%nat /\ zi_window_offs s = length t /\ firstn (length t) (zi_window s) = t /\ zi_state s = 0.

Lemma zstd_new_rel : zstd_incr_rel zstd_incr_new [].
Proof. split; [reflexivity|]. cbn [zstd_incr_new zi_window_full]. repeat split. simpl. lia. Qed.

Lemma zstd_push_byte : forall bits use_len i s t b, 0 <= bits -> zstd_incr_rel s t -> zi_window_full s = true ->
  exists s', zstd_incr_rel s' (t ++ [b]) /\ zi_window_full s' = true /\
    zstd_push_body (zstd_params bits) use_len s i b =
      Ok (if zstd_hash (t ++ [b]) mod 2 ^ bits =? 2 ^ bits - 1 then Return s' (i + use_len)%nat else Next s').
Proof.
  intros bits ul i s t b Hb (Lw & HR) F. rewrite F in HR. destruct HR as (Lt & Hr & Es).
  destruct (ring_step _ _ _ _ b Hr) as (o & r & win' & Ev & Ei & Est & Lw' & Hr').
  destruct (lastn_snoc_full _ 32 t b ltac:(lia)) as (o' & Eo & El & El').
  rewrite El in Ev. inversion Ev; subst o' r.
  assert (Eh : zstd_rotate (zi_state s) o b zstd_power = zstd_hash (t ++ [b])).
  { rewrite Es. apply zstd_rotate_spec; [lia|]. rewrite nth_error_app1 by lia. exact Eo. }
  exists {| zi_state := zstd_hash (t ++ [b]); zi_window := win'; zi_window_offs := (zi_window_offs s + 1) mod 32;
       zi_window_full := zi_window_full s |}.
  split; [|split].
  - split; [cbn; lia|]. cbn [zi_window_full]. rewrite F. cbn [zi_window zi_window_offs zi_state].
    split; [rewrite app_length; simpl; lia|]. split; [|reflexivity].
    rewrite El'. rewrite next_mod; [|destruct Hr; lia]. rewrite Lw in Hr'. exact Hr'.
  - exact F.
  - unfold zstd_push_body. rewrite Ei, Est. cbn [bind]. rewrite Lw', Lw. cbv beta iota. cbn [bind].
    change (zd_prime_power (zstd_params bits)) with zstd_power. rewrite Eh, zstd_at_split_spec by exact Hb.
    now destruct (_ =? _).
Qed.

Lemma zstd_short : forall bits t, (length t <= 32)%nat -> ~ zstd_rule bits t.
Proof. intros bits t H [G _]. lia. Qed.

Lemma zstd_step : forall bits use_len, 0 <= bits ->
  step_ok (zstd_push_body (zstd_params bits) use_len) use_len (per_stream (zstd_rule bits)) any_length
    (fun _ s h c => zstd_incr_rel s (h ++ c) /\ zi_window_full s = true)
    (fun s h c => zstd_incr_rel s ((h ++ c) ++ [])).
Proof.
  intros bits ul Hb i s h c b (HR & F) _. unfold per_stream.
  destruct (zstd_push_byte bits ul i s _ b Hb HR F) as (s' & HR' & F' & E). rewrite E.
  assert (L : (32 <= length (h ++ c))%nat) by (destruct HR as [_ HR]; rewrite F in HR; tauto).
  rewrite app_assoc. destruct (Z.eqb_spec (zstd_hash ((h ++ c) ++ [b]) mod 2 ^ bits) (2 ^ bits - 1)) as [G|G].
  - left. split; [split; [rewrite app_length; simpl; lia|exact G]|]. exists s'. split; [reflexivity|]. now rewrite app_nil_r.
  - right. split; [intros [_ X]; exact (G X)|]. exists s'. rewrite <- ?app_assoc in *. auto.
Qed.

Lemma zstd_rotate_ok : forall bits s h c u d, 0 <= bits -> zstd_incr_rel s (h ++ c ++ u) -> zi_window_full s = true ->
  (forall n, ~ ends_at (per_stream (zstd_rule bits)) h (c ++ u) n) ->
  (exists n k s', ends_at (per_stream (zstd_rule bits)) h (c ++ u ++ d) n /\ n = (length c + k + 1)%nat /\
     zstd_push_rotate (zstd_params bits) (length u) s (u ++ d) = Ok (s', Some k) /\
     zstd_incr_rel s' ((h ++ firstn n (c ++ u ++ d)) ++ [])) \/
  (exists s', (forall n, ~ ends_at (per_stream (zstd_rule bits)) h (c ++ u ++ d) n) /\
     zstd_push_rotate (zstd_params bits) (length u) s (u ++ d) = Ok (s', None) /\ zstd_incr_rel s' (h ++ c ++ u ++ d)).
Proof.
  intros bits s h c u d Hb HR F HN. unfold zstd_push_rotate, sub_slice.
  replace ((length u <=? length (u ++ d))%nat && (length (u ++ d) <=? length (u ++ d))%nat) with true.
  2:{ symmetry. apply andb_true_iff. rewrite app_length. split; apply Nat.leb_le; lia. }
  cbn [bind]. rewrite skipn_app_ge, Nat.sub_diag by lia. cbn [skipn].
  rewrite firstn_all2 by (rewrite app_length; lia).
  destruct (for_enum_scan _ _ _ _ _ _ (zstd_step bits (length u) Hb) any_length_down d 0 s h (c ++ u) (conj HR F) HN I)
    as [(n & j & s' & Fn & En & Ef & HQ)|(N & s' & Ef & HR' & F')]; rewrite Ef; cbn [bind]; rewrite <- (app_assoc c u d) in *.
  - left. exists n, (0 + j + length u)%nat, s'. rewrite app_length in En. split; [exact Fn|]. split; [lia|].
    split; [reflexivity|exact HQ].
  - right. exists s'. auto.
Qed.

(** The first half of [push]: fill the window. *)
Lemma zstd_fill : forall p s t d u, zstd_incr_rel s t -> zi_window_full s = false -> u = firstn (32 - length t) d ->
  exists rest, length (t ++ u ++ rest) = 32%nat /\ zstd_push p s d =
    (if Nat.eqb (length (t ++ u)) 32 then
       zstd_push_rotate p (length u)
         {| zi_state := zstd_append 0 (t ++ u); zi_window := t ++ u; zi_window_offs := 0; zi_window_full := true |} d
     else Ok ({| zi_state := 0; zi_window := t ++ u ++ rest; zi_window_offs := length (t ++ u); zi_window_full := false |}, None)).
Proof.
  intros p s t d u (Lw & HR) F Eu. rewrite F in HR. destruct HR as (Lt & Eo & Ew & Es).
  unfold zstd_push. rewrite F. cbn [negb]. unfold sub_usize. rewrite Lw, Eo.
  replace (Nat.leb (length t) 32) with true by (symmetry; apply Nat.leb_le; lia). cbn [bind].
  assert (Lu : Nat.min (32 - length t) (length d) = length u) by (rewrite Eu, firstn_length; lia).
  rewrite Lu. unfold sub_slice at 1.
  replace ((0 <=? length u)%nat && (length u <=? length d)%nat) with true.
  2:{ symmetry. apply andb_true_iff. split; apply Nat.leb_le; lia. }
  cbn [bind skipn]. rewrite Nat.sub_0_r.
  replace (firstn (length u) d) with u.
  2:{ rewrite Eu at 1. rewrite <- Lu. destruct (Nat.le_ge_cases (32 - length t) (length d)).
      - now rewrite Nat.min_l. - rewrite Nat.min_r by lia. now rewrite !firstn_all2 by lia. }
  unfold copy_from_slice, sub_slice.
  replace ((length t <=? length t + length u)%nat && (length t + length u <=? length (zi_window s))%nat) with true.
  2:{ symmetry. apply andb_true_iff. split; apply Nat.leb_le; lia. }
  cbn [bind].
  replace (length u =? length t + length u - length t)%nat with true by (symmetry; apply Nat.eqb_eq; lia).
  cbn [bind]. rewrite Ew, Es. set (rest := skipn (length t + length u) (zi_window s)).
  assert (Lr : length rest = (32 - length t - length u)%nat) by (unfold rest; rewrite skipn_length; lia).
  assert (Lwin : length (t ++ u ++ rest) = 32%nat) by (rewrite !app_length, Lr; lia).
  rewrite Lwin, (app_length t u). exists rest. split; [exact Lwin|].
  destruct (Nat.eqb_spec (length t + length u) 32) as [G|G]; cbn [negb]; [|reflexivity].
  destruct rest as [|x rest']; [|cbn [length] in Lr; lia]. now rewrite app_nil_r.
Qed.

Lemma zstd_push_ok : forall bits, 0 <= bits -> push_ok 1 (zstd_push (zstd_params bits)) (ends_at (per_stream (zstd_rule bits)))
  any_length (fun s h c => zstd_incr_rel s (h ++ c)).
Proof.
  intros bits Hb s h c d HR HN _. destruct (zi_window_full s) eqn:F.
  - unfold zstd_push. rewrite F. cbn [negb].
    destruct (zstd_rotate_ok bits s h c [] d Hb) as [X|X]; rewrite ?app_nil_r; auto.
  - destruct (zstd_fill (zstd_params bits) s (h ++ c) d _ HR F eq_refl) as (rest & Lwin & Ep).
    destruct HR as (Lw & HR). rewrite F in HR. destruct HR as (Lt & _).
    set (u := firstn (32 - length (h ++ c)) d) in *.
    rewrite Ep. destruct (Nat.eqb_spec (length ((h ++ c) ++ u)) 32) as [G|G].
    + assert (HN' : forall n, ~ ends_at (per_stream (zstd_rule bits)) h (c ++ u) n).
      { intros n ((Hn & _) & Hr & _). revert Hr. apply zstd_short. unfold per_stream.
        rewrite <- app_assoc, app_length in G. rewrite app_length, firstn_length. lia. }
      assert (Ed : d = u ++ skipn (32 - length (h ++ c)) d) by (symmetry; apply firstn_skipn).
      set (r := skipn (32 - length (h ++ c)) d) in Ed. rewrite Ed.
      apply zstd_rotate_ok; [exact Hb| |reflexivity|exact HN'].
      split; [exact G|]. cbn [zi_window_full zi_window zi_window_offs zi_state].
      rewrite app_assoc. split; [lia|]. split.
      * split; [rewrite G; lia|]. cbn [skipn firstn]. rewrite app_nil_r. symmetry. apply lastn_all. lia.
      * apply zstd_append_window. lia.
    + assert (Eu : u = d).
      { unfold u. apply firstn_all2. rewrite (app_length _ u) in G. unfold u in G. rewrite firstn_length in G. lia. }
      assert (G' : (length ((h ++ c) ++ u) < 32)%nat) by (rewrite app_assoc, (app_length _ rest) in Lwin; lia).
      right. eexists. split; [|split; [reflexivity|]].
      * intros n ((Hn & Hn2) & Hr & _). revert Hr. apply zstd_short. unfold per_stream.
        rewrite Eu, <- app_assoc, app_length in G'. rewrite app_length, firstn_length. lia.
      * split; [exact Lwin|]. cbn [zi_window_full zi_window zi_window_offs zi_state].
        rewrite <- Eu, (app_assoc h c u). split; [lia|]. split; [reflexivity|]. split; [|reflexivity].
        rewrite (app_assoc (h ++ c)), firstn_app_le, firstn_all by lia. reflexivity.
Qed.

Lemma zstd_incr_conforms : forall bits, 0 <= bits ->
  incr_conforms 1 (zstd_incr (zstd_params bits)) (ends_at (per_stream (zstd_rule bits))) any_length.
Proof.
  intros bits Hb. exact (incr_conforms_of 1 (zstd_incr (zstd_params bits)) _ _ _ (ends_at_laws _) (ends_at_progressive _)
    any_length_down (zstd_push_ok bits Hb) zstd_new_rel).
Qed.
Lemma zstd_incr_prompt : forall bits, 0 <= bits ->
  incr_prompt 1 (zstd_incr (zstd_params bits)) (ends_at (per_stream (zstd_rule bits))) any_length.
Proof.
  intros bits Hb. exact (incr_prompt_of 1 (zstd_incr (zstd_params bits)) _ _ _ (ends_at_laws _) (ends_at_local _)
    any_length_down (zstd_push_ok bits Hb) zstd_new_rel).
Qed.

(** ** [find_chunk_edge] *)
Definition zstd_search_rel (s : ZstdSearchState) (t : list byte) : Prop :=
  zss_offset s = Nat.min 32 (length t) /\ zss_state s = zstd_hash t.

Lemma zstd_default_rel : zstd_search_rel zstd_search_default [].
Proof. split; reflexivity. Qed.

(** Between calls: the offset never points past the bytes the caller still holds. *)
Definition zstd_held (s : ZstdSearchState) (held : nat) : Prop := (zss_offset s < 32 -> zss_offset s <= held)%nat.

Lemma zstd_fce_range : forall bits buf n s i, (32 <= i)%nat -> (i + n = length buf)%nat ->
  (exists h j, (j < n)%nat /\ for_range (zstd_fce_body (zstd_params bits) buf) i n s = Ok (Return h (i + j + 1)%nat)) \/
  (exists h, for_range (zstd_fce_body (zstd_params bits) buf) i n s = Ok (Next h)).
Proof.
  intros bits buf n. induction n as [|n IH]; intros s i Hi Hn; [right; now exists s|].
  cbn [for_range]. unfold zstd_fce_body at 1 3. unfold sub_usize, RSYNC_LENGTH.
  replace (Nat.leb 32 i) with true by (symmetry; apply Nat.leb_le; lia). cbn [bind].
  destruct (index_lt _ buf (i - 32)) as (o & _ & ->); [lia|]. destruct (index_lt _ buf i) as (b & _ & ->); [lia|].
  cbn [bind]. destruct (zstd_at_split _ _); cbn [bind].
  - left. eexists. exists 0%nat. split; [lia|]. now rewrite Nat.add_0_r.
  - destruct (IH (zstd_rotate s o b (zd_prime_power (zstd_params bits))) (S i)) as [(h & j & Hj & E)|(h & E)]; try lia.
    + left. exists h, (S j). split; [lia|]. rewrite E. do 2 f_equal. lia.
    + right. now exists h.
Qed.

(** No call ever panics, whatever the state left by earlier calls. *)
Lemma zstd_fce_total : forall bits s buf, zstd_held s (length buf) ->
  exists s' o d, zstd_find_chunk_edge (zstd_params bits) s buf = Ok (s', (o, d)) /\ d = (length buf - 32)%nat /\
    zstd_held s' (length buf - d) /\ match o with Some c => (33 <= c <= length buf /\ 32 <= zss_offset s')%nat | None => True end.
Proof.
  intros bits s buf H. unfold zstd_find_chunk_edge.
  assert (X : exists s1, (if Nat.ltb (zss_offset s) RSYNC_LENGTH then
           seed_b <- sub_slice buf (zss_offset s) (Nat.min RSYNC_LENGTH (length buf)) ;;
           Ok {| zss_state := zstd_append (zss_state s) seed_b; zss_offset := zss_offset s + length seed_b |}
         else Ok s) = Ok s1 /\ (zss_offset s1 < 32 -> zss_offset s1 = length buf)%nat).
  { unfold RSYNC_LENGTH. destruct (Nat.ltb_spec (zss_offset s) 32) as [G|G].
    - specialize (H G). unfold sub_slice.
      replace ((zss_offset s <=? Nat.min 32 (length buf))%nat && (Nat.min 32 (length buf) <=? length buf)%nat) with true.
      2:{ symmetry. apply andb_true_iff. split; apply Nat.leb_le; lia. }
      cbn [bind]. eexists. split; [reflexivity|]. cbn [zss_offset]. rewrite firstn_length, skipn_length. lia.
    - exists s. split; [reflexivity|lia]. }
  destruct X as (s1 & -> & H1). cbn [bind]. unfold RSYNC_LENGTH.
  destruct (Nat.ltb_spec (zss_offset s1) 32) as [G|G].
  - specialize (H1 G). exists s1, None, 0%nat. split; [reflexivity|]. split; [lia|]. split; [|exact I].
    intros _. lia.
  - destruct (Nat.le_gt_cases (length buf) (zss_offset s1)) as [G2|G2].
    + replace (length buf - zss_offset s1)%nat with 0%nat by lia. cbn [for_range bind].
      eexists _, None, _. split; [reflexivity|]. split; [lia|]. split; [|exact I]. intros _. cbn [zss_offset]. lia.
    + destruct (zstd_fce_range bits buf (length buf - zss_offset s1) (zss_state s1) (zss_offset s1)) as [(h & j & Hj & ->)|(h & ->)];
        try lia; cbn [bind].
      * eexists _, (Some _), _. split; [reflexivity|]. split; [lia|]. split; [|cbn [zss_offset]; lia]. intros X. cbn [zss_offset] in X. lia.
      * eexists _, None, _. split; [reflexivity|]. split; [lia|]. split; [|exact I]. intros _. cbn [zss_offset]. lia.
Qed.

(** One call after the bytes [t], none of them lost, shown the bytes [d] more. *)
Lemma zstd_fce_scan : forall bits, 0 <= bits -> forall buf,
  range_step_ok (zstd_fce_body (zstd_params bits) buf) (per_stream (zstd_rule bits)) any_length buf
    (fun i x h c => (32 <= i <= length (h ++ c))%nat /\ (exists e, h ++ c ++ skipn i buf = e ++ buf) /\ x = zstd_hash (h ++ c))
    (fun x h c => x = zstd_hash (h ++ c)).
Proof.
  intros bits Hb buf i x h c b ((Hi & Hi2) & (e & He) & ->) Hbi _. unfold zstd_fce_body, sub_usize, RSYNC_LENGTH.
  replace (Nat.leb 32 i) with true by (symmetry; apply Nat.leb_le; lia). cbn [bind].
  assert (Hlt : (i < length buf)%nat) by (apply nth_error_Some; congruence).
  destruct (index_lt _ buf (i - 32)) as (o & Ho & ->); [lia|]. rewrite (index_ok _ _ _ _ Hbi). cbn [bind].
  assert (Es : skipn i buf = b :: skipn (S i) buf).
  { clear -Hbi. revert i Hbi. induction buf as [|y buf IH]; intros i Hbi; [destruct i; discriminate|].
    destruct i as [|i]; [now inversion Hbi|]. exact (IH i Hbi). }
  assert (Hlen : (length (h ++ c) = length e + i)%nat).
  { assert (X := f_equal (@length byte) He). rewrite app_assoc, (app_length (h ++ c)), (app_length e), skipn_length in X. lia. }
  assert (Hoc : nth_error ((h ++ c) ++ [b]) (length (h ++ c) - 32) = Some o).
  { rewrite nth_error_app1 by lia.
    assert (X : nth_error (h ++ c ++ skipn i buf) (length (h ++ c) - 32) = Some o).
    { rewrite He, nth_error_app2 by lia. rewrite <- Ho. f_equal. lia. }
    rewrite app_assoc, nth_error_app1 in X by lia. exact X. }
  change (zd_prime_power (zstd_params bits)) with zstd_power.
  assert (H32 : (32 <= length (h ++ c))%nat) by lia.
  rewrite (zstd_rotate_spec (h ++ c) b o H32 Hoc), zstd_at_split_spec by exact Hb. unfold per_stream.
  rewrite <- app_assoc. destruct (Z.eqb_spec (zstd_hash (h ++ c ++ [b]) mod 2 ^ bits) (2 ^ bits - 1)) as [G|G].
  - left. split; [split; [rewrite app_assoc, app_length; simpl; lia|exact G]|]. eexists. split; reflexivity.
  - right. split; [intros [_ X]; exact (G X)|]. eexists. split; [reflexivity|].
    split; [rewrite app_assoc, app_length; simpl; lia|]. split; [|reflexivity].
    exists e. rewrite <- He, Es. now rewrite <- !app_assoc.
Qed.

Lemma zstd_fce_spec : forall bits s t d, 0 <= bits -> zstd_search_rel s t ->
  let k := Nat.min 32 (length t) in let buf := lastn k t ++ d in
  (exists n, ends_at (per_stream (zstd_rule bits)) t d n /\ exists s', zss_offset s' = 32%nat /\ zss_state s' = zstd_hash (t ++ firstn n d) /\
     zstd_find_chunk_edge (zstd_params bits) s buf = Ok (s', (Some (k + n)%nat, (length buf - 32)%nat))) \/
  ((forall n, ~ ends_at (per_stream (zstd_rule bits)) t d n) /\ exists s', zstd_search_rel s' (t ++ d) /\
     zstd_find_chunk_edge (zstd_params bits) s buf = Ok (s', (None, (length buf - 32)%nat))).
Proof.
  intros bits s t d Hb (Eo & Es) k buf.
  assert (Lbuf : length buf = (k + length d)%nat) by (unfold buf; rewrite app_length, lastn_length; lia).
  (* after seeding: the bytes [u] of [d] are hashed *)
  set (u := firstn (32 - length t) d).
  assert (X : (if Nat.ltb (zss_offset s) RSYNC_LENGTH then
           seed_b <- sub_slice buf (zss_offset s) (Nat.min RSYNC_LENGTH (length buf)) ;;
           Ok {| zss_state := zstd_append (zss_state s) seed_b; zss_offset := zss_offset s + length seed_b |}
         else Ok s) = Ok {| zss_state := zstd_hash (t ++ u); zss_offset := Nat.min 32 (length (t ++ u)) |}).
  { unfold RSYNC_LENGTH. destruct (Nat.ltb_spec (zss_offset s) 32) as [G|G].
    - assert (Lt : (length t < 32)%nat) by lia. assert (Ek : k = length t) by (unfold k; lia).
      unfold sub_slice. rewrite Lbuf, Eo. fold k. rewrite Ek.
      replace ((length t <=? Nat.min 32 (length t + length d))%nat && (Nat.min 32 (length t + length d) <=? length t + length d)%nat) with true.
      2:{ symmetry. apply andb_true_iff. split; apply Nat.leb_le; lia. }
      cbn [bind]. unfold buf. rewrite Ek. rewrite lastn_all, skipn_app_ge, Nat.sub_diag by lia. cbn [skipn].
      replace (firstn (Nat.min 32 (length t + length d) - length t) d) with u.
      2:{ unfold u. destruct (Nat.le_ge_cases (32 - length t) (length d)); [f_equal; lia|]. now rewrite !firstn_all2 by lia. }
      f_equal. assert (Lu : (length u <= 32 - length t)%nat) by (unfold u; rewrite firstn_length; lia).
      rewrite app_length. f_equal; [|lia]. rewrite Es.
      unfold zstd_hash. rewrite !firstn_all2 by (rewrite rev_length, ?app_length; lia). apply zstd_append_spec.
    - assert (Eu : u = []) by (unfold u; replace (32 - length t)%nat with 0%nat by lia; reflexivity).
      rewrite Eu, app_nil_r. destruct s as [st o]. cbn in *. now subst. }
  unfold zstd_find_chunk_edge. rewrite X. cbn [bind]. clear X. cbn [zss_state zss_offset]. unfold RSYNC_LENGTH.
  assert (Ed : d = u ++ skipn (32 - length t) d) by (symmetry; apply firstn_skipn).
  set (v := skipn (32 - length t) d) in *.
  destruct (Nat.ltb_spec (Nat.min 32 (length (t ++ u))) 32) as [G|G].
  - assert (Ev : v = []).
    { unfold v. apply skipn_all2. rewrite app_length in G. unfold u in G. rewrite firstn_length in G. lia. }
    rewrite Ev, app_nil_r in Ed. rewrite <- Ed in *. right. rewrite app_length in G. split.
    + intros n ((Hn & Hn2) & Hr & _). revert Hr. apply zstd_short. unfold per_stream. rewrite app_length, firstn_length. lia.
    + exists {| zss_state := zstd_hash (t ++ d); zss_offset := Nat.min 32 (length (t ++ d)) |}. split; [split; reflexivity|].
      do 3 f_equal. rewrite Lbuf. unfold k. lia.
  - assert (Hm : Nat.min 32 (length (t ++ u)) = 32%nat) by lia. rewrite Hm.
    assert (Eb : buf = lastn 32 (t ++ u) ++ v).
    { unfold buf. rewrite Ed at 1. rewrite app_assoc. f_equal. unfold k.
      destruct (Nat.le_ge_cases 32 (length t)) as [A|A].
      - assert (Eu : u = []) by (unfold u; replace (32 - length t)%nat with 0%nat by lia; reflexivity).
        rewrite Eu, !app_nil_r. f_equal. lia.
      - assert (Lu : (length u <= 32 - length t)%nat) by (unfold u; rewrite firstn_length; lia).
        rewrite Nat.min_r, (lastn_all _ (length t)) by lia. rewrite lastn_all; [reflexivity|]. rewrite app_length. lia. }
    assert (Lw : length (lastn 32 (t ++ u)) = 32%nat) by (rewrite lastn_length; lia).
    assert (Lv : (length buf - 32)%nat = length v) by (rewrite Eb, app_length, Lw; lia).
    assert (Hsu : forall n, ~ ends_at (per_stream (zstd_rule bits)) t u n).
    { intros n ((Hn & Hn2) & Hr & _). revert Hr. apply zstd_short. unfold per_stream. rewrite app_length, firstn_length.
      unfold u. rewrite firstn_length. unfold u in Hn2. rewrite firstn_length in Hn2. lia. }
    rewrite Lv.
    assert (HS := for_range_scan _ _ _ _ _ _ (zstd_fce_scan bits Hb buf) any_length_down v (lastn 32 (t ++ u)) (zstd_hash (t ++ u)) t u Eb).
    cbv beta in HS. rewrite Lw in HS. rewrite <- Ed in HS.
    destruct HS as [(n & j & s' & Fn & En & Ef & HQ)|(N & s' & Ef & HR' & F' & HQ)].
    + split; [lia|]. split; [|reflexivity]. exists (firstn (length (t ++ u) - 32) (t ++ u)).
      rewrite Eb at 1. rewrite skipn_app_ge by lia. rewrite Lw. cbn [Nat.sub skipn]. rewrite Eb, (app_assoc t u v).
      rewrite (app_assoc (firstn _ _)). f_equal. symmetry. apply firstn_skipn.
    + exact Hsu.
    + exact I.
    + rewrite Ef. cbn [bind]. left. exists n. split; [exact Fn|].
      assert (En' : (k + n = 32 + j + 1)%nat).
      { assert (Z := f_equal (@length byte) Eb). rewrite (app_length (lastn _ _)), Lw, Lbuf in Z.
        rewrite Ed, app_length in Z. lia. }
      rewrite En'. eexists. split; [|split; [|reflexivity]]; [reflexivity|exact HQ].
    + rewrite Ef. cbn [bind]. right. split; [exact N|]. eexists. split; [|reflexivity].
      split; [|exact HQ]. cbn [zss_offset]. rewrite <- Lv. rewrite Lbuf. rewrite app_length. unfold k. lia.
Qed.

(** *** Whole runs *)
Lemma zstd_drive_total : forall bits shrink data sched s base lo seen none,
  zstd_held s (lo - base) -> (base <= lo <= length data)%nat -> (base <= seen <= length data)%nat ->
  (none = true -> (seen - base <= 32)%nat) ->
  exists r, drive_chunk shrink (zstd_find_chunk_edge (zstd_params bits)) data sched s base lo seen none = Ok r /\
    (r_base r <= r_seen r <= length data)%nat /\ (r_none r = true -> (r_seen r - r_base r <= 32)%nat).
Proof.
  intros bits shrink data sched. induction sched as [|g sched IH]; intros s base lo seen none HH HL HS HN.
  - eexists. cbn [drive_chunk]. split; [reflexivity|]. auto.
  - cbn [drive_chunk]. set (hi := Nat.min (length data) (Nat.max lo (base + g))).
    set (buf := firstn (hi - base) (skipn base data)).
    assert (Lb : length buf = (hi - base)%nat) by (unfold buf, hi; rewrite firstn_length, skipn_length; lia).
    destruct (zstd_fce_total bits s buf) as (s' & o & d & -> & Ed & HH' & Hc).
    { intros X. specialize (HH X). unfold hi in Lb. lia. }
    cbn [bind]. replace (Nat.ltb (length buf) d) with false by (symmetry; apply Nat.ltb_ge; lia).
    destruct o as [c|].
    + replace (Nat.ltb (length buf) c) with false by (symmetry; apply Nat.ltb_ge; lia).
      assert (Hoff : zstd_held s' 0) by (intros X; lia).
      destruct (IH s' (base + d)%nat (if shrink then (base + d)%nat else hi) hi false) as (r & -> & X1 & X2).
      * destruct shrink; intros X; specialize (Hoff X); lia.
      * destruct shrink; unfold hi in *; lia.
      * unfold hi in *; lia.
      * discriminate.
      * cbn [bind]. eexists. split; [reflexivity|]. cbn [add_cut r_base r_seen r_none]. auto.
    + apply IH.
      * replace (hi - (base + d))%nat with (length buf - d)%nat by lia. exact HH'.
      * unfold hi in *; lia.
      * unfold hi in *; lia.
      * lia.
Qed.

Lemma zstd_chunk_total : forall bits shrink data sched,
  exists r, run_chunk shrink (zstd_chunk (zstd_params bits)) data sched = Ok r /\
    (r_base r <= r_seen r <= length data)%nat /\ (r_none r = true -> (r_seen r - r_base r <= 32)%nat).
Proof.
  intros bits shrink data sched. apply zstd_drive_total; [|lia|lia|discriminate]. intros X. cbn. lia.
Qed.

(** Rules looking at the whole stream do not care where the chunk started. *)
Lemma per_stream_shift : forall r h c d n, (forall m, ~ ends_at (per_stream r) h c m) ->
  (ends_at (per_stream r) (h ++ c) d n <-> ends_at (per_stream r) h (c ++ d) (length c + n) /\ (1 <= n)%nat).
Proof.
  intros r h c d n N. unfold per_stream.
  assert (E : forall m, (h ++ c) ++ firstn m d = h ++ firstn (length c + m) (c ++ d)).
  { intros m. rewrite <- app_assoc. f_equal. rewrite firstn_app_ge by lia. do 2 f_equal. lia. }
  split.
  - intros ((H1 & H2) & Hr & Hm). split; [|lia]. split; [rewrite app_length; lia|]. rewrite <- E. split; [exact Hr|].
    intros m Hmm. destruct (Nat.le_gt_cases m (length c)) as [G|G].
    + rewrite firstn_app_le by lia. apply (ends_at_none (per_stream r) h c N). lia.
    + replace m with (length c + (m - length c))%nat by lia. rewrite <- E. apply Hm. lia.
  - intros (((H1 & H2) & Hr & Hm) & H3). rewrite app_length in H2. split; [lia|]. rewrite E. split; [exact Hr|].
    intros m Hmm. rewrite E. apply Hm. lia.
Qed.

Lemma per_stream_shift_none : forall r h c d, (forall m, ~ ends_at (per_stream r) h c m) ->
  (forall n, ~ ends_at (per_stream r) (h ++ c) d n) -> (forall n, ~ ends_at (per_stream r) h (c ++ d) n).
Proof.
  intros r h c d N H n F. destruct (Nat.le_gt_cases n (length c)) as [G|G].
  - apply (N n). eapply ends_at_mono; eauto.
  - apply (H (n - length c)%nat). apply per_stream_shift; [exact N|]. split; [|lia].
    now replace (length c + (n - length c))%nat with n by lia.
Qed.

(** The buffer of a call. *)
Lemma zstd_buffer : forall (data : list byte) base lo hi, base = (lo - 32)%nat -> (lo <= hi <= length data)%nat ->
  firstn (hi - base) (skipn base data)
  = lastn (Nat.min 32 (length (firstn lo data))) (firstn lo data) ++ firstn (hi - lo) (skipn lo data).
Proof.
  intros data base lo hi Eb H.
  assert (L : length (firstn lo data) = lo) by (rewrite firstn_length; lia). rewrite L.
  unfold lastn. rewrite L.
  rewrite (skipn_firstn_split _ (lo - base) (hi - base)) by lia. rewrite skipn_skipn'.
  replace (base + (lo - base))%nat with lo by lia. replace (hi - base - (lo - base))%nat with (hi - lo)%nat by lia. f_equal.
  rewrite skipn_firstn_comm. replace (lo - Nat.min 32 lo)%nat with base by lia. reflexivity.
Qed.

(** Up to its first cut [find_chunk_edge] is right for every caller. *)
Lemma zstd_drive_first : forall bits, 0 <= bits -> forall shrink data sched s base lo none r,
  zstd_search_rel s (firstn lo data) -> base = (lo - 32)%nat -> (lo <= length data)%nat ->
  (forall n, ~ ends_at (per_stream (zstd_rule bits)) [] (firstn lo data) n) ->
  drive_chunk shrink (zstd_find_chunk_edge (zstd_params bits)) data sched s base lo lo none = Ok r ->
  match r_cuts r with
  | [] => forall n, ~ ends_at (per_stream (zstd_rule bits)) [] (firstn (r_seen r) data) n
  | p :: _ => ends_at (per_stream (zstd_rule bits)) [] data p
  end.
Proof.
  intros bits Hb shrink data sched. induction sched as [|g sched IH]; intros s base lo none r HR EB HL HN E.
  - cbn [drive_chunk] in E. inversion E. exact HN.
  - cbn [drive_chunk] in E. set (hi := Nat.min (length data) (Nat.max lo (base + g))) in E.
    assert (Hhi : (lo <= hi <= length data)%nat) by (unfold hi; lia).
    rewrite (zstd_buffer data base lo hi EB Hhi) in E.
    set (d := firstn (hi - lo) (skipn lo data)) in *.
    assert (Ld : length d = (hi - lo)%nat) by (unfold d; rewrite firstn_length, skipn_length; lia).
    assert (Lt : length (firstn lo data) = lo) by (rewrite firstn_length; lia).
    assert (Ehi : firstn hi data = firstn lo data ++ d) by (unfold d; apply skipn_firstn_split; lia).
    assert (Lbuf : length (lastn (Nat.min 32 (length (firstn lo data))) (firstn lo data) ++ d) = (hi - base)%nat).
    { rewrite app_length, lastn_length, Lt, Ld. lia. }
    destruct (zstd_fce_spec bits s (firstn lo data) d Hb HR) as [(n & Fn & s' & _ & _ & Ef)|(N & s' & HR' & Ef)];
      rewrite Ef in E; cbn [bind] in E; rewrite Lbuf in E.
    + replace (Nat.ltb (hi - base) (hi - base - 32)) with false in E by (symmetry; apply Nat.ltb_ge; lia).
      destruct (Nat.ltb _ _) in E; [discriminate|]. apply bind_inv in E. destruct E as (r2 & _ & E2).
      apply (f_equal (fun x => match x with Ok a => r_cuts a | _ => [] end)) in E2. cbv beta iota in E2.
      rewrite <- E2. cbn [add_cut r_cuts]. clear E2.
      replace (base + (Nat.min 32 (length (firstn lo data)) + n))%nat with (length (firstn lo data) + n)%nat by (rewrite Lt; lia).
      set (t := firstn lo data) in *. rewrite <- (firstn_skipn hi data), Ehi. apply (fl_ext _ (ends_at_laws _)).
      apply (per_stream_shift _ [] t); assumption.
    + replace (Nat.ltb (hi - base) (hi - base - 32)) with false in E by (symmetry; apply Nat.ltb_ge; lia).
      apply (IH _ _ hi _ r) in E; [exact E| | | |].
      * now rewrite Ehi.
      * lia.
      * lia.
      * rewrite Ehi. apply (per_stream_shift_none _ []); assumption.
Qed.

Lemma zstd_chunk_first : forall bits shrink data sched r, 0 <= bits ->
  run_chunk shrink (zstd_chunk (zstd_params bits)) data sched = Ok r ->
  match r_cuts r with
  | [] => forall n, ~ ends_at (per_stream (zstd_rule bits)) [] (firstn (r_seen r) data) n
  | p :: _ => ends_at (per_stream (zstd_rule bits)) [] data p
  end.
Proof.
  intros bits shrink data sched r Hb E. eapply zstd_drive_first in E; eauto; [split; reflexivity|lia|].
  intros n F. cbn in F. destruct F as (X & _). simpl in X. lia.
Qed.

(** A caller who shows at most 33 bytes at a time gets all the cuts. *)
Lemma zstd_drive_small : forall bits, 0 <= bits -> forall data sched, Forall (fun g => (g <= 33)%nat) sched ->
  forall s base lo none h c, zstd_search_rel s (firstn lo data) -> base = (lo - 32)%nat -> (lo <= length data)%nat ->
  firstn lo data = h ++ c -> (forall n, ~ ends_at (per_stream (zstd_rule bits)) h c n) ->
  exists r, drive_chunk false (zstd_find_chunk_edge (zstd_params bits)) data sched s base lo lo none = Ok r /\
    r_base r = (r_seen r - 32)%nat /\ (lo <= r_seen r <= length data)%nat /\
    cuts_of (ends_at (per_stream (zstd_rule bits))) h (skipn (length h) (firstn (r_seen r) data)) (r_cuts r) /\
    (Forall (fun g => g = 33%nat) sched -> (Nat.min (length data) (lo + length sched) <= r_seen r)%nat).
Proof.
  intros bits Hb data sched FS. induction FS as [|g sched Hg FS IH]; intros s base lo none h c HR EB HL Ehc HN.
  - eexists. cbn [drive_chunk]. split; [reflexivity|]. cbn [r_base r_seen r_cuts].
    split; [exact EB|]. split; [lia|]. split; [|simpl; lia].
    rewrite Ehc, skipn_app_ge, Nat.sub_diag by lia. now constructor.
  - cbn [drive_chunk]. set (hi := Nat.min (length data) (Nat.max lo (base + g))).
    assert (Hhi : (lo <= hi <= length data)%nat) by (unfold hi; lia).
    rewrite (zstd_buffer data base lo hi EB Hhi).
    set (d := firstn (hi - lo) (skipn lo data)) in *.
    assert (Ld : length d = (hi - lo)%nat) by (unfold d; rewrite firstn_length, skipn_length; lia).
    assert (Lt : length (firstn lo data) = lo) by (rewrite firstn_length; lia).
    assert (Ehi : firstn hi data = firstn lo data ++ d) by (unfold d; apply skipn_firstn_split; lia).
    assert (Lbuf : length (lastn (Nat.min 32 (length (firstn lo data))) (firstn lo data) ++ d) = (hi - base)%nat).
    { rewrite app_length, lastn_length, Lt, Ld. lia. }
    assert (Lhc : lo = (length h + length c)%nat) by (rewrite <- app_length, <- Ehc; lia).
    destruct (zstd_fce_spec bits s (firstn lo data) d Hb HR) as [(n & Fn & s' & O' & S' & Ef)|(N & s' & HR' & Ef)];
      rewrite Ef; cbn [bind]; rewrite Lbuf;
      replace (Nat.ltb (hi - base) (hi - base - 32)) with false by (symmetry; apply Nat.ltb_ge; lia).
    + assert (En : n = length d).
      { destruct Fn as ((F1 & F2) & (F3 & _) & _). unfold per_stream in F3. rewrite app_length, !firstn_length in F3. unfold hi in *. lia. }
      replace (Nat.ltb (hi - base) _) with false by (symmetry; apply Nat.ltb_ge; rewrite Lt; lia).
      subst n. rewrite firstn_all in S'.
      assert (L33 : (33 <= hi)%nat).
      { destruct Fn as (_ & (F3 & _) & _). rewrite firstn_all, <- Ehi, firstn_length in F3. lia. }
      destruct (IH s' (base + (hi - base - 32))%nat hi false (h ++ c ++ d) []) as (r & -> & X1 & X2 & X3 & X4).
      { rewrite Ehi. split; [|exact S']. rewrite O', app_length, Ld. lia. }
      { lia. } { lia. }
      { rewrite Ehi, Ehc, app_nil_r. now rewrite <- app_assoc. }
      { apply (fl_nil _ (ends_at_laws _)). }
      cbn [bind]. eexists. split; [reflexivity|]. cbn [add_cut r_base r_seen r_cuts].
      split; [exact X1|]. split; [lia|]. split.
      2:{ intros FE. inversion FE as [|? ? A B]. specialize (X4 B). cbn [length]. unfold hi in *. lia. }
      rewrite Ehc in Fn. apply (per_stream_shift _ h c d _ HN) in Fn. destruct Fn as [Fn _].
      replace (base + (Nat.min 32 (length (firstn lo data)) + length d))%nat with (length h + (length c + length d))%nat by (rewrite Lt; lia).
      assert (Y : skipn (length h) (firstn (r_seen r) data) = (c ++ d) ++ skipn hi (firstn (r_seen r) data)).
      { rewrite <- (firstn_skipn hi (firstn (r_seen r) data)) at 1. rewrite firstn_firstn, Nat.min_l, Ehi, Ehc by lia.
        rewrite <- (app_assoc h), <- (app_assoc h), skipn_app_ge, Nat.sub_diag by lia. reflexivity. }
      assert (Lhcd : length (h ++ c ++ d) = hi) by (rewrite !app_length; lia).
      rewrite Y. econstructor.
      * apply (fl_ext _ (ends_at_laws _)). exact Fn.
      * rewrite <- app_length. rewrite firstn_app_le, firstn_all by lia.
        rewrite (skipn_app_ge _ (length (c ++ d))), Nat.sub_diag by lia. cbn [skipn]. rewrite Lhcd in X3. exact X3.
    + destruct (IH s' (base + (hi - base - 32))%nat hi true h (c ++ d)) as (r & -> & X1 & X2 & X3 & X4).
      { rewrite Ehi. exact HR'. }
      { lia. } { lia. }
      { rewrite Ehi, Ehc. now rewrite <- app_assoc. }
      { apply per_stream_shift_none; [exact HN|]. now rewrite <- Ehc. }
      eexists. split; [reflexivity|]. split; [exact X1|]. split; [lia|]. split; [exact X3|].
      intros FE. inversion FE as [|? ? A B]. specialize (X4 B). cbn [length]. unfold hi in *. lia.
Qed.

Lemma zstd_chunk_small : forall bits data sched, 0 <= bits -> Forall (fun g => (g <= 33)%nat) sched ->
  exists r, run_chunk false (zstd_chunk (zstd_params bits)) data sched = Ok r /\ r_base r = (r_seen r - 32)%nat /\
    (r_seen r <= length data)%nat /\ cuts_of (ends_at (per_stream (zstd_rule bits))) [] (firstn (r_seen r) data) (r_cuts r) /\
    (Forall (fun g => g = 33%nat) sched -> (length data <= length sched)%nat -> r_seen r = length data).
Proof.
  intros bits data sched Hb FS.
  destruct (zstd_drive_small bits Hb data sched FS zstd_search_default 0 0 false [] []) as (r & E & X1 & X2 & X3 & X4);
    [split; reflexivity|reflexivity|simpl; lia|reflexivity|apply (fl_nil _ (ends_at_laws _))|].
  exists r. split; [exact E|]. split; [exact X1|]. split; [exact (proj2 X2)|]. split; [exact X3|]. intros A B. specialize (X4 A). destruct X2 as [_ X2]. rewrite Nat.add_0_l in X4. rewrite Nat.min_l in X4 by exact B. now apply Nat.le_antisymm.
Qed.
