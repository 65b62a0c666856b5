(** * PropsDrivers: C54 - C57, the repository's own callers. *)

From Verif Require Import Base Api Tables Range Spec Lists Contract CutFacts.
From Verif Require Import Mii Ram Gear Pigz Gzip FastCdc Bup BuzHash Zpaq Zstd FastCdcProofs.
From Verif Require Import Builtin BuiltinProofs Agree Answers Cases.
From Verif Require Import Drivers DriverProofs DriverFast DriverZstd Oracle PropsZstd.

(** The [discard_ct] of an answer with a cut is the cut. *)
Lemma discards_cut : forall c C rule, chunk_of c = Ok C -> chunk_rule c = Some rule ->
  forall s buf s' k d, find_chunk_edge C s buf = Ok (s', (Some k, d)) -> d = k.
Proof.
  intros c C rule E R s buf s' k d F. destruct (find_answer c C s buf s' k d E F) as [_ X]. destruct c; try exact X; discriminate R.
Qed.

Lemma rule_cuts : forall c C rule data, typed c -> chunk_of c = Ok C -> chunk_sound c -> chunk_rule c = Some rule ->
  stream_len (length data) -> exists cs, cuts_of (ends_at (per_chunk rule)) [] data cs.
Proof.
  intros c C rule data T E S R Hl. destruct (chunk_all c C rule true T E S R data Hl) as (cs & H & _). eauto.
Qed.

Lemma fast_ok : forall g min normal max, typed (CfgFastCdc g min normal max) -> normal <= max -> fastcdc_ok (fastcdc_new g min normal max).
Proof. intros g min normal max (T1 & _ & T3 & T4 & T5) H. unfold is_u64 in *. split; [exact T1|]. cbn. lia. Qed.

(** ** C54: the loop in the documentation of [Chunk::find_chunk_edge] *)

(** As documented it is false that the loop prints all the data: already for the documentation's own chunker and input
    it prints no chunk and an empty "remain". *)
Theorem C54_documented_loop_refuted : exists data, data <> [] /\
  forall fuel, (1 <= fuel)%nat -> doc_loop (mii_chunk mii_default) fuel data = Ok ([], []).
Proof.
  exists [x68; x65; x6c; x6c; x6f]. split; [discriminate|]. intros [|fuel] Hf; [lia|]. vm_compute. reflexivity.
Qed.
Print Assumptions C54_documented_loop_refuted.

(** What it prints: it ends, without a panic; the chunks are right, and what follows the last one ends with the printed
    "remain", which is as long as what the algorithm wants to see again (nothing for most). *)
Theorem C54_documented_loop_partial : forall c C rule data, typed c -> chunk_of c = Ok C -> chunk_sound c ->
  chunk_rule c = Some rule -> stream_len (length data) ->
  exists cs, cuts_of (ends_at (per_chunk rule)) [] data cs /\
  forall fuel, (length data < fuel)%nat ->
  exists chunks dropped remain, doc_loop C fuel data = Ok (chunks, remain) /\
    map (@length byte) chunks = sizes 0 cs /\ data = concat chunks ++ dropped ++ remain /\ (length remain <= look_back c)%nat.
Proof.
  intros c C rule data T E S R Hl. destruct (rule_cuts c C rule data T E S R Hl) as [cs Hcs]. exists cs. split; [exact Hcs|].
  exact (doc_loop_prints C _ _ _ (ends_at_laws _) (ends_at_progressive _) (chunk_all c C rule true T E S R) (discards_cut c C rule E R)
           data cs Hl Hcs).
Qed.
Print Assumptions C54_documented_loop_partial.

(** FastCdc: the same, unless a chunk of maximal size ends exactly where the data ends; then the loop panics. *)
Theorem C54_documented_loop_fastcdc_partial : forall g min normal max data, typed (CfgFastCdc g min normal max) -> normal <= max ->
  stream_len (length data) -> let p := fastcdc_new g min normal max in
  exists enough, forall fuel, (enough <= fuel)%nat ->
  (exists cs chunks dropped, cuts_of (fc_edge p) [] data cs /\ doc_loop (fastcdc_chunk p) fuel data = Ok (chunks, []) /\
     map (@length byte) chunks = sizes 0 cs /\ data = concat chunks ++ dropped) \/
  (exists cs h d, cut_path (fc_edge p) [] data cs h d /\ fastcdc_first g min normal max h d (length d) /\
     doc_loop (fastcdc_chunk p) fuel data = Panic).
Proof.
  intros g min normal max data T Hn Hl p. assert (Hp := fast_ok g min normal max T Hn).
  destruct (fce_outcome p Hp data (stream_below _ Hl)) as (cs & past & W & _ & _ & enough & D). exists enough. intros fuel Hf.
  destruct (D fuel Hf) as [D1 D2]. destruct past.
  - right. destruct (walk_past_path p _ _ _ W) as (h & d & P & F). exists cs, h, d. split; [exact P|]. split; [exact F|]. now apply D1.
  - left. destruct (D2 eq_refl) as (chunks & dropped & E & E1 & E2). exists cs, chunks, dropped.
    split; [exact (walk_cuts p _ _ _ W)|]. now repeat split.
Qed.
Print Assumptions C54_documented_loop_fastcdc_partial.

(** Zstd: at most one chunk is printed, the first one, then the last 32 bytes. *)
Theorem C54_documented_loop_zstd_partial : forall t p data, 0 <= t < 2 ^ 64 -> zstd_with_target_section_size t = Ok p ->
  let first := ends_at (per_stream (zstd_rule (bits_of t))) in
  forall fuel, (2 <= fuel)%nat ->
  (exists n, first [] data n /\ doc_loop (zstd_chunk p) fuel data = Ok ([firstn n data], lastn 32 data)) \/
  ((forall n, ~ first [] data n) /\ doc_loop (zstd_chunk p) fuel data = Ok ([], lastn 32 data)).
Proof.
  intros t p data Ht E first fuel Hf. destruct (zstd_new_inv t p Ht E) as [-> Hb]. exact (doc_zstd (bits_of t) ltac:(lia) data fuel Hf).
Qed.
Print Assumptions C54_documented_loop_zstd_partial.

Example C54_case :
  doc_loop (mii_chunk (mii_with_w 2)) 10 [x03; x01; x02; x03; x04; x00; x01; x02; x03; x09; x00] =
    Ok ([[x03; x01; x02; x03]; [x04; x00; x01; x02]], []) /\
  doc_loop (gzip_chunk (gzip_with_window_and_modulus 2 5)) 10 [x01; x02; x03; x04; x06; x05; x07; x09] =
    Ok ([[x01; x02; x03]; [x04; x06]; [x05]], [x07; x09]) /\
  panics (doc_loop (fastcdc_chunk (fastcdc_new GEAR_64 1 2 4)) 10 [x01; x02; x03; x04]) = true /\
  (p <- zstd_with_target_section_size (2 ^ 20) ;; doc_loop (zstd_chunk p) 10 zstd_demo) = Ok ([firstn 33 zstd_demo], skipn 4 zstd_demo).
Proof. vm_compute. auto 10. Qed.

(** ** C55: the comparison of the two APIs that tests/cuts.rs makes *)

(** [cut_test] asks for the same split lengths from [push], byte by byte, and from [find_chunk_edge], with the whole rest of
    the input.  It is false that it gets them for every chunker and input. *)
Theorem C55_cut_test_refuted :
  (exists c CI CC data, typed c /\ incr_sound c /\ incr_of c = Ok CI /\ chunk_of c = Ok CC /\ chunk_rule c <> None /\
     byte_splits CI data = Ok [4; 4; 2]%nat /\ whole_splits CC 10 data = Ok [4; 4]%nat) /\
  (exists c CI CC data, typed c /\ incr_sound c /\ incr_of c = Ok CI /\ chunk_of c = Ok CC /\
     byte_splits CI data = Ok [4]%nat /\ whole_splits CC 10 data = Ok [5]%nat).
Proof.
  split.
  - exists (CfgMii 2). eexists _, _, [x03; x01; x02; x03; x04; x00; x01; x02; x03; x09; x00].
    split; [cbn; unfold is_u64; lia|]. split; [exact I|]. split; [reflexivity|]. split; [reflexivity|]. split; [discriminate|].
    split; vm_compute; reflexivity.
  - exists (CfgFastCdc GEAR_64 1 2 4). eexists _, _, [x01; x02; x03; x04; x05; x06; x07].
    split; [apply typed_gear64; unfold is_u64; lia|]. split; [cbn; lia|]. split; [reflexivity|]. split; [reflexivity|].
    split; vm_compute; reflexivity.
Qed.
Print Assumptions C55_cut_test_refuted.

(** What the test computes: the chunk sizes of the two rules.  They are the same for Ram, Gear32, PigzRsyncable and
    GzipRsyncable on every input, and for the others when no chunk shows a difference between their rules. *)
Theorem C55_cut_test_partial : forall c CI CC rule data, typed c -> incr_sound c -> incr_of c = Ok CI -> chunk_of c = Ok CC ->
  chunk_rule c = Some rule -> stream_len (length data) ->
  exists cs1 cs2, cuts_of (incr_first c) [] data cs1 /\ cuts_of (ends_at (per_chunk rule)) [] data cs2 /\
    byte_splits CI data = Ok (sizes 0 cs1) /\
    (forall fuel, (length data < fuel)%nat -> whole_splits CC fuel data = Ok (sizes 0 cs2)) /\
    (agree_when c cs1 cs2 -> cs1 = cs2).
Proof.
  intros c CI CC rule data T S EI EC R Hl. assert (S2 : chunk_sound c) by (destruct c; cbn in *; try exact I; lia).
  destruct (rule_cuts c CC rule data T EC S2 R Hl) as [cs2 H2].
  destruct (incr_all c CI T EI S data Hl) as (cs1 & H1 & _).
  exists cs1, cs2. split; [exact H1|]. split; [exact H2|]. split; [|split].
  - apply (byte_splits_sizes CI (incr_adj c)) with (first := incr_first c) (lim := stream_len); auto using incr_all, incr_first_laws.
    intros s d s' k E. destruct (push_answer c CI s d s' k EI E) as [A1 A2]. destruct c; try (split; [exact A2|exact A1]). discriminate R.
  - exact (whole_splits_sizes CC _ _ _ (ends_at_laws _) (ends_at_progressive _) (chunk_all c CC rule true T EC S2 R) (discards_cut c CC rule EC R)
             data cs2 Hl H2).
  - exact (cuts_agree c rule data cs1 cs2 T S R H1 H2).
Qed.
Print Assumptions C55_cut_test_partial.

(** FastCdc: when the input is shorter than the maximal chunk size the test passes.  In general [push] byte by byte sees a
    chunk of [max] bytes where [find_chunk_edge] sees one of [max + 1]. *)
Theorem C55_cut_test_fastcdc_partial : forall g min normal max data, typed (CfgFastCdc g min normal max) -> normal <= max ->
  stream_len (length data) -> let p := fastcdc_new g min normal max in
  (exists cs, cuts_of (fc_byte p) [] data cs /\ byte_splits (fastcdc_incr p) data = Ok (sizes 0 cs)) /\
  (Z.of_nat (length data) < max -> exists ns enough, byte_splits (fastcdc_incr p) data = Ok ns /\
     forall fuel, (enough <= fuel)%nat -> whole_splits (fastcdc_chunk p) fuel data = Ok ns).
Proof.
  intros g min normal max data T Hn Hl p. assert (Hp := fast_ok g min normal max T Hn).
  destruct (byte_splits_fast p Hp data (stream_below _ Hl)) as (cs & Hc & E). split; [now exists cs|]. intros Hm.
  destruct (fce_outcome p Hp data (stream_below _ Hl)) as (cs' & past & W & [enough D] & _). exists (sizes 0 cs), enough. split; [exact E|].
  intros fuel Hf. rewrite (D fuel Hf). destruct past; [now elim (short_not_past p _ _ _ W)|]. cbn. do 2 f_equal.
  eapply (cuts_of_fun (fc_edge p)).
  - apply fc_edge_laws. apply Hp.
  - exact (walk_cuts p _ _ _ W).
  - apply short_byte_edge; assumption.
Qed.
Print Assumptions C55_cut_test_fastcdc_partial.

(** Zstd: [find_chunk_edge], shown everything, finds the first of the split lengths and no other, so that the test passes
    exactly when there is at most one. *)
Theorem C55_cut_test_zstd_partial : forall t p data, 0 <= t < 2 ^ 64 -> zstd_with_target_section_size t = Ok p -> stream_len (length data) ->
  exists cs, cuts_of (ends_at (per_stream (zstd_rule (bits_of t)))) [] data cs /\ byte_splits (zstd_incr p) data = Ok (sizes 0 cs) /\
    forall fuel, (2 <= fuel)%nat -> whole_splits (zstd_chunk p) fuel data = Ok (firstn 1 (sizes 0 cs)).
Proof.
  intros t p data Ht E Hl. assert (EI : incr_of (CfgZstd t) = Ok (zstd_incr p)) by (cbn; now rewrite E).
  destruct (incr_all (CfgZstd t) _ Ht EI I data Hl) as (cs & Hc & _). exists cs. split; [exact Hc|]. split.
  - apply (byte_splits_sizes (zstd_incr p) 1) with (first := incr_first (CfgZstd t)) (lim := stream_len); [|exact (incr_all (CfgZstd t) _ Ht EI I)|exact (incr_first_laws (CfgZstd t) Ht)|exact Hl|exact Hc].
    intros s d s' k F. destruct (push_answer (CfgZstd t) _ s d s' k EI F) as [A1 A2]. split; [exact A2|exact A1].
  - intros fuel Hf. destruct (zstd_new_inv t p Ht E) as [-> Hb]. cbn [incr_first] in Hc.
    destruct (whole_zstd (bits_of t) ltac:(lia) data fuel Hf) as [(n & F & ->)|(N & ->)]; destruct cs as [|q cs]; cbn [sizes firstn]; try reflexivity.
    + exfalso. inversion Hc; subst. match goal with X : forall _, ~ _ |- _ => exact (X _ F) end.
    + inversion Hc; subst. do 2 f_equal. rewrite Nat.sub_0_r. eapply (fl_fun _ (ends_at_laws _)); eassumption.
    + exfalso. inversion Hc; subst. match goal with X : ends_at _ _ _ _ |- _ => exact (N _ X) end.
Qed.
Print Assumptions C55_cut_test_zstd_partial.

Example C55_case : let data := [x01; x02; x03; x04; x06; x05; x07; x09] in
  byte_splits (gzip_incr (gzip_with_window_and_modulus 2 5)) data = Ok [3; 2; 1]%nat /\
  whole_splits (gzip_chunk (gzip_with_window_and_modulus 2 5)) 10 data = Ok [3; 2; 1]%nat /\
  (p <- zstd_with_target_section_size (2 ^ 20) ;; byte_splits (zstd_incr p) zstd_demo) = Ok [33; 3]%nat /\
  (p <- zstd_with_target_section_size (2 ^ 20) ;; whole_splits (zstd_chunk p) 10 zstd_demo) = Ok [33]%nat.
Proof. vm_compute. auto 10. Qed.

(** ** C56: the property tests/cuts_qc.rs states, for all inputs and all lists of buffer sizes *)
Theorem C56_fce_self_consistent : forall c C rule data, typed c -> chunk_of c = Ok C -> chunk_sound c ->
  chunk_rule c = Some rule -> stream_len (length data) ->
  exists cs, cuts_of (ends_at (per_chunk rule)) [] data cs /\
  forall buf_sizes, buf_sizes <> [] -> Forall (fun n => 1 <= n)%nat buf_sizes ->
  forall fuel, ((length data + 2) * (length data + 2) <= fuel)%nat -> splits_fce C fuel data buf_sizes = Ok (sizes 0 cs).
Proof.
  intros c C rule data T E S R Hl. destruct (rule_cuts c C rule data T E S R Hl) as [cs Hcs]. exists cs. split; [exact Hcs|].
  exact (splits_fce_sizes C _ _ _ (ends_at_laws _) (ends_at_progressive _) (chunk_all c C rule true T E S R) (discards_cut c C rule E R)
           data cs Hl Hcs).
Qed.
Print Assumptions C56_fce_self_consistent.

(** FastCdc: the outcome does not depend on the buffer sizes either, but it is a panic when a chunk of maximal size ends
    exactly where the data ends. *)
Theorem C56_fce_self_consistent_fastcdc : forall g min normal max data, typed (CfgFastCdc g min normal max) -> normal <= max ->
  stream_len (length data) -> let p := fastcdc_new g min normal max in
  exists result,
    ((exists cs, cuts_of (fc_edge p) [] data cs /\ result = Ok (sizes 0 cs)) \/
     (exists cs h d, cut_path (fc_edge p) [] data cs h d /\ fastcdc_first g min normal max h d (length d) /\ result = Panic)) /\
    exists enough, forall fuel, (enough <= fuel)%nat ->
    forall buf_sizes, buf_sizes <> [] -> Forall (fun n => 1 <= n)%nat buf_sizes ->
    splits_fce (fastcdc_chunk p) fuel data buf_sizes = result.
Proof.
  intros g min normal max data T Hn Hl p. assert (Hp := fast_ok g min normal max T Hn).
  destruct (fce_outcome p Hp data (stream_below _ Hl)) as (cs & past & W & _ & D & _). exists (outcome 0 cs past). split; [|exact D].
  destruct past.
  - right. destruct (walk_past_path p _ _ _ W) as (h & d & P & F). exists cs, h, d. split; [exact P|]. split; [exact F|reflexivity].
  - left. exists cs. split; [exact (walk_cuts p _ _ _ W)|reflexivity].
Qed.
Print Assumptions C56_fce_self_consistent_fastcdc.

(** Zstd: false. *)
Theorem C56_fce_self_consistent_refuted : exists t p data, zstd_with_target_section_size t = Ok p /\
  splits_fce (zstd_chunk p) 100 data [33%nat] = Ok [33; 3]%nat /\ splits_fce (zstd_chunk p) 100 data [36%nat] = Ok [33]%nat.
Proof.
  exists (2 ^ 20), {| zd_hit_mask := 2 ^ 20 - 1; zd_prime_power := zstd_prime ^ 31 mod 2 ^ 64 |}, zstd_demo.
  split; [vm_compute; reflexivity|]. split; vm_compute; reflexivity.
Qed.
Print Assumptions C56_fce_self_consistent_refuted.

(** What is left for Zstd: the loop ends without a panic, its splits are positive and inside the data, and the first one
    is the algorithm's. *)
Theorem C56_fce_zstd_partial : forall t p data buf_sizes, 0 <= t < 2 ^ 64 -> zstd_with_target_section_size t = Ok p ->
  buf_sizes <> [] -> Forall (fun n => 1 <= n)%nat buf_sizes -> let first := ends_at (per_stream (zstd_rule (bits_of t))) in
  exists enough, forall fuel, (enough <= fuel)%nat ->
  exists cs, splits_fce (zstd_chunk p) fuel data buf_sizes = Ok (sizes 0 cs) /\ strictly_above 0 cs /\ Forall (fun q => q <= length data)%nat cs /\
    match cs with q :: _ => first [] data q | [] => forall n, ~ first [] data n end.
Proof.
  intros t p data buf_sizes Ht E Hne Hpos first. destruct (zstd_new_inv t p Ht E) as [-> Hb]. exact (splits_fce_zstd (bits_of t) ltac:(lia) data buf_sizes Hne Hpos).
Qed.
Print Assumptions C56_fce_zstd_partial.

Example C56_case : let data := [x01; x02; x03; x04; x06; x05; x07; x09] in
  splits_fce (gzip_chunk (gzip_with_window_and_modulus 2 5)) 100 data [1%nat] = Ok [3; 2; 1]%nat /\
  splits_fce (gzip_chunk (gzip_with_window_and_modulus 2 5)) 100 data [4; 1; 2]%nat = Ok [3; 2; 1]%nat /\
  splits_fce (fastcdc_chunk (fastcdc_new GEAR_64 1 2 4)) 100 data [4%nat] = Ok [5]%nat /\
  splits_fce (fastcdc_chunk (fastcdc_new GEAR_64 1 2 4)) 100 data [2; 5]%nat = Ok [5]%nat /\
  panics (splits_fce (fastcdc_chunk (fastcdc_new GEAR_64 1 2 4)) 100 (firstn 4 data) [1%nat]) = true.
Proof. vm_compute. auto 10. Qed.

(** ** C57: the oracle of tests/fastcdc.rs *)
Theorem C57_fastcdc_oracle : forall data, Z.of_nat (length data) < 2 ^ 64 ->
  exists s o, incr_push (fastcdc_incr fastcdc_default) (incr_new (fastcdc_incr fastcdc_default)) data = Ok (s, o) /\
    fast_cdc_8kb GEAR_64 data = Ok (match o with Some k => k | None => 0%nat end).
Proof. exact oracle_push. Qed.
Print Assumptions C57_fastcdc_oracle.

(** After the 2 KiB without cuts two bytes whose hash decides; without the second there is no cut yet. *)
Example C57_case : let start := repeat x00 (Z.to_nat 2048) in
  (r <- fast_cdc_8kb GEAR_64 (start ++ [x2a; x40; x07]) ;; Ok (Z.of_nat r)) = Ok 2049 /\
  ('(_, o) <- incr_push (fastcdc_incr fastcdc_default) fastcdc_state_default (start ++ [x2a; x40; x07]) ;; Ok (option_map Z.of_nat o)) = Ok (Some 2049) /\
  fast_cdc_8kb GEAR_64 (start ++ [x2a]) = Ok 0%nat.
Proof. vm_compute. auto. Qed.
