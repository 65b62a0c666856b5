(** * PropsDefaults: C58 and C59, the default configurations and the hand-written equalities. *)

From Verif Require Import Base Api Tables Range Spec Lists Contract Mii MiiProofs Gear GearProofs Pigz PigzProofs Gzip GzipProofs FastCdc FastCdcProofs.
From Verif Require Import Bup BupProofs BuzHash BuzProofs Zpaq ZpaqProofs ZpaqCtor Zstd ZstdProofs Builtin BuiltinProofs Cases.
From Verif Require Import PropsMiiRam PropsGearPigz PropsGzip PropsFastCdc PropsBup PropsBuz PropsZpaq PropsZstd.

(** ** C58: what the defaults cut, with the parameters written out *)

(** src/mii.rs: a chunk ends where the sixth byte of an increasing run arrives. *)
Theorem C58_mii_default : forall shrink,
  incr_conforms 0 (mii_incr mii_default) (ends_at (mii_incr_rule 5)) any_length /\
  chunk_conforms shrink (mii_chunk mii_default) (ends_at (per_chunk (mii_rule 5))) any_length 0.
Proof. intros shrink. exact (conj (proj1 (C09_mii_push 5)) (C08_mii_edges 5 shrink)). Qed.
Print Assumptions C58_mii_default.

(** src/gear.rs:144: the 13 top bits of the fingerprint are clear. *)
Theorem C58_gear_default : forall shrink, exists p, gear_default = Ok p /\
  incr_conforms 1 (gear_incr p) (ends_at (per_chunk (gear_rule 13))) any_length /\
  chunk_conforms shrink (gear_chunk p) (ends_at (per_chunk (gear_rule 13))) any_length 0.
Proof.
  intros shrink. destruct gear_default as [p| |] eqn:E; try discriminate E. exists p. split; [reflexivity|].
  exact (conj (proj1 (C16_gear_push 13 p E)) (C15_gear_edges 13 p shrink E)).
Qed.
Print Assumptions C58_gear_default.

(** src/pigz.rs:23. *)
Theorem C58_pigz_default : forall shrink, exists p, pigz_default = Ok p /\
  incr_conforms 0 (pigz_incr p) (ends_at (per_chunk (pigz_rule 12))) any_length /\
  chunk_conforms shrink (pigz_chunk p) (ends_at (per_chunk (pigz_rule 12))) any_length 0.
Proof.
  intros shrink. destruct pigz_default as [p| |] eqn:E; try discriminate E. exists p. split; [reflexivity|].
  exact (conj (proj1 (C19_pigz_push 12 p E)) (C18_pigz_edges 12 p shrink E)).
Qed.
Print Assumptions C58_pigz_default.

(** src/gzip.rs:73. *)
Theorem C58_gzip_default : forall shrink,
  incr_conforms 0 (gzip_incr gzip_default) (ends_at (per_chunk (gzip_rule (Z.to_nat 8192) 4096))) any_length /\
  chunk_conforms shrink (gzip_chunk gzip_default) (ends_at (per_chunk (gzip_rule (Z.to_nat 8192) 4096))) any_length (Z.to_nat 8192).
Proof.
  intros shrink. split; [apply C22_gzip_push; lia|apply C21_gzip_edges; lia].
Qed.
Print Assumptions C58_gzip_default.

(** src/fastcdc.rs:45: 2, 8 and 64 KiB; [push], and the sizes of the chunks of both APIs. *)
Theorem C58_fastcdc_default :
  incr_conforms 0 (fastcdc_incr fastcdc_default) (fastcdc_first GEAR_64 2048 8192 65536) below_2_64 /\
  (forall data sched, below_2_64 (length data) -> exists r, run_incr 0 (fastcdc_incr fastcdc_default) data sched = Ok r /\
     Forall (fun n => 2048 <= Z.of_nat n <= 65536) (sizes 0 (r_cuts r))) /\
  (forall sh data sched r, below_2_64 (length data) -> run_chunk sh (fastcdc_chunk fastcdc_default) data sched = Ok r ->
     Forall (fun n => 2049 <= Z.of_nat n <= 65537) (sizes 0 (r_cuts r))).
Proof.
  assert (L : length GEAR_64 = 256%nat) by reflexivity.
  split; [apply (C24_fastcdc_push GEAR_64 2048 8192 65536); [exact L|lia..]|]. split.
  - intros data sched Hl. apply (C26_fastcdc_push_sizes_partial GEAR_64 2048 8192 65536); [exact L|lia|lia|exact Hl].
  - intros sh data sched r Hl E.
    exact (C26_fastcdc_edge_sizes_partial GEAR_64 2048 8192 65536 sh data sched r L ltac:(lia) ltac:(lia) Hl E).
Qed.
Print Assumptions C58_fastcdc_default.

(** src/bup.rs: a window of 64 bytes. *)
Theorem C58_rollsum_default : forall shrink,
  incr_conforms 0 (rollsum_incr rollsum_default) (ends_at (per_stream (bup_rule 64))) any_length /\
  chunk_conforms shrink (rollsum_chunk rollsum_default) (ends_at (per_chunk (bup_rule 64))) any_length 64.
Proof. intros shrink. exact (conj (proj1 (C31_rollsum_push 6)) (C30_rollsum_edges 64 shrink)). Qed.
Print Assumptions C58_rollsum_default.

(** src/buzhash.rs:111 [new_nom]: a window of 67 bytes, 12 bits, chunks up to 16 MiB and one byte. *)
Theorem C58_buzhash_new_nom : forall salt shrink, exists p, buzhash_new_nom salt = Ok p /\
  let hv := fun b => nth (Z.to_nat (Z.lxor (b2z b) (b2z salt))) GO_BUZHASH 0 in
  incr_conforms 0 (buz_incr p) (ends_at (per_chunk (buz_incr_rule hv 67 4095 16777216))) below_2_64 /\
  chunk_conforms shrink (buz_chunk p) (ends_at (per_chunk (buz_rule hv 67 4095))) any_length 67.
Proof.
  intros salt shrink. destruct (buzhash_new_nom salt) as [p| |] eqn:E; try discriminate E. exists p. split; [reflexivity|]. intros hv.
  destruct (C38_byte_hashes salt 0 ltac:(lia)) as (_ & H & _).
  exact (conj (proj1 (C34_buz_push 67 4095 _ 16777216 p hv E H)) (C33_buz_edges 67 4095 _ 16777216 p hv shrink E H)).
Qed.
Print Assumptions C58_buzhash_new_nom.

(** src/zpaq.rs:166. *)
Theorem C58_zpaq_default : forall shrink, exists p, zpaq_default = Ok p /\
  incr_conforms 0 (zpaq_incr p) (ends_at (per_chunk (zpaq_rule (Included 4096, Excluded 532676608) 65536 0))) below_2_64 /\
  chunk_conforms shrink (zpaq_chunk p) (ends_at (per_chunk (zpaq_rule (Included 4096, Excluded 532676608) 65536 1)))
    (fun n => Z.of_nat n + 1 < 2 ^ 64) 0.
Proof.
  intros shrink. eexists. split; [exact zpaq_default_value|].
  assert (E : zpaq_with_average_and_range 16 (Included 4096, Excluded 532676608) =
    Ok {| zq_range := (Included 4096, Excluded 532676608); zq_max_hash := 65536 |}) by (vm_compute; reflexivity).
  exact (conj (proj1 (C39_zpaq_push _ _ _ E)) (C40_zpaq_edges _ _ _ shrink E)).
Qed.
Print Assumptions C58_zpaq_default.

(** src/zstd.rs:40, with the values the comment there quotes from zstd's own debug output. *)
Theorem C58_zstd_default : exists p, zstd_default = Ok p /\ zd_hit_mask p = 0x7fffff /\ zd_prime_power p = 0xf5507fe35f91f8cb /\
  incr_conforms 1 (zstd_incr p) (ends_at (per_stream (zstd_rule 23))) any_length.
Proof.
  destruct zstd_default as [p| |] eqn:E; try (vm_compute in E; discriminate E). exists p. split; [reflexivity|].
  assert (V := E). vm_compute in V. injection V as V. rewrite <- V at 1 2. split; [reflexivity|]. split; [reflexivity|].
  exact (proj1 (C47_zstd_push 8388608 p ltac:(lia) E)).
Qed.
Print Assumptions C58_zstd_default.

(** The parameters really are used: another value of each changes a cut or a panic. *)
Example C58_case :
  cuts_seen (run_chunk false (mii_chunk mii_default) [x00; x01; x02; x03; x04; x05; x06] (drain (repeat x00 7))) = Some [6]%nat /\
  cuts_seen (run_chunk false (mii_chunk (mii_with_w 6)) [x00; x01; x02; x03; x04; x05; x06] (drain (repeat x00 7))) = Some [7]%nat.
Proof. split; vm_compute; reflexivity. Qed.

(** ** C59: the two hand-written [PartialEq] are equality *)
Lemma list_Z_eqb_spec : forall a b, list_Z_eqb a b = true <-> a = b.
Proof.
  induction a as [|x a IH]; intros [|y b]; cbn; split; try discriminate; try reflexivity; intros H.
  - apply andb_true_iff in H as [H1 H2]. apply Z.eqb_eq in H1. apply IH in H2. now subst.
  - injection H as -> ->. rewrite Z.eqb_refl. now apply IH.
Qed.
Lemma byte_eqb_eq : forall a b, byte_eqb a b = true <-> a = b.
Proof. intros a b. destruct (byte_eqb_spec a b); split; congruence. Qed.
Lemma list_byte_eqb_spec : forall a b, list_byte_eqb a b = true <-> a = b.
Proof.
  induction a as [|x a IH]; intros [|y b]; cbn; split; try discriminate; try reflexivity; intros H.
  - apply andb_true_iff in H as [H1 H2]. apply byte_eqb_eq in H1. apply IH in H2. now subst.
  - injection H as -> ->. apply andb_true_iff. split; [now apply byte_eqb_eq|now apply IH].
Qed.

Theorem C59_fastcdc_eq : forall a b, fastcdc_eqb a b = true <-> a = b.
Proof.
  intros [m1 x1 n1 g1] [m2 x2 n2 g2]. unfold fastcdc_eqb. cbn. rewrite !andb_true_iff, !Z.eqb_eq, list_Z_eqb_spec. split.
  - now intros (((-> & ->) & ->) & ->).
  - now intros [= -> -> -> ->].
Qed.
Print Assumptions C59_fastcdc_eq.

Theorem C59_zpaq_hash_eq : forall a b, zpaq_hash_eqb a b = true <-> a = b.
Proof.
  intros [h1 l1 t1] [h2 l2 t2]. unfold zpaq_hash_eqb. cbn. rewrite !andb_true_iff, Z.eqb_eq, byte_eqb_eq, list_byte_eqb_spec. split.
  - now intros ((-> & ->) & ->).
  - now intros [= -> -> ->].
Qed.
Print Assumptions C59_zpaq_hash_eq.

Example C59_case : fastcdc_eqb fastcdc_default (fastcdc_new GEAR_64 2048 8192 65536) = true /\
  fastcdc_eqb fastcdc_default (fastcdc_new GEAR_64 2048 8192 65537) = false /\
  match zpaq_hash_feeds zpaq_hash_default [x01; x02] with
  | Ok s => zpaq_hash_eqb s zpaq_hash_default = false /\ zpaq_hash_eqb s s = true
  | _ => False
  end.
Proof. repeat split; vm_compute; reflexivity. Qed.
