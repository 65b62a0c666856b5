(** * Validation: the model run on the test vectors of the repository.

    These are tests of the model, not proofs about it: tests/cuts.rs lists the cuts that the Rust code makes on
    pseudo-random data, and the unit tests list a few intermediate values.  Each [Definition ... := Eval vm_compute in]
    runs the model when this file is built; the [Example] below it compares with the numbers in the repository.
    The runs stop after the first 12 KiB (17 KiB in one case) of the 32 KiB used there; the full ones were run once and
    agree (DESIGN.md). *)

From Verif Require Import Base Api Tables Range Mii Ram Gear Pigz Gzip FastCdc Bup BuzHash Zpaq Zstd Drivers Pcg.

(** tests/cuts.rs:5-10 [test_data], [size] given in KiB. *)
Definition test_data (seed : Z) (kib : nat) : list byte :=
  pcg_words seed 0xa02bdbf7bb3c0a7ac28fa16a64abf96 (kib * 128).

(** Both halves of tests/cuts.rs:38-92 [cut_test_sz]: the splits of [find_chunk_edge] and those of [push]. *)
Definition cut_test (I : res Incr) (C : res Chunk) (data : list byte) : res (list Z * list Z) :=
  i <- I ;;
  c <- C ;;
  a <- whole_splits c 100 data ;;
  b <- byte_splits i data ;;
  Ok (map Z.of_nat a, map Z.of_nat b).

(** tests/cuts.rs:101-112. *)
Definition mii_cuts_1 := Eval vm_compute in
  cut_test (Ok (mii_incr mii_default)) (Ok (mii_chunk mii_default)) (test_data 0 12).
Example mii_cuts_1_expected : mii_cuts_1 =
  let e := [1212; 40; 261; 1548; 1881; 312; 2043; 285; 1062; 677; 542; 1473; 303; 172; 318] in
  Ok (e, e).
Proof. reflexivity. Qed.

(** tests/cuts.rs:116-118. *)
Definition bup_cuts_1 := Eval vm_compute in
  cut_test (Ok (rollsum_incr rollsum_default)) (Ok (rollsum_chunk rollsum_default)) (test_data 0 12).
Example bup_cuts_1_expected : bup_cuts_1 = let e := [2600; 6245] in Ok (e, e).
Proof. reflexivity. Qed.

(** tests/cuts.rs:122-128. *)
Definition gzip_cuts_1 := Eval vm_compute in
  cut_test (Ok (gzip_incr gzip_default)) (Ok (gzip_chunk gzip_default)) (test_data 0 12).
Example gzip_cuts_1_expected : gzip_cuts_1 = let e := [2941; 2077; 5263] in Ok (e, e).
Proof. reflexivity. Qed.

(** tests/cuts.rs:132-139. *)
Definition gzip_cuts_2 := Eval vm_compute in
  cut_test (Ok (gzip_incr gzip_default)) (Ok (gzip_chunk gzip_default)) (test_data 2 12).
Example gzip_cuts_2_expected : gzip_cuts_2 = let e := [9277; 2758] in Ok (e, e).
Proof. reflexivity. Qed.

(** tests/cuts.rs:143-149. *)
Definition buzhash_cuts_1 := Eval vm_compute in
  cut_test (p <- buzhash_new_nom x00 ;; Ok (buz_incr p)) (p <- buzhash_new_nom x00 ;; Ok (buz_chunk p)) (test_data 0 12).
Example buzhash_cuts_1_expected : buzhash_cuts_1 = let e := [6265; 1745] in Ok (e, e).
Proof. reflexivity. Qed.

(** tests/cuts.rs:153-163. *)
Definition zpaq_cuts_0 := Eval vm_compute in
  cut_test (p <- zpaq_with_average_size_pow_2 13 ;; Ok (zpaq_incr p))
    (p <- zpaq_with_average_size_pow_2 13 ;; Ok (zpaq_chunk p)) (test_data 0 12).
Example zpaq_cuts_0_expected : zpaq_cuts_0 = let e := [10785] in Ok (e, e).
Proof. reflexivity. Qed.

(** tests/cuts.rs:167-177. *)
Definition zpaq_cuts_3 := Eval vm_compute in
  cut_test (p <- zpaq_with_average_size_pow_2 13 ;; Ok (zpaq_incr p))
    (p <- zpaq_with_average_size_pow_2 13 ;; Ok (zpaq_chunk p)) (test_data 3 17).
Example zpaq_cuts_3_expected : zpaq_cuts_3 = let e := [16353] in Ok (e, e).
Proof. reflexivity. Qed.

(** tests/cuts.rs:181-187. *)
Definition pigz_cuts_0 := Eval vm_compute in
  cut_test (p <- pigz_default ;; Ok (pigz_incr p)) (p <- pigz_default ;; Ok (pigz_chunk p)) (test_data 0 12).
Example pigz_cuts_0_expected : pigz_cuts_0 = let e := [9069; 1191] in Ok (e, e).
Proof. reflexivity. Qed.

(** tests/cuts.rs:234-236. *)
Definition gear32_cuts_0 := Eval vm_compute in
  cut_test (p <- gear_default ;; Ok (gear_incr p)) (p <- gear_default ;; Ok (gear_chunk p)) (test_data 0 12).
Example gear32_cuts_0_expected : gear32_cuts_0 = let e := [11031] in Ok (e, e).
Proof. reflexivity. Qed.

(** tests/cuts.rs:240-257. *)
Definition fastcdc_cuts_0 := Eval vm_compute in
  cut_test (Ok (fastcdc_incr fastcdc_default)) (Ok (fastcdc_chunk fastcdc_default)) (test_data 0 12).
Example fastcdc_cuts_0_expected : fastcdc_cuts_0 = let e := [8463] in Ok (e, e).
Proof. reflexivity. Qed.

(** tests/cuts.rs:261-264. *)
Definition ram_cuts_0 := Eval vm_compute in
  cut_test (Ok (ram_incr (ram_with_w 8192))) (Ok (ram_chunk (ram_with_w 8192))) (test_data 0 12).
Example ram_cuts_0_expected : ram_cuts_0 = let e := [8264] in Ok (e, e).
Proof. reflexivity. Qed.

(** src/gear.rs:153-158 [mm]: the masks of one to three bits. *)
Example mm : msb_mask 1 = Ok 0x80000000 /\ msb_mask 2 = Ok 0xc0000000 /\ msb_mask 3 = Ok 0xe0000000.
Proof. repeat split; vm_compute; reflexivity. Qed.

(** src/zstd.rs:77-81 [test_zstd_init_matches_upstream]. *)
Example zstd_init : zstd_default = Ok {| zd_hit_mask := 0x7fffff; zd_prime_power := 0xf5507fe35f91f8cb |}.
Proof. vm_compute; reflexivity. Qed.

(** src/bup.rs:244-248 [rs]. *)
Example rs : (s <- roll_byte (rollsum_incr_new rollsum_default) x03 ;; Ok (rollsum_incr_digest s)) = Ok 130279491.
Proof. vm_compute; reflexivity. Qed.
