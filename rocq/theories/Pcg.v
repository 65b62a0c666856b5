(** * Pcg: [rand_pcg::Pcg64] (PCG XSL RR 128/64), the generator of tests/cuts.rs:5-10 and examples/generate-test-data.rs.

    The crate depends on it for its tests only and its source is not in the repository; this is the published algorithm.  That
    the listed cuts come out (Validation.v, C79) is evidence that it is the generator the tests were written with. *)

From Verif Require Import Base.

Definition low (n x : Z) : Z := Z.land x (Z.ones n).
Definition pcg_multiplier : Z := 0x2360ED051FC65DA44385DF649FCCF645.
Definition pcg_increment (stream : Z) : Z := low 128 (Z.lor (Z.shiftl stream 1) 1).
Definition pcg_step (inc s : Z) : Z := low 128 (s * pcg_multiplier + inc).
Definition pcg_output (s : Z) : Z :=
  let rot := Z.shiftr s 122 in
  let x := Z.lxor (Z.shiftr s 64) (low 64 s) in
  Z.lor (Z.shiftr x rot) (low 64 (Z.shiftl x (64 - rot))).
Definition byte_of_Z (z : Z) : byte :=
  match Byte.of_N (Z.to_N (low 8 z)) with Some b => b | None => x00 end.
Fixpoint le_bytes (n : nat) (x : Z) : list byte :=
  match n with O => [] | S n' => byte_of_Z x :: le_bytes n' (Z.shiftr x 8) end.
Fixpoint pcg_bytes (words : nat) (inc s : Z) : list byte :=
  match words with
  | O => []
  | S words' => let s' := pcg_step inc s in le_bytes 8 (pcg_output s') ++ pcg_bytes words' inc s'
  end.
(** [Pcg64::new(state, stream)], then [fill_bytes] on [words] times eight bytes. *)
Definition pcg_words (state stream : Z) (words : nat) : list byte :=
  let inc := pcg_increment stream in pcg_bytes words inc (pcg_step inc (low 128 (state + inc))).
(** [fill_bytes] on [n] bytes: the last word may be used in part. *)
Definition pcg_fill (state stream : Z) (n : nat) : list byte := firstn n (pcg_words state stream (S (Nat.div n 8))).

Lemma pcg_bytes_length words : forall inc s, length (pcg_bytes words inc s) = (8 * words)%nat.
Proof. induction words as [|w IH]; intros inc s; [reflexivity|]. cbn [pcg_bytes]. cbv zeta. rewrite app_length, IH. cbn [le_bytes length]. lia. Qed.
Lemma pcg_fill_length state stream n : length (pcg_fill state stream n) = n.
Proof.
  unfold pcg_fill, pcg_words. rewrite firstn_length, pcg_bytes_length. pose proof (Nat.mod_upper_bound n 8 ltac:(lia)). pose proof (Nat.div_mod n 8 ltac:(lia)). lia.
Qed.
Lemma pcg_bytes_firstn words : forall more inc s, firstn (8 * words) (pcg_bytes (words + more) inc s) = pcg_bytes words inc s.
Proof.
  induction words as [|w IH]; intros more inc s; [destruct more; reflexivity|]. cbn [Nat.add pcg_bytes]. cbv zeta.
  replace (8 * S w)%nat with (length (le_bytes 8 (pcg_output (pcg_step inc s))) + 8 * w)%nat by (cbn [le_bytes length]; lia).
  rewrite firstn_app_2, IH. reflexivity.
Qed.
Lemma pcg_fill_words state stream words : pcg_fill state stream (8 * words) = pcg_words state stream words.
Proof.
  unfold pcg_fill, pcg_words. replace (Nat.div (8 * words) 8) with words by (rewrite Nat.mul_comm, Nat.div_mul; lia).
  cbv zeta. replace (S words) with (words + 1)%nat by lia. apply pcg_bytes_firstn.
Qed.
