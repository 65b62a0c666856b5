(** * PropsStream: C69, pushing in parts and slicing buffer by buffer. *)

From Verif Require Import Base Api Tables Range Spec Lists Contract IterProofs.
From Verif Require Import Words Mii Ram Gear Pigz Gzip FastCdc FastCdcProofs FastCdcTotal Bup BuzHash Zpaq Zstd FastCdcExact.
From Verif Require Import Builtin BuiltinProofs IterOps IterAll Cases PropsIter PushApp.

(** From every state the chunker can be in, pushing [a ++ b] has the same outcome (answer, state, panic) as pushing [a] and, if that gave no cut,
    [b].  For FastCdc with the sizes in order, or where the order never matters ([fc_orderly], PushApp.v). *)
Theorem C69_push_split : forall c C, typed c -> incr_of c = Ok C -> slicing_safe c -> forall s n a b, fed C s n -> stream_len (n + length a + length b) ->
  incr_push C s (a ++ b) =
  ('(s1, o) <- incr_push C s a ;;
   match o with
   | Some k => Ok (s1, Some k)
   | None => '(s2, o2) <- incr_push C s1 b ;; Ok (s2, match o2 with Some k => Some (length a + k)%nat | None => None end)
   end).
Proof. exact push_twice_all. Qed.
Print Assumptions C69_push_split.

(** Hence a call is a loop over single bytes. *)
Fixpoint push_each (C : Incr) (s : incr_state C) (i : nat) (data : list byte) : res (incr_state C * option nat) :=
  match data with
  | [] => Ok (s, None)
  | b :: rest =>
      '(s1, o) <- incr_push C s [b] ;;
      match o with
      | Some k => Ok (s1, Some (i + k)%nat)
      | None => push_each C s1 (S i) rest
      end
  end.

Lemma push_each_shift : forall C data s i, push_each C s (S i) data =
  ('(s1, o) <- push_each C s i data ;; Ok (s1, match o with Some k => Some (1 + k)%nat | None => None end)).
Proof.
  intros C. induction data as [|b d IH]; intros s i; cbn [push_each bind]; [reflexivity|].
  destruct (incr_push C s [b]) as [[s1 [k|]]| |]; cbn [bind]; try reflexivity. apply IH.
Qed.

Theorem C69_push_bytes : forall c C, typed c -> incr_of c = Ok C -> slicing_safe c -> forall d b s n, fed C s n -> stream_len (n + S (length d)) ->
  incr_push C s (b :: d) = push_each C s 0 (b :: d).
Proof.
  intros c C T E S. induction d as [|b' d IH]; intros b s n F Hl.
  - cbn [push_each]. destruct (incr_push C s [b]) as [[s1 [k|]]| |]; reflexivity.
  - change (b :: b' :: d) with ([b] ++ b' :: d). rewrite (C69_push_split c C T E S s n) by (try exact F; revert Hl; cbn [length]; now replace (n + 1 + Datatypes.S (length d))%nat with (n + Datatypes.S (Datatypes.S (length d)))%nat by lia).
    change ([b] ++ b' :: d) with (b :: b' :: d). change (push_each C s 0 (b :: b' :: d)) with
      ('(s1, o) <- incr_push C s [b] ;; match o with Some k => Ok (s1, Some (0 + k)%nat) | None => push_each C s1 1 (b' :: d) end).
    destruct (incr_push C s [b]) as [[s1 [k|]]| |] eqn:E1; cbn [bind]; try reflexivity.
    rewrite push_each_shift. rewrite <- (IH b' s1 (n + 1)%nat); [reflexivity|exact (fed_push C s n [b] s1 None F E1)|]. cbn [length] in Hl. now replace (n + 1 + Datatypes.S (length d))%nat with (n + Datatypes.S (Datatypes.S (length d)))%nat by lia.
Qed.
Print Assumptions C69_push_bytes.

(** Otherwise not: with [max < normal] FastCdc ends a chunk wherever a call happens to end. *)
Theorem C69_fastcdc_refuted : exists g min normal max a b s1, typed (CfgFastCdc g min normal max) /\
  let C := fastcdc_incr (fastcdc_new g min normal max) in
  incr_push C (incr_new C) a = Ok (s1, Some 2%nat) /\ incr_push C (incr_new C) (a ++ b) = Ok (s1, Some 3%nat).
Proof.
  exists GEAR_64, 1, 4, 2, [x00; x00], [x00], fastcdc_state_default. split; [apply typed_gear64; unfold is_u64; lia|]. split; vm_compute; reflexivity.
Qed.
Print Assumptions C69_fastcdc_refuted.

(** Exactly these: FastCdc's [push] can be split up (already from the start) iff the sizes are in order or their order never matters. *)
Theorem C69_fastcdc_iff : forall g min normal max, typed (CfgFastCdc g min normal max) ->
  let C := fastcdc_incr (fastcdc_new g min normal max) in
  ((forall a b, Z.of_nat (length (a ++ b)) < 2 ^ 64 -> incr_push C (incr_new C) (a ++ b) = push_twice C (incr_new C) a b) <->
   (normal <= max \/ normal <= min + 1 \/ forall u, Z.of_nat (length u) = Z.max (min + 1) max + 1 - min -> ~ misses g u)).
Proof.
  intros g min normal max T C. assert (T' := T). destruct T' as (Hg & _ & Hmin & Hn & Hmax). unfold is_u64 in Hmin, Hn, Hmax. split.
  - intros H. destruct (Z.le_gt_cases normal max) as [|X1]; [auto|]. destruct (Z.le_gt_cases normal (min + 1)) as [|X2]; [auto|]. right. right. intros u Hu Mu.
    set (p := fastcdc_new g min normal max) in *. set (L1 := Z.max (min + 1) max) in *.
    assert (HL : min < L1 < normal /\ max <= L1) by (unfold L1; lia).
    set (data := repeat x00 (Z.to_nat min) ++ u).
    assert (Ld : Z.of_nat (length data) = L1 + 1) by (unfold data; rewrite app_length, repeat_length; lia).
    assert (Hit : forall j e, (Z.to_nat min <= j < e)%nat -> (e <= length data)%nat -> ~ fc_hit p (firstn e data) j).
    { intros j e Hj He F. assert (N : ~ fc_hit p data j).
      { apply (proj2 (fc_hit_misses p data (Z.to_nat L1) ltac:(cbn [p fastcdc_new fc_min_size]; lia) ltac:(cbn [p fastcdc_new fc_min_size]; lia) ltac:(cbn [p fastcdc_new fc_normal_size]; lia))); [|cbn [p fastcdc_new fc_min_size]; lia].
        cbn [p fastcdc_new fc_min_size fc_gear]. rewrite (firstn_all2 (n := S (Z.to_nat L1))) by lia. unfold data. rewrite skipn_app_ge by (rewrite repeat_length; lia).
        rewrite repeat_length, Nat.sub_diag. exact Mu. }
      apply N. rewrite <- (firstn_skipn e data). unfold fc_hit in *. rewrite fc_fingerprint_app; [exact F|]. rewrite firstn_length. lia. }
    assert (Call : forall e, L1 <= Z.of_nat e -> (e <= length data)%nat -> fastcdc_state_push p fastcdc_state_default (firstn e data) = Ok (fastcdc_state_default, Some e)).
    { intros e He1 He2. assert (Le : length (firstn e data) = e) by (rewrite firstn_length; lia).
      destruct (fc_call p fastcdc_state_default [] (firstn e data) Hg ltac:(cbn [p fastcdc_new fc_min_size]; lia) (fc_default_rel p) ltac:(unfold below_2_64; cbn [app]; rewrite Le; lia)) as [(G & _)|(G & K)];
        cbn [p fastcdc_new fc_min_size fc_max_size fc_normal_size app] in *; rewrite ?Le in *; [lia|]. cbv zeta in K. cbn [length Nat.add] in K. rewrite Nat.max_0_r in K.
      destruct K as [(k & K1 & K2 & _)|[(k & K1 & K2 & K3 & K4 & E)|(s' & K1 & _)]]; [elim (Hit k e ltac:(lia) He2 K2)| |lia].
      assert (k = e) by lia. subst k. exact E. }
    assert (Hs : length (firstn (Z.to_nat L1) data ++ skipn (Z.to_nat L1) data) = length data) by now rewrite firstn_skipn.
    specialize (H (firstn (Z.to_nat L1) data) (skipn (Z.to_nat L1) data)). rewrite Hs in H. rewrite firstn_skipn in H.
    assert (A1 := Call (length data) ltac:(lia) ltac:(lia)). rewrite firstn_all in A1. assert (A2 := Call (Z.to_nat L1) ltac:(lia) ltac:(lia)).
    unfold push_twice in H. cbn [C fastcdc_incr incr_push incr_new incr_state] in H. fold p in H. rewrite A1, A2 in H. cbn [bind] in H.
    specialize (H ltac:(lia)). injection H as H. lia.
  - intros O a b Hl. destruct (fc_splits (fastcdc_new g min normal max) Hg ltac:(cbn [fastcdc_new fc_min_size]; lia) O) as (F & L & S). apply (sp_split _ _ S). exists []. split; [apply fc_default_rel|]. split; [apply (fl_nil _ L)|exact Hl].
Qed.
Print Assumptions C69_fastcdc_iff.

(** [iter_slices_strict] on one buffer after the other: the chunker is handed on ([into_parts]), what was left over is put in front of the next
    slice.  The result is that of one iteration over all the data, and the one ends exactly if the other does. *)
Theorem C69_stream : forall c C, typed c -> incr_of c = Ok C -> slicing_safe c -> forall b bufs out fin, stream_len (length (concat (b :: bufs))) ->
  ((exists fuel, slice_stream C fuel (incr_new C) [] (b :: bufs) = Ok (out, fin)) <->
   (exists fuel it, collect iter_slices_strict_next fuel (iter_slices_strict C (incr_new C) (concat (b :: bufs))) = Ok (out, it) /\ into_parts it = fin)).
Proof.
  intros c C T E S b bufs out fin Hl. destruct (ready_all c C T E S) as (ok & Sp & N). apply (stream_iff C ok Sp). exact (N _ Hl).
Qed.
Print Assumptions C69_stream.

(** So, where the slices follow a rule, the buffers do not matter. *)
Theorem C69_stream_chunks : forall c C, typed c -> incr_of c = Ok C -> iter_sound c -> forall b bufs, let data := concat (b :: bufs) in stream_len (length data) ->
  exists fuel cs s, cuts_of (iter_first c) [] data cs /\ slice_stream C fuel (incr_new C) [] (b :: bufs) = Ok (cut_slices 0 cs data, (s, cut_rest 0 cs data)).
Proof.
  intros c C T E I b bufs data Hl. destruct (C03_strict_complete_chunks c C T E I data Hl) as (cs & it & X1 & X2 & X3).
  assert (Sf : slicing_safe c). { destruct c; try exact Logic.I. left. cbn in I |- *. lia. }
  destruct (proj2 (C69_stream c C T E Sf b bufs (cut_slices 0 cs data) (into_parts it) Hl)) as [fuel X4]; [eauto|].
  exists fuel, cs, (it_chunker it). split; [exact X1|]. rewrite X4, <- X3. reflexivity.
Qed.
Print Assumptions C69_stream_chunks.

(** Four buffers, a chunk that begins in the first and ends in the third. *)
Example C69_case : let C := mii_incr 2 in
  match slice_stream C 9 (incr_new C) [] [[x05; x06; x07; x03]; []; [x04]; [x05; x01; x02]] with Ok (out, (_, rest)) => Some (out, rest) | _ => None end =
    Some ([[x05; x06; x07]; [x03; x04]], [x05; x01; x02]) /\
  slices_seen (collect iter_slices_strict_next 9 (iter_slices_strict C (incr_new C) [x05; x06; x07; x03; x04; x05; x01; x02])) = Some [[x05; x06; x07]; [x03; x04]].
Proof. split; vm_compute; reflexivity. Qed.
