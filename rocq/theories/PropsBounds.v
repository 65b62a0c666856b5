(** * PropsBounds: C60 (which chunkers limit the size of a chunk) and C61 (appending does not move cuts). *)

From Verif Require Import Base Api Tables Range Spec Lists Contract CutFacts CutProps.
From Verif Require Import Mii Ram Gear GearProofs Pigz PigzProofs Gzip FastCdc Bup BuzHash Zpaq Zstd ZstdProofs Builtin BuiltinProofs Stable Unbounded Cases.

(** ** C60 *)

(** The size limit of [push]; [None]: there is no limit. *)
Definition push_limit (c : config) : option Z :=
  match c with
  | CfgPigz b => if b =? 0 then Some 1 else None
  | CfgGzip _ m => if m =? 1 then Some 1 else None
  | CfgFastCdc _ min _ max => Some (Z.max min max)
  | CfgBuzHash _ _ _ max => Some (max + 1)
  | CfgZpaq _ r => match end_bound r with Included x => Some (x + 1) | Excluded x => Some (Z.max 1 x) | Unbounded => None end
  | _ => None
  end.

Lemma gzip_rule_one : forall w c, gzip_rule w 1 c.
Proof. intros w c. unfold gzip_rule. apply Z.mod_1_r. Qed.
Lemma pigz_rule_zero : forall c, pigz_rule 0 c.
Proof. intros c. unfold pigz_rule. change (2 ^ 0) with 1. rewrite Z.mod_1_r. reflexivity. Qed.

Lemma push_limit_capped : forall c B, typed c -> push_limit c = Some B -> capped (incr_first c) B.
Proof.
  intros [w|w|n|b|w m|g mn nm mx|w|k mask h mx|f r|t] B T E; cbn [typed push_limit incr_first] in E, T |- *; try discriminate.
  - destruct (Z.eqb_spec b 0) as [->|]; [|discriminate]. injection E as <-. apply ends_at_capped; [lia| |lia]. intros. apply pigz_rule_zero.
  - destruct (Z.eqb_spec m 1) as [->|]; [|discriminate]. injection E as <-. apply ends_at_capped; [lia| |lia]. intros. apply gzip_rule_one.
  - injection E as <-. apply fastcdc_capped. unfold is_u64 in T. lia.
  - injection E as <-. destruct T as (_ & Hm & _). unfold is_u64 in Hm. apply ends_at_capped; [lia| |lia]. intros h0 c H _. right. unfold per_chunk. lia.
  - destruct T as (_ & _ & He). unfold bound_u64, is_u64 in He. destruct (end_bound r) as [x|x|] eqn:Er; [| |discriminate]; injection E as <-;
      (apply ends_at_capped; [lia| |lia]); intros h0 c H Hc; right; unfold above_range; rewrite Er; lia.
Qed.

(** No panic, no cut. *)
Lemma no_cuts_incr : forall adj C first lim data, incr_conforms adj C first lim -> first_laws first -> lim (length data) ->
  cuts_of first [] data [] -> forall sched, exists r, run_incr adj C data sched = Ok r /\ r_cuts r = [].
Proof.
  intros adj C first lim data H L Hl H0 sched. destruct (H data Hl) as (cs & Hcs & R).
  assert (cs = []) as -> by exact (cuts_of_fun first L _ _ _ Hcs _ H0).
  destruct (R sched) as [(r & later & E & _ & Q & _) _]. exists r. split; [exact E|]. symmetry in Q. now apply app_eq_nil in Q.
Qed.
Lemma no_cuts_chunk : forall sh C first lim keep data, chunk_conforms sh C first lim keep -> first_laws first -> lim (length data) ->
  cuts_of first [] data [] -> forall sched, exists r, run_chunk sh C data sched = Ok r /\ r_cuts r = [].
Proof.
  intros sh C first lim keep data H L Hl H0 sched. destruct (H data Hl) as (cs & Hcs & R).
  assert (cs = []) as -> by exact (cuts_of_fun first L _ _ _ Hcs _ H0).
  destruct (R sched) as [(r & E & _ & [x Q] & _) _]. exists r. split; [exact E|]. symmetry in Q. now apply app_eq_nil in Q.
Qed.

Lemma push_no_limit : forall c C, typed c -> incr_of c = Ok C -> incr_sound c -> push_limit c = None ->
  forall n, exists data, length data = n /\ cuts_of (incr_first c) [] data [].
Proof.
  intros [w|w|n|b|w m|g mn nm mx|w|k mask h mx|f r|t] C T E S P n0; cbn [typed incr_of incr_sound push_limit incr_first] in E, T, S, P |- *; try discriminate.
  - exists (repeat x00 n0). split; [apply repeat_length|]. constructor. intros n (Hn & R & _). exact (mii_uncut w n0 n Hn R).
  - exists (firstn n0 (xff :: repeat x00 n0)). split.
    + rewrite firstn_length. cbn. rewrite repeat_length. lia.
    + apply uncut_none, ram_uncut. unfold is_u64 in T. lia.
  - destruct (gear_with_average_size_log2 n) as [p| |] eqn:Ep; cbn [bind] in E; try discriminate. apply gear_ctor_inv in Ep. destruct Ep as [Hn _].
    destruct (uncut_greedy _ (gear_greedy n ltac:(lia)) n0) as (d & Ld & U). exists d. split; [exact Ld|now apply uncut_none].
  - destruct (Z.eqb_spec b 0); [discriminate|]. destruct (uncut_greedy _ (pigz_greedy b ltac:(lia)) n0) as (d & Ld & U). exists d. split; [exact Ld|now apply uncut_none].
  - destruct (Z.eqb_spec m 1); [discriminate|]. destruct (uncut_greedy _ (gzip_greedy w m ltac:(lia) ltac:(lia)) n0) as (d & Ld & U). exists d. split; [exact Ld|now apply uncut_none].
  - exists (repeat x00 n0). split; [apply repeat_length|]. apply uncut_none_stream, bup_incr_uncut.
  - destruct (zpaq_with_average_and_range f r) as [p| |] eqn:Ep; cbn [bind] in E; try discriminate. apply zpaq_ctor_inv in Ep. destruct Ep as [Hf _].
    destruct (end_bound r) eqn:Er; try discriminate.
    destruct (uncut_greedy _ (zpaq_greedy f r 0 ltac:(lia) Er) n0) as (d & Ld & U). exists d. split; [exact Ld|now apply uncut_none].
  - destruct (zstd_with_target_section_size t) as [p| |] eqn:Ep; cbn [bind] in E; try discriminate.
    exists (repeat x00 n0). split; [apply repeat_length|]. apply uncut_none_stream, zstd_uncut. 
    assert (0 <= Z.log2 (t / 2 ^ 20)) by apply Z.log2_nonneg. unfold bits_of. lia.
Qed.

(** [push]: either all chunks, the undecided tail included, are within the limit, or there are inputs of every length
    without a cut. *)
Theorem C60_push_limit : forall c C, typed c -> incr_of c = Ok C -> incr_sound c ->
  match push_limit c with
  | Some B => forall data sched r, stream_len (length data) -> run_incr (incr_adj c) C data (sched ++ drain data) = Ok r ->
      Forall (fun n => Z.of_nat n <= B) (sizes 0 (r_cuts r ++ [length data]))
  | None => forall n, stream_len n -> exists data, length data = n /\
      forall sched, exists r, run_incr (incr_adj c) C data sched = Ok r /\ r_cuts r = []
  end.
Proof.
  intros c C T E S. assert (A := incr_all c C T E S). assert (L := incr_first_laws c T). destruct (push_limit c) as [B|] eqn:P.
  - intros data sched r Hl R. exact (capped_sizes _ B (push_limit_capped c B T P) L [] data _ (incr_final _ _ _ _ A _ _ _ Hl R)).
  - intros n Hn. destruct (push_no_limit c C T E S P n) as (data & Ld & H). exists data. split; [exact Ld|].
    apply (no_cuts_incr _ _ _ _ _ A L ltac:(now rewrite Ld) H).
Qed.
Print Assumptions C60_push_limit.

(** [find_chunk_edge], where it follows a rule (not FastCdc, see C26, nor Zstd); BuzHash has no limit as soon as its hash
    tells two bytes apart in a bit of the mask. *)
Definition edge_limit (c : config) : option Z :=
  match c with
  | CfgPigz b => if b =? 0 then Some 1 else None
  | CfgGzip w m => if (m =? 1) || Nat.eqb w 0 then Some 1 else None
  | CfgZpaq _ r => match end_bound r with Included x => Some (Z.max 1 x) | Excluded x => Some (Z.max 1 (x - 1)) | Unbounded => None end
  | _ => None
  end.
Definition edge_case (c : config) : Prop :=
  match c with
  | CfgBuzHash _ mask h _ => exists b1 b2 v1 v2 i, h b1 = Ok v1 /\ h b2 = Ok v2 /\ 0 <= i /\ Z.testbit mask i = true /\ Z.testbit v1 i <> Z.testbit v2 i
  | _ => True
  end.

Lemma gzip_rule_no_window : forall m c, 0 < m -> gzip_rule 0 m c.
Proof. intros m c Hm. unfold gzip_rule, lastn. rewrite Nat.sub_0_r, skipn_all. cbn [byte_sum]. rewrite !Z.mod_0_l by lia. reflexivity. Qed.

Lemma edge_limit_capped : forall c rule B, typed c -> chunk_sound c -> chunk_rule c = Some rule -> edge_limit c = Some B -> capped (ends_at (per_chunk rule)) B.
Proof.
  intros [w|w|n|b|w m|g mn nm mx|w|k mask h mx|f r|t] rule B T S R E; cbn [typed edge_limit chunk_sound chunk_rule] in E, T, S, R; try discriminate; injection R as <-.
  - destruct (Z.eqb_spec b 0) as [->|]; [|discriminate]. injection E as <-. apply ends_at_capped; [lia| |lia]. intros. apply pigz_rule_zero.
  - destruct (Z.eqb_spec m 1) as [->|]; [|destruct (Nat.eqb_spec w 0) as [->|]; [|discriminate]]; injection E as <-;
      (apply ends_at_capped; [lia| |lia]); intros; [apply gzip_rule_one|now apply gzip_rule_no_window].
  - destruct T as (_ & _ & He). unfold bound_u64, is_u64 in He. destruct (end_bound r) as [x|x|] eqn:Er; [| |discriminate]; injection E as <-;
      (apply ends_at_capped; [lia| |lia]); intros h0 c H Hc; right; unfold above_range; rewrite Er; lia.
Qed.

Lemma edge_no_limit : forall c C rule, typed c -> chunk_of c = Ok C -> chunk_sound c -> chunk_rule c = Some rule -> edge_limit c = None -> edge_case c ->
  forall n, exists data, length data = n /\ cuts_of (ends_at (per_chunk rule)) [] data [].
Proof.
  intros c C rule T E S R P X n0. enough (G : exists d, length d = n0 /\ uncut rule d) by (destruct G as (d & Ld & U); exists d; split; [exact Ld|now apply uncut_none]).
  destruct c as [w|w|n|b|w m|g mn nm mx|w|k mask h mx|f r|t]; cbn [typed chunk_of chunk_sound chunk_rule edge_limit edge_case] in E, T, S, R, P, X; try discriminate; injection R as <-.
  - exists (repeat x00 n0). split; [apply repeat_length|apply mii_uncut].
  - exists (firstn n0 (xff :: repeat x00 n0)). split.
    + rewrite firstn_length. cbn. rewrite repeat_length. lia.
    + apply ram_uncut. unfold is_u64 in T. lia.
  - destruct (gear_with_average_size_log2 n) as [p| |] eqn:Ep; cbn [bind] in E; try discriminate. apply gear_ctor_inv in Ep. apply uncut_greedy, gear_greedy. lia.
  - destruct (Z.eqb_spec b 0); [discriminate|]. apply uncut_greedy, pigz_greedy. lia.
  - destruct (Z.eqb_spec m 1); [discriminate|]. destruct (Nat.eqb_spec w 0); [discriminate|]. apply uncut_greedy, gzip_greedy; lia.
  - exists (repeat x00 n0). split; [apply repeat_length|apply bup_uncut].
  - destruct (buzhash_new k mask h mx) as [p| |] eqn:Ep; cbn [bind] in E; try discriminate. apply buz_ctor_inv in Ep. destruct Ep as [Hk _].
    destruct T as (_ & _ & Hh). apply uncut_greedy, buz_greedy; [exact Hk| |].
    + intros b. destruct (Hh b) as (v & Ev & Hv). unfold value_of. rewrite Ev. exact Hv.
    + destruct X as (b1 & b2 & v1 & v2 & i & E1 & E2 & X). exists b1, b2, i. unfold value_of. rewrite E1, E2. exact X.
  - destruct (zpaq_with_average_and_range f r) as [p| |] eqn:Ep; cbn [bind] in E; try discriminate. apply zpaq_ctor_inv in Ep. destruct Ep as [Hf _].
    destruct (end_bound r) eqn:Er; try discriminate. apply uncut_greedy, zpaq_greedy; [lia|exact Er].
Qed.

Theorem C60_edge_limit : forall c C rule sh, typed c -> chunk_of c = Ok C -> chunk_sound c -> chunk_rule c = Some rule ->
  match edge_limit c with
  | Some B => forall data sched r, stream_len (length data) -> run_chunk sh C data (sched ++ drain data) = Ok r ->
      Forall (fun n => Z.of_nat n <= B) (sizes 0 (r_cuts r ++ [length data]))
  | None => edge_case c -> forall n, stream_len n -> exists data, length data = n /\
      forall sched, exists r, run_chunk sh C data sched = Ok r /\ r_cuts r = []
  end.
Proof.
  intros c C rule sh T E S R. assert (A := chunk_all c C rule sh T E S R). assert (L := ends_at_laws (per_chunk rule)). destruct (edge_limit c) as [B|] eqn:P.
  - intros data sched r Hl Q. exact (capped_sizes _ B (edge_limit_capped c rule B T S R P) L [] data _ (chunk_final _ _ _ _ _ A _ _ _ Hl Q)).
  - intros X n Hn. destruct (edge_no_limit c C rule T E S R P X n) as (data & Ld & H). exists data. split; [exact Ld|].
    apply (no_cuts_chunk _ _ _ _ _ _ A L ltac:(now rewrite Ld) H).
Qed.
Print Assumptions C60_edge_limit.

(** The default of GzipRsyncable has no limit; a range with an end has one, and it is reached. *)
Example C60_case : push_limit (CfgGzip 3 2) = None /\
  (let data := [x01; x00; x00; x01; x00; x00; x01; x00; x00] in
   cuts_seen (run_incr 0 (gzip_incr (gzip_with_window_and_modulus 3 2)) data (drain data)) = Some []) /\
  push_limit (CfgZpaq 32 (Included 1, Included 4)) = Some 5 /\ edge_limit (CfgZpaq 32 (Included 1, Included 4)) = Some 4 /\
  match zpaq_with_average_and_range 32 (Included 1, Included 4) with
  | Ok p => cuts_seen (run_incr 0 (zpaq_incr p) (repeat x07 12) (drain (repeat x07 12))) = Some [5; 10]%nat /\
            cuts_seen (run_chunk true (zpaq_chunk p) (repeat x07 12) (drain (repeat x07 12))) = Some [4; 8; 12]%nat
  | _ => False
  end.
Proof. repeat split; vm_compute; reflexivity. Qed.

(** ** C61 *)

(** Appending bytes to a stream keeps all cuts and adds cuts only at or after its old end. *)
Theorem C61_push_append : forall c C, typed c -> incr_of c = Ok C -> incr_sound c -> forall a b sched1 sched2 r1 r2, stream_len (length (a ++ b)) ->
  run_incr (incr_adj c) C a (sched1 ++ drain a) = Ok r1 -> run_incr (incr_adj c) C (a ++ b) (sched2 ++ drain (a ++ b)) = Ok r2 ->
  exists later, r_cuts r2 = r_cuts r1 ++ later /\
    forall p, In p later -> (length a <= p)%nat /\ ((forall g mn nm mx, c <> CfgFastCdc g mn nm mx) -> (length a < p)%nat).
Proof.
  intros c C T E S a b sched1 sched2 r1 r2 Hl E1 E2. assert (A := incr_all c C T E S). assert (L := incr_first_laws c T). assert (Pr := incr_first_progressive c S).
  assert (Ha : stream_len (length a)) by (unfold stream_len in *; rewrite app_length in Hl; lia).
  assert (H1 := incr_final _ _ _ _ A _ _ _ Ha E1). assert (H2 := incr_final _ _ _ _ A _ _ _ Hl E2).
  destruct (cuts_append _ L _ _ _ H1 b _ H2) as (later & Q & G). exists later. split; [exact Q|]. intros p Hp. split; [exact (G p Hp)|]. intros N.
  assert (Lo : local_first (incr_first c)) by (destruct c; cbn [incr_first]; try apply ends_at_local; exfalso; eapply N; reflexivity).
  destruct (cuts_append_local _ L Lo Pr _ _ _ H1 b _ H2) as (later' & Q' & G').
  assert (later = later') as -> by (rewrite Q in Q'; now apply app_inv_head in Q'). exact (G' p Hp).
Qed.
Print Assumptions C61_push_append.

Theorem C61_edge_append : forall c C rule sh1 sh2, typed c -> chunk_of c = Ok C -> chunk_sound c -> chunk_rule c = Some rule ->
  forall a b sched1 sched2 r1 r2, stream_len (length (a ++ b)) ->
  run_chunk sh1 C a (sched1 ++ drain a) = Ok r1 -> run_chunk sh2 C (a ++ b) (sched2 ++ drain (a ++ b)) = Ok r2 ->
  exists later, r_cuts r2 = r_cuts r1 ++ later /\ forall p, In p later -> (length a < p)%nat.
Proof.
  intros c C rule sh1 sh2 T E S R a b sched1 sched2 r1 r2 Hl E1 E2. assert (L := ends_at_laws (per_chunk rule)).
  assert (Ha : stream_len (length a)) by (unfold stream_len in *; rewrite app_length in Hl; lia).
  assert (H1 := chunk_final _ _ _ _ _ (chunk_all c C rule sh1 T E S R) _ _ _ Ha E1).
  assert (H2 := chunk_final _ _ _ _ _ (chunk_all c C rule sh2 T E S R) _ _ _ Hl E2).
  exact (cuts_append_local _ L (ends_at_local _) (ends_at_progressive _) _ _ _ H1 b _ H2).
Qed.
Print Assumptions C61_edge_append.

(** FastCdc does wait for one more byte: a chunk that its hash ends at the end of the data is seen only later. *)
Theorem C61_fastcdc_waits : exists g mn nm mx a b r1 r2, typed (CfgFastCdc g mn nm mx) /\ 1 <= mn /\ nm <= mx /\
  run_incr 0 (fastcdc_incr (fastcdc_new g mn nm mx)) a (drain a) = Ok r1 /\
  run_incr 0 (fastcdc_incr (fastcdc_new g mn nm mx)) (a ++ b) (drain (a ++ b)) = Ok r2 /\ r_cuts r1 = [] /\ r_cuts r2 = [length a].
Proof.
  exists GEAR_64, 3, 3, 7, [x00; x00; x00], [x75].
  destruct (run_incr 0 (fastcdc_incr (fastcdc_new GEAR_64 3 3 7)) [x00; x00; x00] (drain [x00; x00; x00])) as [r1| |] eqn:E1; vm_compute in E1; try discriminate E1.
  destruct (run_incr 0 (fastcdc_incr (fastcdc_new GEAR_64 3 3 7)) ([x00; x00; x00] ++ [x75]) (drain ([x00; x00; x00] ++ [x75]))) as [r2| |] eqn:E2; vm_compute in E2; try discriminate E2.
  exists r1, r2. split; [apply typed_gear64; unfold is_u64; lia|]. split; [lia|]. split; [lia|]. split; [reflexivity|]. split; [reflexivity|].
  injection E1 as <-. injection E2 as <-. split; reflexivity.
Qed.
Print Assumptions C61_fastcdc_waits.

(** Two streams that begin alike have the same cuts there. *)
Theorem C61_push_shared : forall c C, typed c -> incr_of c = Ok C -> incr_sound c -> forall a b1 b2 sched1 sched2 r1 r2,
  stream_len (length (a ++ b1)) -> stream_len (length (a ++ b2)) ->
  run_incr (incr_adj c) C (a ++ b1) (sched1 ++ drain (a ++ b1)) = Ok r1 -> run_incr (incr_adj c) C (a ++ b2) (sched2 ++ drain (a ++ b2)) = Ok r2 ->
  forall p, (p < length a)%nat -> (In p (r_cuts r1) <-> In p (r_cuts r2)).
Proof.
  intros c C T E S a b1 b2 sched1 sched2 r1 r2 Hl1 Hl2 E1 E2 p Hp. assert (A := incr_all c C T E S).
  assert (Ha : stream_len (length a)) by (unfold stream_len in *; rewrite app_length in Hl1; lia).
  destruct (A a Ha) as (cs & _ & R). destruct (R []) as [_ (r0 & E0 & _ & _)].
  destruct (C61_push_append c C T E S a b1 [] sched1 r0 r1 Hl1 E0 E1) as (x1 & -> & G1).
  destruct (C61_push_append c C T E S a b2 [] sched2 r0 r2 Hl2 E0 E2) as (x2 & -> & G2).
  rewrite !in_app_iff. split; intros [I|I]; auto; exfalso; [destruct (G1 p I)|destruct (G2 p I)]; lia.
Qed.
Print Assumptions C61_push_shared.

Theorem C61_edge_shared : forall c C rule sh1 sh2, typed c -> chunk_of c = Ok C -> chunk_sound c -> chunk_rule c = Some rule ->
  forall a b1 b2 sched1 sched2 r1 r2, stream_len (length (a ++ b1)) -> stream_len (length (a ++ b2)) ->
  run_chunk sh1 C (a ++ b1) (sched1 ++ drain (a ++ b1)) = Ok r1 -> run_chunk sh2 C (a ++ b2) (sched2 ++ drain (a ++ b2)) = Ok r2 ->
  forall p, (p <= length a)%nat -> (In p (r_cuts r1) <-> In p (r_cuts r2)).
Proof.
  intros c C rule sh1 sh2 T E S R a b1 b2 sched1 sched2 r1 r2 Hl1 Hl2 E1 E2 p Hp. assert (A := chunk_all c C rule true T E S R).
  assert (Ha : stream_len (length a)) by (unfold stream_len in *; rewrite app_length in Hl1; lia).
  destruct (A a Ha) as (cs & _ & Q). destruct (Q []) as [_ (r0 & E0 & _ & _)].
  destruct (C61_edge_append c C rule true sh1 T E S R a b1 [] sched1 r0 r1 Hl1 E0 E1) as (x1 & -> & G1).
  destruct (C61_edge_append c C rule true sh2 T E S R a b2 [] sched2 r0 r2 Hl2 E0 E2) as (x2 & -> & G2).
  rewrite !in_app_iff. split; intros [I|I]; auto; exfalso; [specialize (G1 p I)|specialize (G2 p I)]; lia.
Qed.
Print Assumptions C61_edge_shared.

Example C61_case : let C := gzip_chunk (gzip_with_window_and_modulus 2 5) in
  let a := [x01; x02; x01; x02; x04; x01] in
  cuts_seen (run_chunk false C a (drain a)) = Some [6]%nat /\
  cuts_seen (run_chunk false C (a ++ [x03; x02]) (drain (a ++ [x03; x02]))) = Some [6; 8]%nat /\
  cuts_seen (run_chunk true C (a ++ [x04; x01; x09]) (repeat 3%nat 12)) = Some [6; 8]%nat.
Proof. repeat split; vm_compute; reflexivity. Qed.

(** The premise [typed] admits the values of the types and no others. *)
Example C60_case_typed : let r := (Included 0, Excluded (2 ^ 64 - 1)) in
  (typed (CfgZpaq 255 r) /\ ~ typed (CfgZpaq 256 r) /\ ~ typed (CfgZpaq (-1) r)) /\ (typed (CfgPigz 255) /\ ~ typed (CfgPigz 256)) /\
  (typed (CfgGear (2 ^ 64 - 1)) /\ ~ typed (CfgGear (2 ^ 64))) /\ ~ typed (CfgZpaq 0 (Included (2 ^ 64), Unbounded)) /\ ~ typed (CfgZpaq 0 (Unbounded, Excluded (2 ^ 64))).
Proof. cbv zeta. unfold typed, bound_u64, is_u64. cbn [start_bound end_bound fst snd]. repeat apply conj; lia. Qed.
(** A [push] that answers past its buffer makes the caller's slicing panic. *)
Example C60_case_past : let C := {| incr_state := unit; incr_new := tt; incr_push := fun _ _ => Ok (tt, Some 3%nat) |} in
  run_incr 0 C [x01; x02] [2%nat] = Panic /\ (exists r, run_incr 0 C [x01; x02; x03] [3%nat] = Ok r /\ r_cuts r = [3%nat]) /\ run_incr 1 C [x01; x02; x03] [3%nat] = Panic.
Proof. cbv zeta. split; [reflexivity|]. split; [eexists; split; reflexivity|reflexivity]. Qed.
