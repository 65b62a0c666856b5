(** * PropsForce: C64, from everywhere a cut can still be reached. *)

From Verif Require Import Base Api Tables Range Spec Lists Contract CutFacts CutProps Agree Rot.
From Verif Require Import Mii Ram Gear GearProofs Pigz PigzProofs Gzip FastCdc Bup BupAny BuzHash BuzProofs Zpaq Zstd ZstdProofs MiiProofs.
From Verif Require Import Builtin BuiltinProofs Unbounded PropsBounds PropsBuz PropsDefaults Force Cases.

(** Every input that ends with [word] has a cut inside or at the end of it. *)
Definition forcing (first : first_rel) (word : list byte) : Prop := forall data cs, cuts_of first [] (data ++ word) cs ->
  exists q, In q cs /\ (length data < q <= length data + length word)%nat.

Lemma forcing_at : forall (r : list byte -> list byte -> Prop) word, word <> [] -> (forall h c, r h (c ++ word)) -> forcing (ends_at r) word.
Proof. intros r word Hw R data cs H. exact (word_cut r word data cs Hw R H). Qed.

Lemma last_other : forall (l : list nat) d e, l <> [] -> last l d = last l e.
Proof.
  induction l as [|x l IH]; intros d e H; [now elim H|]. destruct l as [|y l]; [reflexivity|]. apply (IH d e). discriminate.
Qed.
Lemma last_size : forall cs p n B, Forall (fun m => Z.of_nat m <= B) (sizes p (cs ++ [n])) -> Z.of_nat n - Z.of_nat (last cs p) <= B.
Proof.
  induction cs as [|q cs IH]; intros p n B F; cbn [app sizes] in F; inversion F as [|x l Hx Hl]; subst; [cbn [last]; lia|].
  specialize (IH q n B Hl). destruct cs as [|q' cs]; [exact IH|]. change (last (q :: q' :: cs) p) with (last (q' :: cs) p).
  rewrite (last_other (q' :: cs) p q); [exact IH|discriminate].
Qed.
Lemma last_in : forall (l : list nat) d, l <> [] -> In (last l d) l.
Proof.
  induction l as [|x l IH]; intros d H; [now elim H|]. destruct l as [|y l]; [now left|]. right. apply (IH d). discriminate.
Qed.

Lemma cuts_of_le : forall first, first_laws first -> forall h d cs, cuts_of first h d cs -> forall q, In q cs -> (q <= length h + length d)%nat.
Proof.
  intros first L h d cs H. induction H as [h d N|h d n cs F H IH]; intros q Hq; [destruct Hq|]. assert (B := fl_len _ L _ _ _ F).
  destruct Hq as [<-|Hq]; [lia|]. specialize (IH q Hq). rewrite app_length, firstn_length, skipn_length in IH. lia.
Qed.
Lemma forcing_capped : forall first B word, capped first B -> first_laws first -> B < Z.of_nat (length word) -> forcing first word.
Proof.
  intros first B word C L Hw data cs H. assert (F := capped_sizes first B C L [] _ _ H). cbn [length Nat.add] in F. apply last_size in F.
  rewrite app_length in F. exists (last cs 0%nat). assert (N : cs <> []) by (intros ->; cbn [last] in F; lia).
  assert (Y := last_in cs 0%nat N). split; [exact Y|]. assert (Z := cuts_of_le first L _ _ _ H _ Y). rewrite app_length in Z. cbn [length] in Z. lia.
Qed.

(** ** [push] *)

(** A word exists for every configuration but those of Mii and RollSum that never cut, and RollSum with a window that is not
    a power of two (where all bytes of the stream count). *)
Definition push_word (c : config) : Prop :=
  match c with
  | CfgMii w => 1 <= w <= 255
  | CfgRollSum w => (8 <= w)%nat /\ exists k, w = (2 ^ k)%nat
  | _ => True
  end.
Definition push_can_cut (c : config) : Prop :=
  match c with
  | CfgMii w => 1 <= w <= 255
  | CfgRollSum w => bup_incr_can w
  | _ => True
  end.
Definition push_reach (c : config) : Z :=
  match c with
  | CfgMii w => w + 1
  | CfgRam w => w + 2
  | CfgGear _ => 32
  | CfgPigz b => Z.max 1 b
  | CfgGzip w _ => Z.of_nat w + 1
  | CfgFastCdc _ min _ max => Z.max min max + 1
  | CfgRollSum w => Z.of_nat w + 33
  | CfgBuzHash _ _ _ max => max + 1
  | CfgZpaq _ r => lower_end r + 63
  | CfgZstd _ => 33
  end.

Lemma push_word_forcing : forall c C, typed c -> incr_of c = Ok C -> incr_sound c -> push_word c ->
  exists word, Z.of_nat (length word) <= push_reach c /\ forcing (incr_first c) word.
Proof.
  intros [w|w|n|b|w m|g mn nm mx|w|k mask h mx|f r|t] C T E S P; cbn [typed incr_of incr_sound push_word push_reach incr_first] in *.
  - destruct (mii_word w P) as (word & L & R). exists word. split; [lia|]. apply forcing_at; [intros ->; cbn in L; lia|]. intros h c. apply R.
  - unfold is_u64 in T. exists (repeat xff (Z.to_nat w + 2)). split; [rewrite repeat_length; lia|].
    apply forcing_at; [rewrite Nat.add_comm; discriminate|]. intros h c. apply ram_word. lia.
  - destruct (gear_with_average_size_log2 n) as [p| |] eqn:Ep; cbn [bind] in E; try discriminate. apply gear_ctor_inv in Ep. destruct Ep as [Hn _].
    exists gear_word. split; [cbn; lia|]. apply forcing_at; [discriminate|]. intros h c. apply gear_word_rule. lia.
  - exists (pigz_word b). split; [unfold pigz_word; cbn [length]; rewrite repeat_length; lia|]. apply forcing_at; [discriminate|]. intros h c. apply pigz_word_rule. lia.
  - exists (repeat x00 (Datatypes.S w)). split; [rewrite repeat_length; lia|]. apply forcing_at; [discriminate|]. intros h c. apply gzip_word_rule.
  - assert (T0 := T). destruct T as (_ & _ & T1 & T2 & T3). unfold is_u64 in T1, T3. exists (repeat x00 (Z.to_nat (Z.max mn mx + 1))). split; [rewrite repeat_length; lia|].
    apply (forcing_capped _ (Z.max mn mx)); [apply fastcdc_capped; lia|apply (incr_first_laws (CfgFastCdc g mn nm mx)); exact T0|rewrite repeat_length; lia].
  - destruct P as [P (k & ->)]. destruct (bup_word (2 ^ k) ltac:(lia)) as (word & L & R). exists word. split; [lia|].
    apply forcing_at; [intros ->; cbn [length] in L; lia|]. intros h c. unfold per_stream. rewrite app_assoc. apply bup_incr_rule_pow2, R.
  - destruct T as (_ & T & _). unfold is_u64 in T. exists (repeat x00 (Z.to_nat (mx + 1))). split; [rewrite repeat_length; lia|].
    apply forcing_at.
    + intros X. apply (f_equal (@length byte)) in X. rewrite repeat_length in X. cbn in X. lia.
    + intros h' c. right. rewrite app_length, repeat_length. lia.
  - destruct (zpaq_with_average_and_range f r) as [p| |] eqn:Ep; cbn [bind] in E; try discriminate. apply zpaq_ctor_inv in Ep. destruct Ep as [Hf _].
    exists (zpaq_word r). split.
    + unfold zpaq_word. rewrite !app_length, repeat_length. change (length zpaq_prefix) with 4%nat. change (length zpaq_tail) with 59%nat.
      destruct T as (_ & T & _). unfold lower_end, bound_u64, is_u64 in *. destruct (start_bound r); lia.
    + apply forcing_at; [unfold zpaq_word; destruct (repeat x00 _); discriminate|]. intros h c. apply zpaq_word_rule; lia.
  - destruct (zstd_with_target_section_size t) as [p| |] eqn:Ep; cbn [bind] in E; try discriminate. apply zstd_ctor_inv in Ep; [|exact T]. destruct Ep as [Ht _].
    assert (B := bits_of_range t Ht). exists zstd_word. split; [cbn; lia|]. apply forcing_at; [discriminate|]. intros h c. unfold per_stream. rewrite app_assoc. apply zstd_word_rule. lia.
Qed.

(** One fixed word of known length forces a cut, whatever was pushed before and however. *)
Theorem C64_push_word : forall c C, typed c -> incr_of c = Ok C -> incr_sound c -> push_word c ->
  exists word, Z.of_nat (length word) <= push_reach c /\
  forall data sched r, stream_len (length (data ++ word)) -> run_incr (incr_adj c) C (data ++ word) (sched ++ drain (data ++ word)) = Ok r ->
  exists q, In q (r_cuts r) /\ (length data < q <= length data + length word)%nat.
Proof.
  intros c C T E S P. destruct (push_word_forcing c C T E S P) as (word & L & F). exists word. split; [exact L|].
  intros data sched r Hl R. exact (F data (r_cuts r) (incr_complete c C T E S _ _ _ Hl R)).
Qed.
Print Assumptions C64_push_word.

(** Hence from every position a cut can be reached, for every configuration except those that never report a cut at all. *)
Theorem C64_push_reach : forall c C, typed c -> incr_of c = Ok C -> incr_sound c ->
  (push_can_cut c -> forall data, exists ext, Z.of_nat (length ext) <= push_reach c /\
     forall sched r, stream_len (length (data ++ ext)) -> run_incr (incr_adj c) C (data ++ ext) (sched ++ drain (data ++ ext)) = Ok r ->
     exists q, In q (r_cuts r) /\ (length data < q)%nat) /\
  (~ push_can_cut c -> forall data sched r, stream_len (length data) -> run_incr (incr_adj c) C data sched = Ok r -> r_cuts r = []).
Proof.
  intros c C T E S. split.
  - intros P data. destruct (match c with CfgRollSum _ => true | _ => false end) eqn:K.
    + destruct c as [| | | | | |w| | |]; try discriminate K. cbn [push_can_cut incr_adj] in *. destruct (bup_incr_can_reach w P data) as (ext & L & R).
      assert (B := low_bit_bounds w S). exists ext. split; [cbn [push_reach]; lia|]. intros sched r Hl Er. exists (length (data ++ ext)). split; [|rewrite app_length; lia].
      apply (stream_cut _ _ _ (incr_complete (CfgRollSum w) C T E S _ _ _ Hl Er)); [rewrite app_length; lia|]. now rewrite firstn_all.
    + assert (W : push_word c) by (destruct c; try discriminate K; exact P).
      destruct (C64_push_word c C T E S W) as (word & L & F). exists word. split; [exact L|]. intros sched r Hl Er. destruct (F data sched r Hl Er) as (q & Hq & B). exists q. split; [exact Hq|lia].
  - intros P data sched r Hl Er. assert (A := incr_all c C T E S).
    enough (H : cuts_of (incr_first c) [] data []).
    { destruct (no_cuts_incr _ _ _ _ data A (incr_first_laws c T) Hl H sched) as (r' & Er' & Q). rewrite Er in Er'. inversion Er'; subst. exact Q. }
    constructor. intros n F. apply P. clear P. destruct c; try exact I; cbn [push_can_cut incr_first] in *.
    + destruct F as (_ & F & _). cbn [app] in F. rewrite mii_incr_rule_virtual in F. destruct (Z.le_gt_cases w 0) as [G|G]; [elim (mii_never w _ (or_introl G) F)|].
      destruct (Z.le_gt_cases 256 w) as [G2|G2]; [elim (mii_never w _ (or_intror G2) F)|lia].
    + destruct F as (_ & F & _). exact (bup_incr_can_needed _ _ F).
Qed.
Print Assumptions C64_push_reach.

(** For RollSum's [push] the condition is: a window of at least 8 bytes if it is a power of two; every multiple of 8 will do. *)
Theorem C64_rollsum_windows : (forall k, push_can_cut (CfgRollSum (2 ^ k)) <-> (8 <= 2 ^ k)%nat) /\
  (forall m, (1 <= m)%nat -> push_can_cut (CfgRollSum (8 * m))).
Proof.
  split; [exact bup_incr_can_pow2|]. intros m Hm. apply bup_incr_can_8.
  destruct (low_bit_spec (8 * m) ltac:(lia)) as (k & j & E & ->). destruct k as [|[|[|k]]]; cbn [Nat.pow] in *; lia.
Qed.
Print Assumptions C64_rollsum_windows.

(** ** [find_chunk_edge] *)
Definition edge_can_cut (c : config) : Prop :=
  match c with
  | CfgMii w => 1 <= w <= 255
  | CfgRollSum w => (7 <= w)%nat
  | CfgBuzHash k mask h _ => (k mod 32 < 8)%nat /\ exists word, length word = k /\ buz_rule (value_of h) k mask word
  | _ => True
  end.
Definition edge_never (c : config) : Prop :=
  match c with
  | CfgMii w => w <= 0 \/ 256 <= w
  | CfgRollSum w => (w <= 6)%nat
  | _ => False
  end.
Definition edge_reach (c : config) : Z :=
  match c with
  | CfgBuzHash k _ _ _ => Z.of_nat k
  | CfgRollSum w => Z.of_nat w
  | _ => push_reach c
  end.

Lemma edge_word_rule : forall c C rule, typed c -> chunk_of c = Ok C -> chunk_rule c = Some rule -> edge_can_cut c ->
  exists word, word <> [] /\ Z.of_nat (length word) <= edge_reach c /\ forall x, rule (x ++ word).
Proof.
  intros [w|w|n|b|w m|g mn nm mx|w|k mask h mx|f r|t] C rule T E R P; cbn [typed chunk_of chunk_rule edge_can_cut edge_reach push_reach] in *; inversion R; subst rule; clear R.
  - destruct (mii_word w P) as (word & L & R). exists word. split; [intros ->; cbn in L; lia|]. split; [lia|]. intros x. exact (proj2 (R [] x)).
  - unfold is_u64 in T. exists (repeat xff (Z.to_nat w + 2)). split; [rewrite Nat.add_comm; discriminate|]. split; [rewrite repeat_length; lia|]. intros c. apply ram_word. lia.
  - destruct (gear_with_average_size_log2 n) as [p| |] eqn:Ep; cbn [bind] in E; try discriminate. apply gear_ctor_inv in Ep. destruct Ep as [Hn _].
    exists gear_word. split; [discriminate|]. split; [cbn; lia|]. intros c. apply gear_word_rule. lia.
  - exists (pigz_word b). split; [discriminate|]. split; [unfold pigz_word; cbn [length]; rewrite repeat_length; lia|]. intros c. apply pigz_word_rule. lia.
  - exists (repeat x00 (S w)). split; [discriminate|]. split; [rewrite repeat_length; lia|]. apply gzip_word_rule.
  - destruct (bup_word w P) as (word & L & R). exists word. split; [intros ->; cbn [length] in L; lia|]. split; [lia|exact R].
  - destruct (buzhash_new k mask h mx) as [p| |] eqn:Ep; cbn [bind] in E; try discriminate. assert (G := buz_good_of _ _ _ _ _ T Ep). apply buz_ctor_inv in Ep. destruct Ep as [Hk _].
    destruct P as [P (word & L & R)]. exists word. split; [intros ->; cbn in L; lia|]. split; [lia|]. apply (window_word k); [|lia|exact R].
    apply buz_window; [|exact P]. destruct T as (_ & _ & Hh). intros b. unfold value_of. destruct (Hh b) as (v & -> & Hv). exact Hv.
  - destruct (zpaq_with_average_and_range f r) as [p| |] eqn:Ep; cbn [bind] in E; try discriminate. apply zpaq_ctor_inv in Ep. destruct Ep as [Hf _].
    exists (zpaq_word r). split; [unfold zpaq_word; destruct (repeat x00 _); discriminate|]. split.
    + unfold zpaq_word. rewrite !app_length, repeat_length. change (length zpaq_prefix) with 4%nat. change (length zpaq_tail) with 59%nat.
      destruct T as (_ & T & _). unfold lower_end, bound_u64, is_u64 in *. destruct (start_bound r); lia.
    + intros c. apply zpaq_word_rule; lia.
Qed.

Theorem C64_edge_word : forall c C rule, typed c -> chunk_of c = Ok C -> chunk_sound c -> chunk_rule c = Some rule ->
  (edge_can_cut c -> exists word, Z.of_nat (length word) <= edge_reach c /\
     forall shrink data sched r, stream_len (length (data ++ word)) -> run_chunk shrink C (data ++ word) (sched ++ drain (data ++ word)) = Ok r ->
     exists q, In q (r_cuts r) /\ (length data < q <= length data + length word)%nat) /\
  (edge_never c -> forall shrink data sched r, stream_len (length data) -> run_chunk shrink C data sched = Ok r -> r_cuts r = []).
Proof.
  intros c C rule T E S R. split.
  - intros P. destruct (edge_word_rule c C rule T E R P) as (word & Hw & L & F). exists word. split; [exact L|].
    intros sh data sched r Hl Er. apply (word_cut (per_chunk rule)); [exact Hw|intros h x; apply F|]. exact (chunk_complete c C rule T E S R sh _ _ _ Hl Er).
  - intros P sh data sched r Hl Er. assert (A := chunk_all c C rule sh T E S R).
    enough (H : cuts_of (ends_at (per_chunk rule)) [] data []).
    { destruct (no_cuts_chunk _ _ _ _ _ data A (ends_at_laws _) Hl H sched) as (r' & Er' & Q). rewrite Er in Er'. inversion Er'; subst. exact Q. }
    constructor. intros n (_ & F & _). unfold per_chunk in F. destruct c; cbn [edge_never chunk_rule] in *; try (now elim P); inversion R; subst rule.
    + exact (mii_never _ _ P F).
    + exact (bup_never _ _ P F).
Qed.
Print Assumptions C64_edge_word.

(** The crate's own BuzHash parameters, whatever the salt: 67 bytes force a cut of either interface. *)
Theorem C64_buzhash_new_nom : forall salt shrink, exists p word, buzhash_new_nom salt = Ok p /\ length word = 67%nat /\
  (forall data sched r, below_2_64 (length (data ++ word)) -> run_incr 0 (buz_incr p) (data ++ word) (sched ++ drain (data ++ word)) = Ok r ->
   exists q, In q (r_cuts r) /\ (length data < q <= length data + 67)%nat) /\
  (forall data sched r, run_chunk shrink (buz_chunk p) (data ++ word) (sched ++ drain (data ++ word)) = Ok r ->
   exists q, In q (r_cuts r) /\ (length data < q <= length data + 67)%nat).
Proof.
  intros salt shrink. destruct (C58_buzhash_new_nom salt shrink) as (p & E & A & B). assert (L : length (map (byte_xor salt) buz_word) = 67%nat) by (rewrite map_length; reflexivity).
  assert (N : map (byte_xor salt) buz_word <> []) by (intros X; rewrite X in L; discriminate L).
  exists p, (map (byte_xor salt) buz_word). split; [exact E|]. split; [exact L|]. split; intros data sched r.
  - intros Hl R. rewrite <- L. refine (word_cut _ _ _ _ N _ (incr_final _ _ _ _ A _ _ _ Hl R)). intros h c. left. apply buz_word_rule.
  - intros R. rewrite <- L. refine (word_cut _ _ _ _ N _ (chunk_final _ _ _ _ _ B _ _ _ I R)). intros h c. apply buz_word_rule.
Qed.
Print Assumptions C64_buzhash_new_nom.

(** Gear with the largest exponent, Zstd with the largest target, and RollSum with a window of 24 bytes (not a power of two), each after a few other bytes; RollSum with a window of 6 cuts nowhere. *)
Example C64_case :
  (let data := [x61; x62; x63] ++ gear_word in
   match gear_with_average_size_log2 31 with
   | Ok p => cuts_seen (run_incr (incr_adj (CfgGear 31)) (gear_incr p) data (drain data)) = Some [35]%nat /\ cuts_seen (run_chunk true (gear_chunk p) data (drain data)) = Some [35]%nat
   | _ => False
   end) /\
  (let data := [x61; x62; x63] ++ zstd_word in
   match zstd_with_target_section_size (2 ^ 52 - 1) with
   | Ok p => cuts_seen (run_incr (incr_adj (CfgZstd (2 ^ 52 - 1))) (zstd_incr p) data (drain data)) = Some [36]%nat
   | _ => False
   end) /\
  push_can_cut (CfgRollSum 24) /\ ~ push_can_cut (CfgRollSum 4) /\ ~ push_can_cut (CfgMii 256) /\
  (let data := [x61; x62; x63] ++ repeat x00 5 in cuts_seen (run_incr 0 (gzip_incr (gzip_with_window_and_modulus 4 1000)) data (drain data)) = Some [7; 8]%nat) /\
  (let data := [x61; x62; x63] ++ pigz_word 7 in
   match pigz_with_bits 7 with Ok p => cuts_seen (run_chunk true (pigz_chunk p) data (drain data)) = Some [10]%nat | _ => False end).
Proof.
  split; [split; vm_compute; reflexivity|]. split; [vm_compute; reflexivity|].
  split; [exact (proj2 C64_rollsum_windows 3%nat ltac:(lia))|]. split; [change 4%nat with (2 ^ 2)%nat; rewrite (proj1 C64_rollsum_windows); cbn; lia|].
  split; [cbn; lia|]. split; vm_compute; reflexivity.
Qed.
