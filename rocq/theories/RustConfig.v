(** * RustConfig: the built-in chunkers as the text of the source makes them.

    For every configuration: call its constructor, then [to_chunk_incr] or [to_search_state], then [push] or
    [find_chunk_edge], all in the text of the source ([RustText.v]).  The values that come out are compared with those
    of the model on every input. *)

From Coq Require Import String ZifyBool ZifyNat.
From Verif Require Import Base Api Lists Range Mii Ram Gear Pigz Gzip FastCdc Bup BuzHash Zpaq Zstd Builtin.
From Verif Require Import IterProofs IterOps Rust RustText RustSim RustLib.
From Verif Require Import RustMii RustRam RustGear RustPigz RustGzip RustFastCdc RustBup RustBuzHash RustRange RustZpaq RustZstd.
Open Scope list_scope.
Open Scope Z_scope.

(** ** The source at work *)

(** [v.m(args)]: the final values of [v] and of the arguments, and the value returned. *)
Definition method (prog : program) (n : nat) (v : value) (m : string) (args : list value) : out (list value * value) :=
  call prog n (append (type_of v) (append "::" m)) (v :: args).

(** The constructor call of a configuration; [hv] is the value of the user's type [H: BuzHashHash]. *)
Definition ctor_name (c : config) : string :=
  match c with
  | CfgMii _ => "Mii::with_w"
  | CfgRam _ => "Ram::with_w"
  | CfgGear _ => "Gear32::with_average_size_log2"
  | CfgPigz _ => "PigzRsyncable::with_bits"
  | CfgGzip _ _ => "GzipRsyncable::with_window_and_modulus"
  | CfgFastCdc _ _ _ _ => "FastCdc::new"
  | CfgRollSum _ => "RollSum::with_window"
  | CfgBuzHash _ _ _ _ => "BuzHash::new"
  | CfgZpaq _ _ => "Zpaq::with_average_and_range"
  | CfgZstd _ => "Zstd::with_target_section_size"
  end.
Definition ctor_args (hv : value) (c : config) : list value :=
  match c with
  | CfgMii w | CfgRam w => [VInt U64 w]
  | CfgGear k => [VInt Usize k]
  | CfgPigz b => [VInt U8 b]
  | CfgGzip w m => [VInt Usize (Z.of_nat w); VInt U64 m]
  | CfgFastCdc g min normal max => [VList (map (VInt U64) g); VInt U64 min; VInt U64 normal; VInt U64 max]
  | CfgRollSum w => [VInt Usize (Z.of_nat w)]
  | CfgBuzHash k mask _ max => [VInt Usize (Z.of_nat k); VInt U32 mask; hv; VInt U64 max]
  | CfgZpaq f r => [VInt U8 f; VPair (enc_bound (start_bound r)) (enc_bound (end_bound r))]
  | CfgZstd t => [VInt U64 t]
  end.

(** What a caller sees of the source: [Diverge] stands for everything that is neither a value nor a panic. *)
Definition returned {A} (f : list value -> value -> option A) (o : out (list value * value)) : res A :=
  match o with
  | Done (finals, v) => match f finals v with Some a => Ok a | None => Diverge end
  | Panics => Panic
  | _ => Diverge
  end.

Definition read_index (v : value) : option (option nat) :=
  match v with
  | VCon c [] => if String.eqb c "None" then Some None else None
  | VCon c [VInt Usize k] => if String.eqb c "Some" then Some (Some (Z.to_nat k)) else None
  | _ => None
  end.
Definition read_push (finals : list value) (v : value) : option (value * option nat) :=
  match finals with
  | [s; _] => match read_index v with Some o => Some (s, o) | None => None end
  | _ => None
  end.
Definition read_find (finals : list value) (v : value) : option (value * (option nat * nat)) :=
  match finals, v with
  | [_; s; _], VCon c [o; VInt Usize k] =>
      if String.eqb c "," then match read_index o with Some o => Some (s, (o, Z.to_nat k)) | None => None end else None
  | _, _ => None
  end.
Definition read_value (finals : list value) (v : value) : option value := Some v.

(** A chunker of the source as a [ChunkIncr] and as a [Chunk]; [pv] is the configured instance. *)
Definition text_incr_of (prog : program) (n : nat) (pv : value) : res Incr :=
  s0 <- returned read_value (method prog n pv "to_chunk_incr" []) ;;
  Ok {| incr_state := value; incr_new := s0;
        incr_push := fun s data => returned read_push (method prog n s "push" [vbytes data]) |}.
Definition text_chunk_of (prog : program) (n : nat) (pv : value) : res Chunk :=
  s0 <- returned read_value (method prog n pv "to_search_state" []) ;;
  Ok {| search_state := value; to_search_state := s0;
        find_chunk_edge := fun s data => returned read_find (method prog n pv "find_chunk_edge" [s; vbytes data]) |}.

Definition text_instance (prog : program) (n : nat) (hv : value) (c : config) : res value :=
  returned read_value (call prog n (ctor_name c) (ctor_args hv c)).
Definition text_incr (prog : program) (n : nat) (hv : value) (c : config) : res Incr :=
  pv <- text_instance prog n hv c ;; text_incr_of prog n pv.
Definition text_chunk (prog : program) (n : nat) (hv : value) (c : config) : res Chunk :=
  pv <- text_instance prog n hv c ;; text_chunk_of prog n pv.

(** [usize] arguments are below [2^64], and [hv] has a method [hash] that computes the hash of the configuration. *)
Definition fits (prog : program) (hv : value) (c : config) : Prop :=
  match c with
  | CfgGzip w _ => Z.of_nat w < 2 ^ 64
  | CfgRollSum w => Z.of_nat w < 2 ^ 64
  | CfgBuzHash k _ h _ => Z.of_nat k < 2 ^ 64 /\ is_hash prog hv h
  | _ => True
  end.

(** ** Simulation *)

Definition rmap {A B} (f : A -> B) (r : res A) : res B :=
  match r with Ok a => Ok (f a) | Panic => Panic | Diverge => Diverge end.

Definition simulates (L : nat) (A B : Incr) (enc : incr_state A -> incr_state B) (Inv : incr_state A -> Prop) : Prop :=
  incr_new B = enc (incr_new A) /\ Inv (incr_new A) /\
  forall s data, Inv s -> (length data <= L)%nat ->
    incr_push B (enc s) data = rmap (fun '(s', o) => (enc s', o)) (incr_push A s data) /\
    forall s' o, incr_push A s data = Ok (s', o) -> Inv s'.

Definition simulates_chunk (L : nat) (A B : Chunk) (enc : search_state A -> search_state B) (Inv : search_state A -> Prop) : Prop :=
  to_search_state B = enc (to_search_state A) /\ Inv (to_search_state A) /\
  forall s data, Inv s -> (length data <= L)%nat ->
    find_chunk_edge B (enc s) data = rmap (fun '(s', a) => (enc s', a)) (find_chunk_edge A s data) /\
    forall s' a, find_chunk_edge A s data = Ok (s', a) -> Inv s'.

Definition map_run {S T} (f : S -> T) (r : run S) : run T :=
  {| r_cuts := r_cuts r; r_state := f (r_state r); r_base := r_base r; r_seen := r_seen r; r_none := r_none r |}.

Lemma run_incr_sim L A B enc Inv : simulates L A B enc Inv ->
  forall adj data sched, (length data <= L)%nat ->
    run_incr adj B data sched = rmap (map_run enc) (run_incr adj A data sched).
Proof.
  intros (Hn & Hi & Hp) adj data sched HL. unfold run_incr. rewrite Hn.
  enough (G : forall sched s base seen none, Inv s -> drive_push adj (incr_push B) data sched (enc s) base seen none =
    rmap (map_run enc) (drive_push adj (incr_push A) data sched s base seen none)) by (apply G; exact Hi).
  clear Hn Hi sched. intros sched. induction sched as [|g sched IH]; intros s base seen none Hi; [reflexivity|].
  cbn [drive_push]. set (d := firstn g (skipn base data)).
  assert (Hd : (length d <= L)%nat) by (unfold d; rewrite firstn_length, skipn_length; lia).
  destruct (Hp s d Hi Hd) as [-> K]. destruct (incr_push A s d) as [[s' [k|]]| |]; cbn [rmap bind]; try reflexivity.
  - destruct (Nat.ltb (length d) (k + adj)); [reflexivity|]. rewrite (IH s') by (apply (K s' (Some k)); reflexivity).
    destruct (drive_push adj (incr_push A) data sched s' _ _ _); reflexivity.
  - apply IH. apply (K s' None). reflexivity.
Qed.

Lemma run_chunk_sim L A B enc Inv : simulates_chunk L A B enc Inv ->
  forall shrink data sched, (length data <= L)%nat ->
    run_chunk shrink B data sched = rmap (map_run enc) (run_chunk shrink A data sched).
Proof.
  intros (Hn & Hi & Hp) shrink data sched HL. unfold run_chunk. rewrite Hn.
  enough (G : forall sched s base lo seen none, Inv s -> drive_chunk shrink (find_chunk_edge B) data sched (enc s) base lo seen none =
    rmap (map_run enc) (drive_chunk shrink (find_chunk_edge A) data sched s base lo seen none)) by (apply G; exact Hi).
  clear Hn Hi sched. intros sched. induction sched as [|g sched IH]; intros s base lo seen none Hi; [reflexivity|].
  cbn [drive_chunk]. set (hi := Nat.min _ _). set (d := firstn _ (skipn base data)).
  assert (Hd : (length d <= L)%nat) by (unfold d; rewrite firstn_length, skipn_length; lia).
  destruct (Hp s d Hi Hd) as [-> K]. destruct (find_chunk_edge A s d) as [[s' [[k|] q]]| |]; cbn [rmap bind]; try reflexivity.
  - destruct (Nat.ltb (length d) q); [reflexivity|]. destruct (Nat.ltb (length d) k); [reflexivity|].
    rewrite (IH s') by (apply (K s' (Some k, q)); reflexivity).
    destruct (drive_chunk shrink (find_chunk_edge A) data sched s' _ _ _ _); reflexivity.
  - destruct (Nat.ltb (length d) q); [reflexivity|]. apply IH. apply (K s' (None, q)). reflexivity.
Qed.

(** ** From the text to the model *)

Definition computes_find (prog : program) (P : string) (pv : value) (C : Chunk) (enc : search_state C -> value)
  (Inv : search_state C -> Prop) (N : nat) : Prop :=
  forall n s data, (N + length data <= n)%nat -> Inv s -> Z.of_nat (length data) < 2 ^ 63 ->
     call prog n (append P "::find_chunk_edge") [pv; enc s; vbytes data] =
     as_out (fun '(s', (o, k)) => ([pv; enc s'; vbytes data], VPair (vopt o) (vsize k))) (find_chunk_edge C s data).

Lemma read_vopt o : read_index (vopt o) = Some o.
Proof. destruct o; cbn; [rewrite Nat2Z.id|]; reflexivity. Qed.

Lemma text_incr_sim prog n L T C enc Inv N pv :
  computes_push prog T C enc Inv N ->
  (forall s data s' o, Inv s -> incr_push C s data = Ok (s', o) -> Inv s') -> Inv (incr_new C) ->
  (N + L <= n)%nat -> Z.of_nat L < 2 ^ 63 ->
  method prog n pv "to_chunk_incr" [] = Done ([pv], enc (incr_new C)) ->
  exists CT, text_incr_of prog n pv = Ok CT /\ exists e : incr_state C -> incr_state CT, simulates L C CT e Inv.
Proof.
  intros (Ht & _ & Hc) HI HI0 Hn HL H0. unfold text_incr_of. rewrite H0. cbn [returned read_value bind].
  eexists. split; [reflexivity|]. exists enc. split; [reflexivity|]. split; [exact HI0|].
  intros s data Hs Hd. cbn [incr_push]. split; [|intros s' o; apply HI; exact Hs].
  unfold method. rewrite Ht. change ("::" ++ "push")%string with "::push"%string. rewrite Hc by (assumption || lia).
  destruct (incr_push C s data) as [[s' o]| |]; cbn [as_out returned rmap read_push]; rewrite ?read_vopt; reflexivity.
Qed.

Lemma text_chunk_sim prog n L P C enc Inv N pv :
  type_of pv = P -> computes_find prog P pv C enc Inv N ->
  (forall s data s' o, Inv s -> find_chunk_edge C s data = Ok (s', o) -> Inv s') -> Inv (to_search_state C) ->
  (N + L <= n)%nat -> Z.of_nat L < 2 ^ 63 ->
  method prog n pv "to_search_state" [] = Done ([pv], enc (to_search_state C)) ->
  exists CT, text_chunk_of prog n pv = Ok CT /\ exists e : search_state C -> search_state CT, simulates_chunk L C CT e Inv.
Proof.
  intros Ht Hc HI HI0 Hn HL H0. unfold text_chunk_of. rewrite H0. cbn [returned read_value bind].
  eexists. split; [reflexivity|]. exists enc. split; [reflexivity|]. split; [exact HI0|].
  intros s data Hs Hd. cbn [find_chunk_edge]. split; [|intros s' o; apply HI; exact Hs].
  unfold method. rewrite Ht. change ("::" ++ "find_chunk_edge")%string with "::find_chunk_edge"%string. rewrite Hc by (assumption || lia).
  destruct (find_chunk_edge C s data) as [[s' [o k]]| |]; cbn [as_out returned rmap read_find VPair vsize]; try reflexivity.
  change (String.eqb "," ",") with true. cbv iota. rewrite read_vopt, Nat2Z.id. reflexivity.
Qed.

(** ** What [push] and [find_chunk_edge] keep true *)

Lemma for_enum_keeps {S R A} (P : S -> Prop) (body : S -> nat -> A -> res (ctl S R)) :
  (forall s i x c, P s -> body s i x = Ok c -> match c with Next s' | Base.Return s' _ | Base.Break s' => P s' end) ->
  forall l i s c, P s -> for_enum body i l s = Ok c -> match c with Next s' | Base.Return s' _ | Base.Break s' => P s' end.
Proof.
  intros Hb l. induction l as [|x l IH]; intros i s c Hs; cbn [for_enum]; [intros [= <-]; exact Hs|].
  destruct (body s i x) as [c'| |] eqn:E; cbn [bind]; try discriminate. specialize (Hb _ _ _ _ Hs E).
  destruct c' as [s'|s' r|s']; [apply IH; exact Hb| |]; intros [= <-]; exact Hb.
Qed.

Lemma store_length {A} (l l' : list A) i x : store l i x = Ok l' -> length l' = length l.
Proof. unfold store. destruct (_ <? _)%nat; [|discriminate]. intros [= <-]. apply length_set_nth. Qed.

Ltac unbind := repeat match goal with
  | H : bind ?m _ = Ok _ |- _ => let E := fresh "Eb" in destruct m as [?| |] eqn:E; cbn [bind] in H; try discriminate H
  | H : (let '(_, _) := ?p in _) = Ok _ |- _ => destruct p
  | H : (if ?c then _ else _) = Ok _ |- _ => let E := fresh "Ec" in destruct c eqn:E; try discriminate H
  | H : match ?m with Next _ => _ | Base.Return _ _ => _ | Base.Break _ => _ end = Ok _ |- _ => destruct m
  | H : match ?m with Some _ => _ | None => _ end = Ok _ |- _ => destruct m
  | H : Ok _ = Ok _ |- _ => injection H; clear H; intros; subst
  end.

Lemma rollsum_keeps w s data s' o : Z.of_nat (length (rsi_window s)) < 2 ^ 64 ->
  incr_push (rollsum_incr w) s data = Ok (s', o) -> Z.of_nat (length (rsi_window s')) < 2 ^ 64.
Proof.
  cbn [incr_push rollsum_incr]. unfold rollsum_push. intros Hs H. unbind.
  all: match goal with E : for_enum _ _ _ _ = Ok _ |- _ =>
    apply (for_enum_keeps (fun s => Z.of_nat (length (rsi_window s)) < 2 ^ 64)) in E; [exact E| |exact Hs] end.
  all: clear; intros s i x c Hs H; unfold rollsum_push_body, roll_byte in H; unbind.
  all: cbn [rsi_window]; erewrite store_length by eassumption; exact Hs.
Qed.

Lemma buz_keeps p s data s' o : Z.of_nat (length (bzi_buf s)) < 2 ^ 64 ->
  incr_push (buz_incr p) s data = Ok (s', o) -> Z.of_nat (length (bzi_buf s')) < 2 ^ 64.
Proof.
  cbn [incr_push buz_incr]. unfold buz_push. intros Hs H. unbind.
  all: match goal with E : for_enum _ _ _ _ = Ok _ |- _ =>
    apply (for_enum_keeps (fun s => Z.of_nat (length (bzi_buf s)) < 2 ^ 64)) in E; [exact E| |exact Hs] end.
  all: clear; intros s i x c Hs H; unfold buz_push_body, buz_push_byte in H; unbind.
  all: cbn [buz_incr_reset bzi_buf]; erewrite store_length by eassumption; exact Hs.
Qed.

Lemma zstd_keeps p s data s' o : Z.of_nat (length (zi_window s)) < 2 ^ 64 ->
  incr_push (zstd_incr p) s data = Ok (s', o) -> Z.of_nat (length (zi_window s')) < 2 ^ 64.
Proof.
  cbn [incr_push zstd_incr]. unfold zstd_push.
  assert (R : forall use_len s1, Z.of_nat (length (zi_window s1)) < 2 ^ 64 -> zstd_push_rotate p use_len s1 data = Ok (s', o) ->
    Z.of_nat (length (zi_window s')) < 2 ^ 64).
  { intros use_len s1 Hs H. unfold zstd_push_rotate in H. unbind.
    all: match goal with E : for_enum _ _ _ _ = Ok _ |- _ =>
      apply (for_enum_keeps (fun s => Z.of_nat (length (zi_window s)) < 2 ^ 64)) in E; [exact E| |exact Hs] end.
    all: clear; intros s i x c Hs H; unfold zstd_push_body in H; unbind.
    all: cbn [zi_window]; erewrite store_length by eassumption; exact Hs. }
  intros Hs. destruct (zi_window_full s) eqn:Ef; cbn [negb]; [apply R; exact Hs|].
  assert (W : forall lo hi src w, copy_from_slice (zi_window s) lo hi src = Ok w -> length w = length (zi_window s)).
  { intros lo hi src w E. unfold copy_from_slice, sub_slice in E. unbind. rewrite !app_length, firstn_length, skipn_length. lia. }
  intros H.
  unbind; [cbn [zi_window] | eapply R; [|eassumption]; cbn [zi_window]]; erewrite W by eassumption; exact Hs.
Qed.

Lemma zpaq_feed_idx s v s' : 0 <= zs_idx s -> zpaq_feed s v = Ok s' -> 0 <= zs_idx s'.
Proof. unfold zpaq_feed, add_u64. intros Hs H. unbind. cbn [zs_idx]. lia. Qed.

Lemma zpaq_find_keeps p s data s' o : 0 <= zs_idx s -> find_chunk_edge (zpaq_chunk p) s data = Ok (s', o) -> 0 <= zs_idx s'.
Proof.
  cbn [find_chunk_edge zpaq_chunk]. unfold zpaq_find_chunk_edge. intros Hs H. unbind.
  all: match goal with E : for_enum _ _ _ _ = Ok _ |- _ =>
    apply (for_enum_keeps (fun s => 0 <= zs_idx s)) in E; [exact E| |exact Hs] end.
  all: clear; intros s i x c Hs H; unfold zpaq_fce_body in H; unbind; [cbn; lia|].
  all: eapply zpaq_feed_idx; eassumption.
Qed.

Lemma fastcdc_keeps p s data s' o : 0 <= fc_l s -> fastcdc_state_push p s data = Ok (s', o) -> 0 <= fc_l s'.
Proof.
  unfold fastcdc_state_push. intros Hs H.
  unfold add_u64 in H at 1. unbind; cbn [fc_l fastcdc_state_reset]; lia.
Qed.

(** ** Every built-in chunker *)

(** The constructor returns [pv], whose [to_chunk_incr] and [push] compute those of [C]. *)
Definition incr_text (prog : program) (n : nat) (hv : value) (c : config) (C : Incr) : Prop :=
  exists pv T enc Inv, text_instance prog n hv c = Ok pv /\ computes_push prog T C enc Inv 120 /\
    (forall s data s' o, Inv s -> incr_push C s data = Ok (s', o) -> Inv s') /\ Inv (incr_new C) /\
    method prog n pv "to_chunk_incr" [] = Done ([pv], enc (incr_new C)).
Definition chunk_text (prog : program) (n : nat) (hv : value) (c : config) (C : Chunk) : Prop :=
  exists pv enc Inv, text_instance prog n hv c = Ok pv /\ computes_find prog (type_of pv) pv C enc Inv 120 /\
    (forall s data s' o, Inv s -> find_chunk_edge C s data = Ok (s', o) -> Inv s') /\ Inv (to_search_state C) /\
    method prog n pv "to_search_state" [] = Done ([pv], enc (to_search_state C)).

Section All.
Variable u : program.

Lemma fastcdc_keeps_find p s data s' o : 0 <= fc_l s -> find_chunk_edge (fastcdc_chunk p) s data = Ok (s', o) -> 0 <= fc_l s'.
Proof.
  cbn [find_chunk_edge fastcdc_chunk]. unfold fastcdc_find_chunk_edge. intros Hs H.
  destruct (fastcdc_state_push p s data) as [[s1 r]| |] eqn:E; cbn [bind] in H; try discriminate.
  destruct r; injection H as <- <-; eapply fastcdc_keeps; eassumption.
Qed.

Definition instance_value (hv : value) (c : config) : res value :=
  match c with
  | CfgMii w => Ok (enc_Mii (mii_with_w w))
  | CfgRam w => Ok (enc_Ram (ram_with_w w))
  | CfgGear n => rmap enc_Gear32 (gear_with_average_size_log2 n)
  | CfgPigz b => rmap enc_Pigz (pigz_with_bits b)
  | CfgGzip w m => Ok (enc_Gzip (gzip_with_window_and_modulus w m))
  | CfgFastCdc g min normal max => Ok (enc_FastCdc (fastcdc_new g min normal max))
  | CfgRollSum w => Ok (enc_RollSum (rollsum_with_window w))
  | CfgBuzHash k mask h max => rmap (enc_Buz hv) (buzhash_new k mask h max)
  | CfgZpaq f r => rmap enc_Zpaq (zpaq_with_average_and_range f r)
  | CfgZstd t => rmap enc_Zstd (zstd_with_target_section_size t)
  end.

Lemma text_instance_all n hv c : typed c -> (120 <= n)%nat -> text_instance (crate u) n hv c = instance_value hv c.
Proof.
  assert (R : forall A (f : A -> value) vs (r : res A),
    returned read_value (as_out (fun p => (vs, f p)) r) = rmap f r) by (intros A f vs [a| |]; reflexivity).
  intros HT Hn. unfold text_instance, is_u64 in *.
  destruct c as [w|w|k|b|w m|g lo nrm hi|w|k mask h mx|f r|t]; cbn [ctor_name ctor_args instance_value typed] in *; unfold is_u64 in *.
  - rewrite src_mii_with_w by lia. reflexivity.
  - rewrite src_ram_with_w by lia. reflexivity.
  - rewrite src_gear_with_average_size_log2 by lia. apply R.
  - rewrite src_pigz_with_bits by lia. apply R.
  - change (VInt Usize (Z.of_nat w)) with (vsize w). rewrite src_gzip_with_window_and_modulus by lia. reflexivity.
  - rewrite src_fastcdc_new by lia. reflexivity.
  - change (VInt Usize (Z.of_nat w)) with (vsize w). rewrite src_rollsum_with_window by lia. reflexivity.
  - change (VInt Usize (Z.of_nat k)) with (vsize k). rewrite (src_buzhash_new u n k mask hv h mx) by lia. apply R.
  - change (VPair (enc_bound (start_bound r)) (enc_bound (end_bound r))) with (enc_range_value (RTuple (start_bound r) (end_bound r))).
    rewrite src_zpaq_with_average_and_range by lia. rewrite R. destruct r; reflexivity.
  - rewrite src_zstd_with_target by lia. apply R.
Qed.

Lemma buzhash_new_inv k mask h mx p : buzhash_new k mask h mx = Ok p -> bz_k p = k /\ bz_h p = h.
Proof. unfold buzhash_new. intros H. unbind; split; reflexivity. Qed.

Ltac push_text lem :=
  split; [reflexivity|]; split; [eexists; reflexivity|]; intros; cbn [append]; apply lem; (assumption || lia).
Ltac no_inv := split; [trivial|]; split; [trivial|].
Ltac new_text lem :=
  unfold method; cbn [type_of enc_Mii enc_Ram enc_Gear32 enc_Pigz enc_Gzip enc_FastCdc enc_RollSum enc_Buz enc_Zpaq enc_Zstd append];
  apply lem; lia.

Theorem incr_text_all n hv c : typed c -> fits (crate u) hv c -> (120 <= n)%nat ->
  match incr_of c with
  | Ok C => incr_text (crate u) n hv c C
  | Panic => text_instance (crate u) n hv c = Panic
  | Diverge => text_instance (crate u) n hv c = Diverge
  end.
Proof.
  intros HT HF Hn. unfold incr_text. rewrite text_instance_all by assumption.
  destruct c as [w|w|k|b|w m|g lo nrm hi|w|k mask h mx|f r|t]; cbn [incr_of instance_value typed fits] in *; unfold is_u64 in *.
  - exists (enc_Mii w), "MiiIncr"%string, enc_MiiIncr, (fun _ => True). split; [reflexivity|].
    split; [push_text (src_mii_push u)|]. no_inv. new_text src_mii_to_chunk_incr.
  - exists (enc_Ram w), "RamIncr"%string, (enc_RamIncr w), (fun _ => True). split; [reflexivity|].
    split; [push_text (src_ram_push u)|]. no_inv. new_text src_ram_to_chunk_incr.
  - destruct (gear_with_average_size_log2 k) as [p| |]; cbn [bind rmap]; try reflexivity.
    exists (enc_Gear32 p), "GearIncr32"%string, (enc_GearIncr p), (fun _ => True). split; [reflexivity|].
    split; [push_text (src_gear_push u)|]. no_inv. new_text src_gear_to_chunk_incr.
  - destruct (pigz_with_bits b) as [p| |]; cbn [bind rmap]; try reflexivity.
    exists (enc_Pigz p), "PigzRsyncableIncr"%string, (enc_PigzIncr p), (fun _ => True). split; [reflexivity|].
    split; [push_text (src_pigz_push u)|]. no_inv. new_text src_pigz_to_chunk_incr.
  - set (p := gzip_with_window_and_modulus w m).
    exists (enc_Gzip p), "GzipRsyncableIncr"%string, (enc_GzipIncr p), (fun _ => True). split; [reflexivity|].
    split; [push_text (src_gzip_push u)|]. no_inv. new_text src_gzip_to_chunk_incr.
  - set (p := fastcdc_new g lo nrm hi). assert (Hp : fc_min_size p < 2 ^ 64) by (cbn; lia).
    exists (enc_FastCdc p), "FastCdcIncr"%string, (enc_FcIncr p), (fun s => 0 <= fc_l s). split; [reflexivity|].
    split; [push_text (src_fastcdc_push u)|].
    split; [intros s data s' o; apply fastcdc_keeps|]. split; [cbn; lia|]. new_text src_fastcdc_to_chunk_incr.
  - exists (enc_RollSum w), "RollSumIncr"%string, enc_RsIncr, (fun s => Z.of_nat (length (rsi_window s)) < 2 ^ 64). split; [reflexivity|].
    split; [push_text (src_rollsum_push u)|].
    split; [intros s data s' o; apply rollsum_keeps|]. split; [cbn [incr_new rollsum_incr rollsum_incr_new rsi_window]; rewrite repeat_length; exact HF|].
    new_text src_rollsum_to_chunk_incr.
  - destruct (buzhash_new k mask h mx) as [p| |] eqn:Ep; cbn [bind rmap]; try reflexivity.
    apply buzhash_new_inv in Ep. destruct Ep as [Ek Eh], HF as [Hk Hh]. rewrite <- Ek in Hk. rewrite <- Eh in Hh.
    exists (enc_Buz hv p), "BuzHashIncr"%string, (enc_BuzIncr hv p), (fun s => Z.of_nat (length (bzi_buf s)) < 2 ^ 64). split; [reflexivity|].
    split; [push_text (src_buz_push u)|].
    split; [intros s data s' o; apply buz_keeps|].
    split; [cbn [incr_new buz_incr buz_incr_new bzi_buf]; rewrite repeat_length; exact Hk|].
    new_text src_buz_to_chunk_incr.
  - destruct (zpaq_with_average_and_range f r) as [p| |]; cbn [bind rmap]; try reflexivity.
    exists (enc_Zpaq p), "ZpaqIncr"%string, (enc_ZpaqIncr p), (fun _ => True). split; [reflexivity|].
    split; [push_text (src_zpaq_push u)|]. no_inv. new_text src_zpaq_to_chunk_incr.
  - destruct (zstd_with_target_section_size t) as [p| |]; cbn [bind rmap]; try reflexivity.
    exists (enc_Zstd p), "ZstdIncr"%string, (enc_ZstdIncr p), (fun s => Z.of_nat (length (zi_window s)) < 2 ^ 64). split; [reflexivity|].
    split; [push_text (src_zstd_push u)|].
    split; [intros s data s' o; apply zstd_keeps|]. split; [cbn; lia|]. new_text src_zstd_to_chunk_incr.
Qed.

Ltac find_text lem := intros ? ? ? ? ? ?; cbn [append type_of]; apply lem; (assumption || lia).

Theorem chunk_text_all n hv c : typed c -> fits (crate u) hv c -> (120 <= n)%nat ->
  match chunk_of c with
  | Ok C => chunk_text (crate u) n hv c C
  | Panic => text_instance (crate u) n hv c = Panic
  | Diverge => text_instance (crate u) n hv c = Diverge
  end.
Proof.
  intros HT HF Hn. unfold chunk_text. rewrite text_instance_all by assumption.
  destruct c as [w|w|k|b|w m|g lo nrm hi|w|k mask h mx|f r|t]; cbn [chunk_of instance_value typed fits] in *; unfold is_u64 in *.
  - exists (enc_Mii w), enc_MiiSearch, (fun _ => True). split; [reflexivity|].
    split; [find_text (src_mii_find_chunk_edge u)|]. no_inv. new_text src_mii_to_search_state.
  - exists (enc_Ram w), enc_RamState, (fun _ => True). split; [reflexivity|].
    split; [find_text (src_ram_find_chunk_edge u)|]. no_inv. new_text src_ram_to_search_state.
  - destruct (gear_with_average_size_log2 k) as [p| |]; cbn [bind rmap]; try reflexivity.
    exists (enc_Gear32 p), enc_GearState, (fun _ => True). split; [reflexivity|].
    split; [find_text (src_gear_find_chunk_edge u)|]. no_inv. new_text src_gear_to_search_state.
  - destruct (pigz_with_bits b) as [p| |]; cbn [bind rmap]; try reflexivity.
    exists (enc_Pigz p), enc_PigzSearch, (fun _ => True). split; [reflexivity|].
    split; [find_text (src_pigz_find_chunk_edge u)|]. no_inv. new_text src_pigz_to_search_state.
  - set (p := gzip_with_window_and_modulus w m).
    exists (enc_Gzip p), enc_GzipSearch, (fun _ => True). split; [reflexivity|].
    split; [find_text (src_gzip_find_chunk_edge u)|]. no_inv. new_text src_gzip_to_search_state.
  - set (p := fastcdc_new g lo nrm hi). assert (Hp : fc_min_size p < 2 ^ 64) by (cbn; lia).
    exists (enc_FastCdc p), enc_FcState, (fun s => 0 <= fc_l s). split; [reflexivity|].
    split; [find_text (src_fastcdc_find_chunk_edge u)|].
    split; [intros s data s' o; apply fastcdc_keeps_find|]. split; [cbn; lia|]. new_text src_fastcdc_to_search_state.
  - exists (enc_RollSum w), enc_RsSearch, (fun _ => True). split; [reflexivity|].
    split; [find_text (src_rollsum_find_chunk_edge u)|]. no_inv. new_text src_rollsum_to_search_state.
  - destruct (buzhash_new k mask h mx) as [p| |] eqn:Ep; cbn [bind rmap]; try reflexivity.
    apply buzhash_new_inv in Ep. destruct Ep as [Ek Eh], HF as [Hk Hh]. rewrite <- Eh in Hh.
    exists (enc_Buz hv p), enc_BuzSearch, (fun _ => True). split; [reflexivity|].
    split; [find_text (src_buz_find_chunk_edge u)|]. no_inv. new_text src_buz_to_search_state.
  - destruct (zpaq_with_average_and_range f r) as [p| |]; cbn [bind rmap]; try reflexivity.
    exists (enc_Zpaq p), enc_ZpaqSearch, (fun s => 0 <= zs_idx s). split; [reflexivity|].
    split; [find_text (src_zpaq_find_chunk_edge u)|].
    split; [intros s data s' o; apply zpaq_find_keeps|]. split; [cbn; lia|]. new_text src_zpaq_to_search_state.
  - destruct (zstd_with_target_section_size t) as [p| |]; cbn [bind rmap]; try reflexivity.
    exists (enc_Zstd p), enc_ZstdSearch, (fun _ => True). split; [reflexivity|].
    split; [find_text (src_zstd_find_chunk_edge u)|]. no_inv. new_text src_zstd_to_search_state.
Qed.

End All.

(** ** The slice iterators of the source *)

Definition read_next (finals : list value) (v : value) : option (value * option value) :=
  match finals, v with
  | [it], VCon c [] => if String.eqb c "None" then Some (it, None) else None
  | [it], VCon c [x] => if String.eqb c "Some" then Some (it, Some x) else None
  | _, _ => None
  end.
Definition read_taken (finals : list value) (v : value) : option (value * value) :=
  match finals with [it] => Some (it, v) | _ => None end.
Definition read_remainder (finals : list value) (v : value) : option value :=
  match v with VCon c [_; r] => if String.eqb c "," then Some r else None | _ => None end.

(** [it.next()], [it.take_rem()] and the second component of [it.into_parts()]. *)
Definition text_next (prog : program) (n : nat) (it : value) : res (value * option value) :=
  returned read_next (method prog n it "next" []).
Definition text_take_rem (prog : program) (n : nat) (it : value) : res (value * value) :=
  returned read_taken (method prog n it "take_rem" []).
Definition text_remainder (prog : program) (n : nat) (it : value) : res value :=
  returned read_remainder (method prog n it "into_parts" []).

(** [instance.to_chunk_incr().iter_slices(data)] and the same with [iter_slices_strict]. *)
Definition text_iter (prog : program) (n : nat) (hv : value) (c : config) (f : string) (data : list byte) : res value :=
  pv <- text_instance prog n hv c ;;
  s0 <- returned read_value (method prog n pv "to_chunk_incr" []) ;;
  returned read_value (call prog n f [s0; vbytes data]).

Lemma take_next_sim {I J A B} (f : I -> J) (g : A -> B) (P : I -> Prop) (na : I -> res (I * option A)) (nb : J -> res (J * option B)) :
  (forall it, P it -> nb (f it) = rmap (fun '(it', o) => (f it', option_map g o)) (na it) /\ forall it' o, na it = Ok (it', o) -> P it') ->
  forall k it, P it ->
    take_next nb k (f it) = rmap (fun '(l, it') => (map g l, f it')) (take_next na k it) /\
    forall l it', take_next na k it = Ok (l, it') -> P it'.
Proof.
  intros H k. induction k as [|k IH]; intros it Hi; cbn [take_next]; [split; [reflexivity|intros l it' [= <- <-]; exact Hi]|].
  destruct (H it Hi) as [-> K]. destruct (na it) as [[it1 o]| |]; cbn [rmap bind]; try (split; [reflexivity|discriminate]).
  destruct (IH it1 (K it1 o eq_refl)) as [-> K1]. destruct (take_next na k it1) as [[l it2]| |]; cbn [rmap bind]; try (split; [reflexivity|discriminate]).
  split; [destruct o; reflexivity|]. intros l' it' [= <- <-]. exact (K1 l it2 eq_refl).
Qed.

Lemma collect_sim {I J A B} (f : I -> J) (g : A -> B) (P : I -> Prop) (na : I -> res (I * option A)) (nb : J -> res (J * option B)) :
  (forall it, P it -> nb (f it) = rmap (fun '(it', o) => (f it', option_map g o)) (na it) /\ forall it' o, na it = Ok (it', o) -> P it') ->
  forall fuel it, P it ->
    collect nb fuel (f it) = rmap (fun '(l, it') => (map g l, f it')) (collect na fuel it) /\
    forall l it', collect na fuel it = Ok (l, it') -> P it'.
Proof.
  intros H k. induction k as [|k IH]; intros it Hi; cbn [collect]; [split; [reflexivity|discriminate]|].
  destruct (H it Hi) as [-> K]. destruct (na it) as [[it1 o]| |]; cbn [rmap bind]; try (split; [reflexivity|discriminate]).
  destruct o as [v|]; cbn [option_map].
  - destruct (IH it1 (K it1 _ eq_refl)) as [-> K1]. destruct (collect na k it1) as [[l it2]| |]; cbn [rmap bind]; try (split; [reflexivity|discriminate]).
    split; [reflexivity|]. intros l' it' [= <- <-]. exact (K1 l it2 eq_refl).
  - split; [reflexivity|]. intros l' it' [= <- <-]. exact (K _ _ eq_refl).
Qed.

Section Iter.
Variable u : program.
Variable T : string.
Variable C : Incr.
Variable enc : incr_state C -> value.
Variable Inv : incr_state C -> Prop.
Variable n L : nat.
Hypothesis HC : computes_push (crate u) T C enc Inv 120.
Hypothesis HI : forall s data s' o, Inv s -> incr_push C s data = Ok (s', o) -> Inv s'.
Hypothesis Hn : (140 + L <= n)%nat.
Hypothesis HL : Z.of_nat L < 2 ^ 63.

Definition ready (it : SliceIter C) : Prop := Inv (it_chunker it) /\ (length (it_rem it) <= L)%nat.

Lemma text_next_sim it : ready it ->
  text_next (crate u) n (enc_Iter enc it) = rmap (fun '(it', o) => (enc_Iter enc it', option_map vbytes o)) (iter_slices_next it) /\
  forall it' o, iter_slices_next it = Ok (it', o) -> ready it'.
Proof.
  intros [H1 H2]. split.
  - unfold text_next, method. cbn [type_of enc_Iter append]. fold (enc_Iter enc it).
    rewrite (src_iter_slices_next u T C enc Inv 120 HC) by (assumption || lia).
    destruct (iter_slices_next it) as [[it' [v|]]| |]; reflexivity.
  - intros it' o E. assert (K := iter_next_inv _ _ _ _ E). split.
    + unfold iter_slices_next in E. destruct (it_rem it) eqn:Er; [injection E as <- _; exact H1|].
      destruct (incr_push C (it_chunker it) (b :: l)) as [[st r]| |] eqn:Ep; cbn [bind] in E; try discriminate.
      apply HI in Ep; [|exact H1]. destruct r as [k|]; [|injection E as <- _; exact Ep].
      destruct (split_at (b :: l) k) as [[v rn]| |]; cbn [bind] in E; try discriminate. injection E as <- _. exact Ep.
    + destruct o as [v|]; [|destruct K as [_ ->]; exact H2]. destruct K as [K _]. rewrite K, app_length in H2. lia.
Qed.

Lemma text_strict_next_sim it : ready it ->
  text_next (crate u) n (enc_IterStrict enc it) = rmap (fun '(it', o) => (enc_IterStrict enc it', option_map vbytes o)) (iter_slices_strict_next it) /\
  forall it' o, iter_slices_strict_next it = Ok (it', o) -> ready it'.
Proof.
  intros [H1 H2]. split.
  - unfold text_next, method. cbn [type_of enc_IterStrict append]. fold (enc_IterStrict enc it).
    rewrite (src_iter_slices_strict_next u T C enc Inv 120 HC) by (assumption || lia).
    destruct (iter_slices_strict_next it) as [[it' [v|]]| |]; reflexivity.
  - intros it' o E. assert (K := strict_next_inv _ _ _ _ E). destruct o as [v|]; destruct K as [K1 K2]; apply HI in K2; try exact H1; split; try exact K2.
    + rewrite K1, app_length in H2. lia.
    + rewrite K1. exact H2.
Qed.

Lemma text_take_rem_sim it : text_take_rem (crate u) n (enc_IterStrict enc it) =
  Ok (enc_IterStrict enc (fst (take_rem it)), vbytes (snd (take_rem it))).
Proof.
  unfold text_take_rem, method. cbn [type_of enc_IterStrict append]. fold (enc_IterStrict enc it).
  rewrite src_take_rem by lia. reflexivity.
Qed.

Lemma text_remainder_sim it : text_remainder (crate u) n (enc_Iter enc it) = Ok (vbytes (snd (into_parts it))).
Proof.
  unfold text_remainder, method. cbn [type_of enc_Iter append]. fold (enc_Iter enc it).
  rewrite src_into_parts by lia. reflexivity.
Qed.

Lemma text_remainder_strict_sim it : text_remainder (crate u) n (enc_IterStrict enc it) = Ok (vbytes (snd (into_parts it))).
Proof.
  unfold text_remainder, method. cbn [type_of enc_IterStrict append]. fold (enc_IterStrict enc it).
  rewrite src_into_parts_strict by lia. reflexivity.
Qed.

End Iter.
