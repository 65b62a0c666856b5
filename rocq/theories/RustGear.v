(** * RustGear: the text of src/gear.rs computes what the model in Gear.v computes. *)

From Coq Require Import String ZifyBool ZifyNat.
From Verif Require Import Base Api Tables Gear Rust RustText RustSim.
Open Scope list_scope.
Open Scope Z_scope.

Definition enc_Gear32 (p : Gear32) : value :=
  VStruct "Gear32" [("mask"%string, VInt U32 (gear_mask p)); ("xxx"%string, VInt U32 (gear_xxx p));
                    ("gear"%string, VList (map (VInt U32) (gear_gear p)))].
Definition enc_GearState (fp : GearState32) : value := VStruct "GearState32" [("fp"%string, VWrap U32 fp)].
Definition enc_GearIncr (p : Gear32) (s : GearState32) : value :=
  VStruct "GearIncr32" [("params"%string, enc_Gear32 p); ("state"%string, enc_GearState s)].

Ltac reduce_hook ::=
  cbn beta iota zeta delta
    [enc_Gear32 enc_GearState enc_GearIncr type_of get_field set_field assoc assoc_set String.eqb Ascii.eqb Bool.eqb obind
     gear_mask gear_xxx gear_gear].

Section Crate.
Variable u : program.

(** ** Construction *)

Lemma src_msb_mask n k : (20 <= n)%nat -> 0 <= k ->
  call (crate u) n "msb_mask" [VInt Usize k] = as_out (fun m => ([VInt Usize k], VInt U32 m)) (msb_mask k).
Proof.
  intros Hn Hk. start. enter. unfold msb_mask, shl_u32, sub_u32, wrap32, two32, as_out, bind.
  replace (0 <=? k) with true by lia. cbn [andb].
  cases. all: cbn [andb] in *; replace (0 <=? 32 - k) with true by lia; cbn [andb]; cases.
Qed.

Lemma src_gear_with_average_size_log2 n k : (40 <= n)%nat -> 0 <= k ->
  call (crate u) n "Gear32::with_average_size_log2" [VInt Usize k] =
  as_out (fun p => ([VInt Usize k], enc_Gear32 p)) (gear_with_average_size_log2 k).
Proof.
  intros Hn Hk. start. enter. rewrite src_msb_mask by lia. unfold gear_with_average_size_log2.
  destruct (msb_mask k); unfold as_out, bind; reduce; try reflexivity.
Qed.

Lemma src_gear_default n : (60 <= n)%nat ->
  call (crate u) n "Gear32::default" [] = as_out (fun p => ([], enc_Gear32 p)) gear_default.
Proof.
  intros Hn. start. enter. rewrite src_gear_with_average_size_log2 by lia. unfold gear_default.
  destruct (gear_with_average_size_log2 13); unfold as_out; reduce; reflexivity.
Qed.

Lemma src_gear_state_default n : (20 <= n)%nat ->
  call (crate u) n "GearState32::default" [] = Done ([], enc_GearState gear_state_default).
Proof. start. enter. reflexivity. Qed.

Lemma src_gear_to_search_state n p : (40 <= n)%nat ->
  call (crate u) n "Gear32::to_search_state" [enc_Gear32 p] = Done ([enc_Gear32 p], enc_GearState (to_search_state (gear_chunk p))).
Proof. start. enter. rewrite src_gear_state_default by lia. reduce. reflexivity. Qed.

Lemma src_gear_incr_from n p : (40 <= n)%nat ->
  call (crate u) n "GearIncr32::from<&Gear32>" [enc_Gear32 p] = Done ([enc_Gear32 p], enc_GearIncr p gear_state_default).
Proof. start. enter. rewrite src_gear_state_default by lia. reduce. reflexivity. Qed.

Lemma src_gear_to_chunk_incr n p : (60 <= n)%nat ->
  call (crate u) n "Gear32::to_chunk_incr" [enc_Gear32 p] = Done ([enc_Gear32 p], enc_GearIncr p (incr_new (gear_incr p))).
Proof. start. enter. rewrite src_gear_incr_from by lia. reduce. reflexivity. Qed.

(** ** Rolling *)

Lemma src_gear_state_reset n s : (20 <= n)%nat ->
  call (crate u) n "GearState32::reset" [enc_GearState s] = Done ([enc_GearState (gear_state_reset s)], VUnit).
Proof. start. enter. reflexivity. Qed.

Lemma src_gear_state_push n p s v : (20 <= n)%nat ->
  call (crate u) n "GearState32::push" [enc_GearState s; enc_Gear32 p; vbyte v] =
  as_out (fun '(s', hit) => ([enc_GearState s'; enc_Gear32 p; vbyte v], VBool hit)) (gear_state_push p s v).
Proof.
  start. enter. unfold gear_state_push, index. rewrite byte_mod, nth_error_map by lia.
  destruct (nth_error (gear_gear p) (Z.to_nat (b2z v))); unfold option_map, as_out, bind; reduce; reflexivity.
Qed.

(** ** push *)

Lemma src_gear_push n p s data : (60 <= n)%nat -> Z.of_nat (length data) < 2 ^ 64 ->
  call (crate u) n "GearIncr32::push" [enc_GearIncr p s; vbytes data] =
  as_out (fun '(s', o) => ([enc_GearIncr p s'; vbytes data], vopt o)) (incr_push (gear_incr p) s data).
Proof.
  intros Hn Hd. start. enter.
  sim_enum (fun _ : GearState32 => True) (fun s' => [("self"%string, enc_GearIncr p s'); ("data"%string, vbytes data)])
    (fun k => VSome (vsize k)) vbyte (gear_push_body p) data s.
  3: lia. 2: exact I.
  { intros s' i x _ Hi. split; [|tauto]. unfold lock. reduce.
    change (VInt U8 (b2z x)) with (vbyte x).
    rewrite src_gear_state_push by lia. unfold gear_push_body.
    destruct (gear_state_push p s' x) as [[s1 []]| |]; unfold as_out, bind, lift_ctl; reduce; try reflexivity. }
  cbn [incr_push gear_incr]. unfold gear_push.
  destruct (for_enum (gear_push_body p) 0 data s) as [[s'|s' k|s']| |]; unfold lift_loop, bind, as_out; reduce; reflexivity.
Qed.

(** ** find_chunk_edge *)

Lemma src_gear_find_chunk_edge n p s data : (60 <= n)%nat -> Z.of_nat (length data) < 2 ^ 64 ->
  call (crate u) n "Gear32::find_chunk_edge" [enc_Gear32 p; enc_GearState s; vbytes data] =
  as_out (fun '(s', (o, k)) => ([enc_Gear32 p; enc_GearState s'; vbytes data], VPair (vopt o) (vsize k)))
    (find_chunk_edge (gear_chunk p) s data).
Proof.
  intros Hn Hd. start. enter.
  sim_enum (fun _ : GearState32 => True)
    (fun s' => [("self"%string, enc_Gear32 p); ("state"%string, enc_GearState s'); ("data"%string, vbytes data)])
    (fun k => VPair (VSome (vsize k)) (vsize k)) vbyte (gear_fce_body p) data s.
  3: lia. 2: exact I.
  { intros s' i x _ Hi. split; [|tauto]. unfold lock. reduce.
    change (VInt U8 (b2z x)) with (vbyte x).
    rewrite src_gear_state_push by lia. unfold gear_fce_body.
    destruct (gear_state_push p s' x) as [[s1 []]| |]; unfold as_out, bind, lift_ctl; reduce; try reflexivity.
    rewrite src_gear_to_search_state by lia. reduce. cases. agree. }
  cbn [find_chunk_edge gear_chunk]. unfold gear_find_chunk_edge.
  destruct (for_enum (gear_fce_body p) 0 data s) as [[s'|s' k|s']| |]; unfold lift_loop, bind, as_out; reduce;
    rewrite ?map_length; reflexivity.
Qed.

End Crate.
