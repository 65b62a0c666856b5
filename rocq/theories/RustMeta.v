(** * RustMeta: facts about the evaluation of any program text.

    - More fuel changes nothing once there is enough.
    - A build without overflow checks ([release_op]) computes whatever the checked build computes without panic. *)

From Coq Require Import String.
From Verif Require Import Base Rust.
Open Scope list_scope.
Open Scope Z_scope.

(** ** Integer operators without overflow checks

    Results are reduced modulo the word size, shift amounts modulo the width; on operands in the range of their type this is
    plain modular arithmetic ([release_op_mod]).  Division by zero still panics. *)
Definition release_op (op : binop) (va vb : value) : out value :=
  match va, vb with
  | VInt t a, VInt u b =>
      match op with
      | Shl => Done (VInt t (Z.shiftl a (if b <? ity_bits t then b else b mod ity_bits t) mod ity_size t))
      | Shr => Done (VInt t (Z.shiftr a (if b <? ity_bits t then b else b mod ity_bits t)))
      | Add => if ity_eqb t u then Done (VInt t (if a + b <? ity_size t then a + b else (a + b) mod ity_size t)) else Stuck
      | Sub => if ity_eqb t u then Done (VInt t (if b <=? a then a - b else (a - b) mod ity_size t)) else Stuck
      | Mul => if ity_eqb t u then Done (VInt t (if a * b <? ity_size t then a * b else (a * b) mod ity_size t)) else Stuck
      | _ => bin_op op va vb
      end
  | _, _ => bin_op op va vb
  end.

(** [eval] (Rust.v) with the meaning [bop] of the integer operators. *)
Section By.
Variable bop : binop -> value -> value -> out value.
Fixpoint eval_by (prog : program) (n : nat) (rho : env) (e : expr) {struct n} : out (env * flow) :=
  match n with
  | O => NoFuel
  | S n' =>
      let ev := fun rho e => eval_by prog (gate rho n') rho e in
      let body_ev := eval_by prog (lock n') in
      let apply f rho args vs :=
        pure_then (call_with prog body_ev f vs) (fun '(finals, v) =>
        pure_then (write_back ev rho (params_of prog f) args finals) (fun rho' => Done (rho', Value v))) in
      match e with
      | Lit t z => Done (rho, Value (VInt t z))
      | BoolLit b => Done (rho, Value (VBool b))
      | Var x => ret rho (assoc rho x)
      | Field e f => andthen (ev rho e) (fun rho v => ret rho (get_field v f))
      | Index e i => andthen (ev rho e) (fun rho v => andthen (ev rho i) (fun rho vi => ret rho (get_index v vi)))
      | Slice e lo hi =>
          andthen (ev rho e) (fun rho v =>
          andthen (ev rho lo) (fun rho a =>
          andthen (ev rho hi) (fun rho b => ret rho (get_slice v a b))))
      | SliceFrom e lo =>
          andthen (ev rho e) (fun rho v =>
          andthen (ev rho lo) (fun rho a => ret rho (obind (len_of v) (fun b => get_slice v a b))))
      | SliceTo e hi =>
          andthen (ev rho e) (fun rho v =>
          andthen (ev rho hi) (fun rho b => ret rho (get_slice v (VInt Usize 0) b)))
      | Wrapping e =>
          andthen (ev rho e) (fun rho v => match v with VInt t z => Done (rho, Value (VWrap t z)) | _ => Stuck end)
      | Cast t e => andthen (ev rho e) (fun rho v => ret rho (cast t v))
      | Bin op a b => andthen (ev rho a) (fun rho va => andthen (ev rho b) (fun rho vb => ret rho (bop op va vb)))
      | Not e => andthen (ev rho e) (fun rho v => match v with VBool b => Done (rho, Value (VBool (negb b))) | _ => Stuck end)
      | And a b =>
          andthen (ev rho a) (fun rho v =>
          match v with VBool c => if c then ev rho b else Done (rho, Value (VBool false)) | _ => Stuck end)
      | Or a b =>
          andthen (ev rho a) (fun rho v =>
          match v with VBool c => if c then Done (rho, Value (VBool true)) else ev rho b | _ => Stuck end)
      | StructLit name decl fs =>
          evals ev rho (seconds fs) (fun rho vs =>
          pure_then (arrange decl (zip (firsts fs) vs)) (fun fs' => Done (rho, Value (VStruct name fs'))))
      | Con c es => evals ev rho es (fun rho vs => Done (rho, Value (VCon c vs)))
      | ListLit es => evals ev rho es (fun rho vs => Done (rho, Value (VList vs)))
      | Call f args => evals ev rho args (fun rho vs => apply f rho args vs)
      | Method m args =>
          evals ev rho args (fun rho vs =>
          match vs with
          | [] => Stuck
          | v :: _ => apply (append (type_of v) (append "::" m)) rho args vs
          end)
      | Prim p args => evals ev rho args (fun rho vs => ret rho (prim_op p vs))
      | MutPrim p place args =>
          andthen (ev rho place) (fun rho v =>
          evals ev rho args (fun rho vs =>
          pure_then (mutprim_op p v vs) (fun '(v', r) =>
          pure_then (assign ev rho place v') (fun rho' => Done (rho', Value r)))))
      | CopyFromSlice place lo hi src =>
          andthen (ev rho place) (fun rho v =>
          andthen (ev rho lo) (fun rho a =>
          andthen (ev rho hi) (fun rho b =>
          andthen (ev rho src) (fun rho s =>
          pure_then (copy_slice v a b s) (fun v' =>
          pure_then (assign ev rho place v') (fun rho' => Done (rho', Value VUnit)))))))
      | Swap p q =>
          andthen (ev rho p) (fun rho a =>
          andthen (ev rho q) (fun rho b =>
          pure_then (assign ev rho p b) (fun rho =>
          pure_then (assign ev rho q a) (fun rho => Done (rho, Value VUnit)))))
      | Let x e => andthen (ev rho e) (fun rho v => Done ((x, v) :: rho, Value VUnit))
      | LetPair x y e =>
          andthen (ev rho e) (fun rho v =>
          match v with VCon _ [a; b] => Done ((y, b) :: (x, a) :: rho, Value VUnit) | _ => Stuck end)
      | Assign place e =>
          andthen (ev rho e) (fun rho v => pure_then (assign ev rho place v) (fun rho' => Done (rho', Value VUnit)))
      | OpAssign op place e =>
          andthen (ev rho e) (fun rho v =>
          andthen (ev rho place) (fun rho old =>
          pure_then (bop op old v) (fun new =>
          pure_then (assign ev rho place new) (fun rho' => Done (rho', Value VUnit)))))
      | Block es => scoped [] rho (fun rho => seq ev rho es)
      | If c t f =>
          andthen (ev rho c) (fun rho v =>
          match v with VBool b => if b then ev rho t else ev rho f | _ => Stuck end)
      | Match e arms =>
          andthen (ev rho e) (fun rho v =>
          pure_then (select v arms) (fun '(bs, e') => scoped bs rho (fun rho => ev rho e')))
      | ForRange x lo hi body =>
          andthen (ev rho lo) (fun rho a =>
          andthen (ev rho hi) (fun rho b =>
          match a, b with
          | VInt Usize a, VInt Usize b =>
              iter_range (fun rho i => scoped [(x, VInt Usize i)] rho (fun rho => body_ev rho body)) a
                (Z.to_nat b - Z.to_nat a) rho
          | _, _ => Stuck
          end))
      | ForEnum i v e body =>
          andthen (ev rho e) (fun rho l =>
          match l with
          | VList l =>
              iter_enum (fun rho iz vv => scoped [(v, vv); (i, VInt Usize iz)] rho (fun rho => body_ev rho body)) 0 l rho
          | _ => Stuck
          end)
      | ForIn v e body =>
          andthen (ev rho e) (fun rho l =>
          match l with
          | VList l => iter_enum (fun rho _ vv => scoped [(v, vv)] rho (fun rho => body_ev rho body)) 0 l rho
          | _ => Stuck
          end)
      | Loop body => iter_loop n' (fun rho => body_ev rho body) rho
      | Break => Done (rho, Breaking)
      | Return e => andthen (ev rho e) (fun rho v => Done (rho, Returning v))
      end
  end.

End By.

Lemma eval_by_eval : forall prog n rho e, eval_by bin_op prog n rho e = eval prog n rho e.
Proof. reflexivity. Qed.

Notation call_by bop prog n f vs := (call_with prog (eval_by bop prog (lock n)) f vs).

(** ** The order *)

(** [m'] is [m], unless [m] ran out of fuel or ([p]) panicked. *)
Definition upto (p : Prop) {A} (m m' : out A) : Prop := m = NoFuel \/ (p /\ m = Panics) \/ m' = m.

Section Upto.
Variable p : Prop.
Notation "m <~ m'" := (upto p m m') (at level 70).

Lemma upto_refl {A} (m : out A) : m <~ m.
Proof. right. right. reflexivity. Qed.

Lemma upto_andthen m m' k k' : m <~ m' -> (forall rho v, k rho v <~ k' rho v) -> andthen m k <~ andthen m' k'.
Proof.
  intros [->|[[P ->]| ->]] H; [left; reflexivity|right; left; split; [exact P|reflexivity]|].
  destruct m as [[rho [v|v|]]| | |]; cbn [andthen]; try apply upto_refl. apply H.
Qed.

Lemma upto_pure_then {A} (m m' : out A) k k' : m <~ m' -> (forall a, k a <~ k' a) -> pure_then m k <~ pure_then m' k'.
Proof.
  intros [->|[[P ->]| ->]] H; [left; reflexivity|right; left; split; [exact P|reflexivity]|].
  destruct m; cbn [pure_then]; try apply upto_refl. apply H.
Qed.

Lemma upto_obind {A B} (m m' : out A) (k k' : A -> out B) : m <~ m' -> (forall a, k a <~ k' a) -> obind m k <~ obind m' k'.
Proof.
  intros [->|[[P ->]| ->]] H; [left; reflexivity|right; left; split; [exact P|reflexivity]|].
  destruct m; cbn [obind]; try apply upto_refl. apply H.
Qed.

Lemma upto_ret rho m m' : m <~ m' -> ret rho m <~ ret rho m'.
Proof.
  intros [->|[[P ->]| ->]]; [left; reflexivity|right; left; split; [exact P|reflexivity]|apply upto_refl].
Qed.

Lemma upto_scoped bs rho k k' : (forall r, k r <~ k' r) -> scoped bs rho k <~ scoped bs rho k'.
Proof.
  intros H. unfold scoped. destruct (H (env_app bs rho)) as [->|[[P ->]| ->]];
    [left; reflexivity|right; left; split; [exact P|reflexivity]|apply upto_refl].
Qed.

Section Ev.
Variables ev ev' : env -> expr -> out (env * flow).
Hypothesis Hev : forall rho e, ev rho e <~ ev' rho e.

Lemma upto_evals es : forall rho k k', (forall r vs, k r vs <~ k' r vs) -> evals ev rho es k <~ evals ev' rho es k'.
Proof.
  induction es as [|e es IH]; intros rho k k' H; cbn [evals]; [apply H|].
  apply upto_andthen; [apply Hev|]. intros r v. apply IH. intros r' vs. apply H.
Qed.

Lemma upto_seq es : forall rho, seq ev rho es <~ seq ev' rho es.
Proof.
  induction es as [|e es IH]; intros rho; cbn [seq]; [apply upto_refl|]. destruct es as [|e' es]; [apply Hev|].
  apply upto_andthen; [apply Hev|]. intros r _. apply IH.
Qed.

Lemma upto_assign pl : forall rho v, assign ev rho pl v <~ assign ev' rho pl v.
Proof.
  induction pl; intros rho w; cbn [assign]; try apply upto_refl.
  - destruct (Hev rho pl) as [->|[[P ->]| ->]]; [left; reflexivity|right; left; split; [exact P|reflexivity]|].
    destruct (ev rho pl) as [[r [old|old|]]| | |]; try apply upto_refl. apply upto_obind; [apply upto_refl|]. intros new. apply IHpl.
  - destruct (Hev rho pl1) as [->|[[P ->]| ->]]; [left; reflexivity|right; left; split; [exact P|reflexivity]|].
    destruct (ev rho pl1) as [[r [old|old|]]| | |]; try apply upto_refl.
    destruct (Hev rho pl2) as [->|[[P ->]| ->]]; [left; reflexivity|right; left; split; [exact P|reflexivity]|].
    destruct (ev rho pl2) as [[r2 [vi|vi|]]| | |]; try apply upto_refl. apply upto_obind; [apply upto_refl|]. intros new. apply IHpl1.
Qed.

Lemma upto_write_back ps : forall rho args vs, write_back ev rho ps args vs <~ write_back ev' rho ps args vs.
Proof.
  induction ps as [|[x m] ps IH]; intros rho args vs; cbn [write_back]; [destruct args, vs; apply upto_refl|].
  destruct m, args as [|a args], vs as [|v vs]; try apply upto_refl; [|apply IH].
  apply upto_obind; [apply upto_assign|]. intros r. apply IH.
Qed.

Lemma upto_call_with prog f vs : call_with prog ev f vs <~ call_with prog ev' f vs.
Proof.
  unfold call_with. destruct (prog f) as [[g|ps g]|]; try apply upto_refl. apply upto_obind; [apply upto_refl|]. intros rho0.
  destruct (Hev rho0 (fn_body g)) as [->|[[P ->]| ->]]; [left; reflexivity|right; left; split; [exact P|reflexivity]|apply upto_refl].
Qed.
End Ev.

Lemma upto_iter_enum b b' : (forall r i v, b r i v <~ b' r i v) -> forall l i rho, iter_enum b i l rho <~ iter_enum b' i l rho.
Proof.
  intros H l. induction l as [|v l IH]; intros i rho; cbn [iter_enum]; [apply upto_refl|].
  destruct (H rho i v) as [->|[[P ->]| ->]]; [left; reflexivity|right; left; split; [exact P|reflexivity]|].
  destruct (b rho i v) as [[r [w|w|]]| | |]; try apply upto_refl. apply IH.
Qed.

Lemma upto_iter_range b b' : (forall r i, b r i <~ b' r i) -> forall n lo rho, iter_range b lo n rho <~ iter_range b' lo n rho.
Proof.
  intros H n. induction n as [|n IH]; intros lo rho; cbn [iter_range]; [apply upto_refl|].
  destruct (H rho lo) as [->|[[P ->]| ->]]; [left; reflexivity|right; left; split; [exact P|reflexivity]|].
  destruct (b rho lo) as [[r [w|w|]]| | |]; try apply upto_refl. apply IH.
Qed.

Lemma upto_iter_loop b b' : (forall r, b r <~ b' r) -> forall n m, (n <= m)%nat -> forall rho, iter_loop n b rho <~ iter_loop m b' rho.
Proof.
  intros H n. induction n as [|n IH]; intros m Hm rho; cbn [iter_loop]; [left; reflexivity|]. destruct m as [|m]; [lia|].
  cbn [iter_loop]. destruct (H rho) as [->|[[P ->]| ->]]; [left; reflexivity|right; left; split; [exact P|reflexivity]|].
  destruct (b rho) as [[r [w|w|]]| | |]; try apply upto_refl. apply IH. lia.
Qed.

Variables bop bop' : binop -> value -> value -> out value.
Hypothesis Hbop : forall op a b, bop op a b <~ bop' op a b.

Theorem upto_eval prog : forall n m, (n <= m)%nat -> forall rho e, eval_by bop prog n rho e <~ eval_by bop' prog m rho e.
Proof.
  intros n. induction n as [|n IH]; intros m Hm rho e; [left; reflexivity|]. destruct m as [|m]; [lia|]. cbn [eval_by].
  assert (Hev : forall rho e, eval_by bop prog (gate rho n) rho e <~ eval_by bop' prog (gate rho m) rho e).
  { intros r e0. unfold gate. destruct r; apply IH; lia. }
  assert (Hbev : forall rho e, eval_by bop prog (lock n) rho e <~ eval_by bop' prog (lock m) rho e) by (intros r e0; unfold lock; apply IH; lia).
  destruct e;
  repeat first
    [ apply upto_refl | apply Hev | apply Hbev | apply Hbop
    | apply (upto_evals _ _ Hev); intros ? ? | apply (upto_seq _ _ Hev) | apply (upto_assign _ _ Hev)
    | apply (upto_write_back _ _ Hev) | apply (upto_call_with _ _ Hbev)
    | apply upto_andthen; [|intros ? ?] | apply upto_ret | apply upto_scoped; intros ?
    | apply upto_iter_enum; intros ? ? ? | apply upto_iter_range; intros ? ? | apply upto_iter_loop; [intros ?|lia]
    | apply upto_pure_then; [|intros ?]
    | match goal with |- upto _ (match ?x with _ => _ end) (match ?x with _ => _ end) => destruct x end ].
Qed.
End Upto.

Lemma upto_done p A (m m' : out A) x : upto p m m' -> m = Done x -> m' = Done x.
Proof. intros [H|[[_ H]|H]] E; rewrite H in *; congruence. Qed.

Lemma release_op_upto : forall op a b, upto True (bin_op op a b) (release_op op a b).
Proof.
  intros op a b. unfold bin_op, release_op. destruct a as [t a|t a|a|a|na fa|ca aa], b as [v b|v b|b|b|nb fb|cb ab]; try apply upto_refl.
  destruct op; try apply upto_refl; try destruct (ity_eqb t v); try apply upto_refl; cbn [int_op]; unfold checked;
    match goal with |- context [if ?c then _ else _] => destruct c end; try apply upto_refl; right; left; split; reflexivity || exact I.
Qed.

(** The result of an operator without checks, for operands in range. *)
Lemma release_op_mod : forall t a b, 0 <= a < ity_size t -> 0 <= b < ity_size t ->
  release_op Add (VInt t a) (VInt t b) = Done (VInt t ((a + b) mod ity_size t)) /\
  release_op Sub (VInt t a) (VInt t b) = Done (VInt t ((a - b) mod ity_size t)) /\
  release_op Mul (VInt t a) (VInt t b) = Done (VInt t ((a * b) mod ity_size t)) /\
  forall u n, 0 <= n ->
    release_op Shl (VInt t a) (VInt u n) = Done (VInt t (Z.shiftl a (n mod ity_bits t) mod ity_size t)) /\
    release_op Shr (VInt t a) (VInt u n) = Done (VInt t (Z.shiftr a (n mod ity_bits t))).
Proof.
  intros t a b Ha Hb. assert (Et : ity_eqb t t = true) by (destruct t; reflexivity). unfold release_op. rewrite Et.
  split; [|split; [|split]].
  - destruct (Z.ltb_spec (a + b) (ity_size t)); [rewrite Z.mod_small by lia|]; reflexivity.
  - destruct (Z.leb_spec b a); [rewrite Z.mod_small by lia|]; reflexivity.
  - destruct (Z.ltb_spec (a * b) (ity_size t)); [rewrite Z.mod_small by (split; [apply Z.mul_nonneg_nonneg; lia|assumption])|]; reflexivity.
  - intros v n Hn. destruct (Z.ltb_spec n (ity_bits t)); [rewrite (Z.mod_small n (ity_bits t)) by lia|]; split; reflexivity.
Qed.
