(** * Release: the same code built without overflow checks.

    A release build wraps where the model of the other files says [Panic]; indexing, slicing, [unwrap], [assert!] and division by zero
    panic in both.  Only functions with such an operation appear here; the lines cited are those of the checked version. *)

From Verif Require Import Base Api Tables Range Mii Ram Gear Pigz Gzip FastCdc Bup BuzHash Zpaq Zstd Builtin.

(** [a + b], [a - b], [a * b], [a << n] on [u64] and [u32] without checks: the result modulo the word size ([words_wrap] below: written with a
    test to have it also for integers that are no words); the shift amount is taken modulo the width. *)
Definition add_w64 (a b : Z) : Z := if a + b <? two64 then a + b else wrap64 (a + b).
Definition sub_w64 (a b : Z) : Z := if b <=? a then a - b else wrap64 (a - b).
Definition mul_w64 (a b : Z) : Z := if a * b <? two64 then a * b else wrap64 (a * b).
Definition shl_w64 (a n : Z) : Z := wrap64 (Z.shiftl a (n mod 64)).
Definition sub_w32 (a b : Z) : Z := if b <=? a then a - b else wrap32 (a - b).
Definition shl_w32 (a n : Z) : Z := wrap32 (Z.shiftl a (n mod 32)).
(** [a - b] on [usize] where both are indices. *)
Definition sub_wsize (a b : nat) : nat := if Nat.leb b a then (a - b)%nat else Z.to_nat (wrap64 (Z.of_nat a - Z.of_nat b)).

Lemma words_wrap : forall a b, is_u64 a -> is_u64 b ->
  add_w64 a b = (a + b) mod 2 ^ 64 /\ sub_w64 a b = (a - b) mod 2 ^ 64 /\ mul_w64 a b = (a * b) mod 2 ^ 64 /\
  (is_u32 a -> is_u32 b -> sub_w32 a b = (a - b) mod 2 ^ 32).
Proof.
  intros a b Ha Hb. unfold is_u64, is_u32, add_w64, sub_w64, mul_w64, sub_w32, wrap64, wrap32, two64, two32 in *. repeat split.
  - destruct (Z.ltb_spec (a + b) (2 ^ 64)); [symmetry; apply Z.mod_small; lia|reflexivity].
  - destruct (Z.leb_spec b a); [symmetry; apply Z.mod_small; lia|reflexivity].
  - destruct (Z.ltb_spec (a * b) (2 ^ 64)); [symmetry; apply Z.mod_small; nia|reflexivity].
  - intros Ha' Hb'. destruct (Z.leb_spec b a); [symmetry; apply Z.mod_small; lia|reflexivity].
Qed.

(** ** src/mii.rs:123-140 *)
Definition mii_push_body_r (s : MiiIncr) (i : nat) (b : byte) : res (ctl MiiIncr nat) :=
  if byte_gtb b (mii_prev s) then
    let inc := add_w64 (mii_increment s) 1 in
    if inc =? mii_w s then
      Ok (Return {| mii_w := mii_w s; mii_prev := x00; mii_increment := 0 |} (i + 1)%nat)
    else
      Ok (Next {| mii_w := mii_w s; mii_prev := b; mii_increment := inc |})
  else
    Ok (Next {| mii_w := mii_w s; mii_prev := b; mii_increment := 0 |}).
Definition mii_push_r (s : MiiIncr) (input : list byte) : res (MiiIncr * option nat) :=
  r <- for_enum mii_push_body_r 0 input s ;;
  match r with
  | Return s' k => Ok (s', Some k)
  | Next s' | Break s' => Ok (s', None)
  end.
Definition mii_find_chunk_edge_r (s : MiiIncr) (data : list byte) : res (MiiIncr * (option nat * nat)) :=
  '(s', r) <- mii_push_r s data ;;
  match r with
  | Some v => Ok (mii_reset s', (Some v, v))
  | None => Ok (s', (None, length data))
  end.

(** ** src/ram.rs:62-81 *)
Definition ram_push_body_r (w i : Z) (s : RamState) (l_i : nat) (b : byte) : res (ctl RamState nat) :=
  if byte_geb b (ram_max_val s) then
    let ri := add_w64 (Z.of_nat l_i) i in
    if w <? ri then
      Ok (Return {| ram_i := 0; ram_max_val := x00 |} l_i)
    else
      Ok (Next {| ram_i := ram_i s; ram_max_val := b |})
  else
    Ok (Next s).
Definition ram_state_push_r (w : Z) (s : RamState) (data : list byte) : res (RamState * option nat) :=
  r <- for_enum (ram_push_body_r w (ram_i s)) 0 data s ;;
  match r with
  | Return s' k => Ok (s', Some k)
  | Next s' | Break s' => Ok ({| ram_i := add_w64 (ram_i s') (Z.of_nat (length data)); ram_max_val := ram_max_val s' |}, None)
  end.
Definition ram_find_chunk_edge_r (w : Z) (s : RamState) (data : list byte) : res (RamState * (option nat * nat)) :=
  '(s', r) <- ram_state_push_r w s data ;;
  match r with
  | Some i => Ok (s', (Some (i + 1)%nat, (i + 1)%nat))
  | None => Ok (s', (None, length data))
  end.

(** ** src/gear.rs:122-140; the shift amount [32 - log2] is a [usize] *)
Definition msb_mask_r (log2 : Z) : Z := shl_w32 (sub_w32 (shl_w32 1 log2) 1) (sub_w64 32 log2).
Definition gear_with_average_size_log2_r (average_size_log2 : Z) : Gear32 :=
  {| gear_mask := msb_mask_r average_size_log2; gear_xxx := 0; gear_gear := GEAR_32 |}.

(** ** src/pigz.rs:15-19 *)
Definition pigz_with_bits_r (bits : Z) : PigzRsyncable :=
  let mask := sub_w32 (shl_w32 1 bits) 1 in
  let hit := Z.shiftr mask 1 in
  {| pigz_bits := bits; pigz_mask := mask; pigz_hit := hit |}.

(** ** src/fastcdc.rs:143-213 *)
Definition fastcdc_loop1_r (p : FastCdc) (data : list byte) (x : FcLocals) : res (ctl FcLocals nat) :=
  if Nat.leb (length data) (fl_i x) then Ok (Break x)
  else if fc_normal_size p <=? fl_gi x then Ok (Break x)
  else
    v <- index data (fl_i x) ;;
    fp <- fastcdc_roll p (fl_fp x) v ;;
    if Z.land fp MASK_S =? 0 then Ok (Return x (fl_i x))
    else Ok (Next {| fl_gi := add_w64 (fl_gi x) 1; fl_i := (fl_i x + 1)%nat; fl_fp := fp |}).
Definition fastcdc_loop2_r (p : FastCdc) (data : list byte) (x : FcLocals) : res (ctl FcLocals nat) :=
  if fc_max_size p <=? fl_gi x then Ok (Return x (fl_i x))
  else if Nat.leb (length data) (fl_i x) then Ok (Break x)
  else
    v <- index data (fl_i x) ;;
    fp <- fastcdc_roll p (fl_fp x) v ;;
    if Z.land fp MASK_L =? 0 then Ok (Return x (fl_i x))
    else Ok (Next {| fl_gi := add_w64 (fl_gi x) 1; fl_i := (fl_i x + 1)%nat; fl_fp := fp |}).
Definition fastcdc_state_push_r (p : FastCdc) (s : FastCdcState) (data : list byte)
  : res (FastCdcState * option nat) :=
  let gi := fc_l s in
  let ge := add_w64 (Z.of_nat (length data)) gi in
  if ge <=? fc_min_size p then
    Ok ({| fc_l := ge; fc_fp := fc_fp s |}, None)
  else
    let '(gi, i) := (if gi <=? fc_min_size p then
                       let skip := sub_w64 (fc_min_size p) gi in
                       (add_w64 gi skip, Z.to_nat skip)
                     else (gi, O)) in
    let x := {| fl_gi := gi; fl_i := i; fl_fp := fc_fp s |} in
    r1 <- loop (S (length data)) (fastcdc_loop1_r p data) x ;;
    match r1 with
    | Return _ k => Ok (fastcdc_state_reset s, Some k)
    | Next x | Break x =>
        r2 <- loop (S (length data)) (fastcdc_loop2_r p data) x ;;
        match r2 with
        | Return _ k => Ok (fastcdc_state_reset s, Some k)
        | Next x | Break x => Ok ({| fc_l := ge; fc_fp := fl_fp x |}, None)
        end
    end.
Definition fastcdc_find_chunk_edge_r (p : FastCdc) (s : FastCdcState) (data : list byte)
  : res (FastCdcState * (option nat * nat)) :=
  '(s', r) <- fastcdc_state_push_r p s data ;;
  match r with
  | Some i => Ok (s', (Some (i + 1)%nat, (i + 1)%nat))
  | None => Ok (s', (None, length data))
  end.

(** ** src/bup.rs:197-234; [window.len() - 1] follows [window[wofs]] *)
Definition roll_byte_r (s : RollSumIncr) (ch : byte) : res RollSumIncr :=
  w <- index (rsi_window s) (rsi_wofs s) ;;
  let st := rollsum_add (length (rsi_window s)) w ch (rsi_state s) in
  win <- store (rsi_window s) (rsi_wofs s) ch ;;
  Ok {| rsi_state := st; rsi_wofs := Nat.land (rsi_wofs s + 1) (sub_wsize (length win) 1); rsi_window := win |}.
Definition rollsum_push_body_r (s : RollSumIncr) (i : nat) (v : byte) : res (ctl RollSumIncr nat) :=
  s' <- roll_byte_r s v ;;
  if rollsum_incr_at_split s' then Ok (Return s' (i + 1)%nat) else Ok (Next s').
Definition rollsum_push_r (s : RollSumIncr) (data : list byte) : res (RollSumIncr * option nat) :=
  r <- for_enum rollsum_push_body_r 0 data s ;;
  match r with
  | Return s' k => Ok (s', Some k)
  | Next s' | Break s' => Ok (s', None)
  end.

(** ** src/buzhash.rs:240-278 *)
Definition buz_push_byte_r (p : BuzHash) (s : BuzHashIncr) (val : byte) : res BuzHashIncr :=
  st <- (if Z.of_nat (bz_k p) <=? bzi_input_idx s then
           o <- index (bzi_buf s) (bzi_buf_idx s) ;;
           buz_add_overflow p (bzi_state s) val o
         else buz_add p (bzi_state s) val) ;;
  buf <- store (bzi_buf s) (bzi_buf_idx s) val ;;
  idx <- rem_usize (bzi_buf_idx s + 1) (bz_k p) ;;
  Ok {| bzi_state := st; bzi_buf := buf; bzi_buf_idx := idx; bzi_input_idx := add_w64 (bzi_input_idx s) 1 |}.
Definition buz_push_body_r (p : BuzHash) (s : BuzHashIncr) (i : nat) (v : byte) : res (ctl BuzHashIncr nat) :=
  s' <- buz_push_byte_r p s v ;;
  if Z.land (bzi_state s') (bz_mask p) =? bz_mask p then Ok (Return (buz_incr_reset s') (i + 1)%nat)
  else if bz_max_chunk_size p <? bzi_input_idx s' then Ok (Return (buz_incr_reset s') (i + 1)%nat)
  else Ok (Next s').
Definition buz_push_r (p : BuzHash) (s : BuzHashIncr) (data : list byte) : res (BuzHashIncr * option nat) :=
  r <- for_enum (buz_push_body_r p) 0 data s ;;
  match r with
  | Return s' k => Ok (s', Some k)
  | Next s' | Break s' => Ok (s', None)
  end.

(** ** src/zpaq.rs:62-146, 190-262 *)
Definition fragment_ave_from_range_r (r : range) : Z :=
  match end_bound r with
  | Included i => fragment_ave_from_max i
  | Excluded i => fragment_ave_from_max (sub_w64 i 1)
  | Unbounded =>
      match start_bound r with
      | Included i => fragment_ave_from_max (mul_w64 64 i)
      | Excluded i => fragment_ave_from_max (mul_w64 64 (add_w64 i 1))
      | Unbounded => 16
      end
  end.
Definition range_from_fragment_ave_r (fragment_ave : Z) : res range :=
  _ <- rust_assert (fragment_ave <=? 32) ;;
  _ <- rust_assert (10 <=? fragment_ave) ;;
  Ok (Included (shl_w64 64 (fragment_ave - 10)), Excluded (shl_w64 8128 fragment_ave)).
Definition max_hash_from_fragment_ave_r (fragment_ave : Z) : res Z :=
  _ <- rust_assert (fragment_ave <=? 32) ;;
  Ok (shl_w32 1 (32 - fragment_ave)).
Definition zpaq_with_average_and_range_r (average_size_pow_2 : Z) (r : range) : res Zpaq :=
  let t := into_tuple r in
  mh <- max_hash_from_fragment_ave_r average_size_pow_2 ;;
  Ok {| zq_range := t; zq_max_hash := mh |}.
Definition zpaq_with_range_r (r : range) : res Zpaq := zpaq_with_average_and_range_r (fragment_ave_from_range_r r) r.
Definition zpaq_with_average_size_pow_2_r (average_size_pow_2 : Z) : res Zpaq :=
  r <- range_from_fragment_ave_r average_size_pow_2 ;;
  zpaq_with_average_and_range_r average_size_pow_2 r.
Definition zpaq_with_max_size_r (max : Z) : res Zpaq :=
  zpaq_with_average_and_range_r (fragment_ave_from_max max) (range_from_max max).

Definition zpaq_feed_r (s : ZpaqState) (v : byte) : res ZpaqState :=
  st <- zpaq_hash_feed (zs_state s) v ;;
  Ok {| zs_state := st; zs_idx := add_w64 (zs_idx s) 1 |}.
Definition zpaq_fce_body_r (p : Zpaq) (s : ZpaqState) (i : nat) (v : byte) : res (ctl ZpaqState nat) :=
  s' <- zpaq_feed_r s v ;;
  if zpaq_split_here p (zh_hash (zs_state s')) (add_w64 (zs_idx s') 1) then Ok (Return zpaq_state_default (i + 1)%nat)
  else Ok (Next s').
Definition zpaq_find_chunk_edge_r (p : Zpaq) (s : ZpaqState) (data : list byte)
  : res (ZpaqState * (option nat * nat)) :=
  r <- for_enum (zpaq_fce_body_r p) 0 data s ;;
  match r with
  | Return s' k => Ok (s', (Some k, k))
  | Next s' | Break s' => Ok (s', (None, length data))
  end.
Definition zpaq_push_body_r (p : Zpaq) (s : ZpaqState) (i : nat) (v : byte) : res (ctl ZpaqState nat) :=
  s' <- zpaq_feed_r s v ;;
  if zpaq_split_here p (zh_hash (zs_state s')) (zs_idx s') then Ok (Return (zpaq_state_reset s') (i + 1)%nat)
  else Ok (Next s').
Definition zpaq_push_r (p : Zpaq) (s : ZpaqState) (data : list byte) : res (ZpaqState * option nat) :=
  r <- for_enum (zpaq_push_body_r p) 0 data s ;;
  match r with
  | Return s' k => Ok (s', Some k)
  | Next s' | Break s' => Ok (s', None)
  end.

(** ** src/zstd.rs:59-71, 189-264 *)
Definition zstd_with_target_section_size_r (target_section_size : Z) : res Zstd :=
  job_size_mb <- try_into_u32 (Z.shiftr target_section_size 20) ;;
  _ <- rust_assert (negb (job_size_mb =? 0)) ;;
  let rsync_bits := Z.lxor (leading_zeros_u32 job_size_mb) 31 + 20 in
  let hit_mask := sub_w64 (shl_w64 1 rsync_bits) 1 in
  let prime_power := wrapping_pow_u64 PRIME_8_BYTES (RSYNC_LENGTH - 1) in
  Ok {| zd_hit_mask := hit_mask; zd_prime_power := prime_power |}.
Definition zstd_fce_body_r (p : Zstd) (data : list byte) (h : ZstdState) (i : nat) : res (ctl ZstdState nat) :=
  to_remove <- index data (sub_wsize i RSYNC_LENGTH) ;;
  to_add <- index data i ;;
  let h' := zstd_rotate h to_remove to_add (zd_prime_power p) in
  if zstd_at_split p h' then Ok (Return h' (i + 1)%nat) else Ok (Next h').
Definition zstd_find_chunk_edge_r (p : Zstd) (s : ZstdSearchState) (data : list byte)
  : res (ZstdSearchState * (option nat * nat)) :=
  s1 <- (if Nat.ltb (zss_offset s) RSYNC_LENGTH then
           seed_b <- sub_slice data (zss_offset s) (Nat.min RSYNC_LENGTH (length data)) ;;
           Ok {| zss_state := zstd_append (zss_state s) seed_b; zss_offset := zss_offset s + length seed_b |}
         else Ok s) ;;
  if Nat.ltb (zss_offset s1) RSYNC_LENGTH then Ok (s1, (None, O))
  else
    r <- for_range (zstd_fce_body_r p data) (zss_offset s1) (length data - zss_offset s1) (zss_state s1) ;;
    let discard_ct := (length data - RSYNC_LENGTH)%nat in   (* saturating_sub *)
    match r with
    | Return h k => Ok ({| zss_state := h; zss_offset := zss_offset s1 |}, (Some k, discard_ct))
    | Next h | Break h =>
        let keep_ct := (length data - discard_ct)%nat in
        Ok ({| zss_state := h; zss_offset := keep_ct |}, (None, discard_ct))
    end.
Definition zstd_push_r (p : Zstd) (s : ZstdIncr) (data : list byte) : res (ZstdIncr * option nat) :=
  if negb (zi_window_full s) then
    let use_len := Nat.min (sub_wsize (length (zi_window s)) (zi_window_offs s)) (length data) in
    src <- sub_slice data 0 use_len ;;
    win <- copy_from_slice (zi_window s) (zi_window_offs s) (zi_window_offs s + use_len) src ;;
    let offs := (zi_window_offs s + use_len)%nat in
    if negb (Nat.eqb offs (length win)) then
      Ok ({| zi_state := zi_state s; zi_window := win; zi_window_offs := offs; zi_window_full := false |}, None)
    else
      zstd_push_rotate p use_len
        {| zi_state := zstd_append (zi_state s) win; zi_window := win; zi_window_offs := 0; zi_window_full := true |} data
  else zstd_push_rotate p 0 s data.

(** ** All of them *)
Definition incr_release (c : config) : res Incr :=
  match c with
  | CfgMii w => Ok {| incr_state := MiiIncr; incr_new := mii_incr_new (mii_with_w w); incr_push := mii_push_r |}
  | CfgRam w => Ok {| incr_state := RamState; incr_new := ram_state_default; incr_push := ram_state_push_r (ram_with_w w) |}
  | CfgGear n => Ok (gear_incr (gear_with_average_size_log2_r n))
  | CfgPigz b => Ok (pigz_incr (pigz_with_bits_r b))
  | CfgGzip w m => Ok (gzip_incr (gzip_with_window_and_modulus w m))
  | CfgFastCdc g min normal max =>
      Ok {| incr_state := FastCdcState; incr_new := fastcdc_state_default; incr_push := fastcdc_state_push_r (fastcdc_new g min normal max) |}
  | CfgRollSum w => Ok {| incr_state := RollSumIncr; incr_new := rollsum_incr_new (rollsum_with_window w); incr_push := rollsum_push_r |}
  | CfgBuzHash k mask h max =>
      p <- buzhash_new k mask h max ;; Ok {| incr_state := BuzHashIncr; incr_new := buz_incr_new p; incr_push := buz_push_r p |}
  | CfgZpaq f r =>
      p <- zpaq_with_average_and_range_r f r ;; Ok {| incr_state := ZpaqState; incr_new := zpaq_state_default; incr_push := zpaq_push_r p |}
  | CfgZstd t =>
      p <- zstd_with_target_section_size_r t ;; Ok {| incr_state := ZstdIncr; incr_new := zstd_incr_new; incr_push := zstd_push_r p |}
  end.

Definition chunk_release (c : config) : res Chunk :=
  match c with
  | CfgMii w => Ok {| search_state := MiiIncr; to_search_state := mii_incr_new (mii_with_w w); find_chunk_edge := mii_find_chunk_edge_r |}
  | CfgRam w => Ok {| search_state := RamState; to_search_state := ram_state_default; find_chunk_edge := ram_find_chunk_edge_r (ram_with_w w) |}
  | CfgGear n => Ok (gear_chunk (gear_with_average_size_log2_r n))
  | CfgPigz b => Ok (pigz_chunk (pigz_with_bits_r b))
  | CfgGzip w m => Ok (gzip_chunk (gzip_with_window_and_modulus w m))
  | CfgFastCdc g min normal max =>
      Ok {| search_state := FastCdcState; to_search_state := fastcdc_state_default;
            find_chunk_edge := fastcdc_find_chunk_edge_r (fastcdc_new g min normal max) |}
  | CfgRollSum w => Ok (rollsum_chunk (rollsum_with_window w))
  | CfgBuzHash k mask h max => p <- buzhash_new k mask h max ;; Ok (buz_chunk p)
  | CfgZpaq f r =>
      p <- zpaq_with_average_and_range_r f r ;;
      Ok {| search_state := ZpaqState; to_search_state := zpaq_state_default; find_chunk_edge := zpaq_find_chunk_edge_r p |}
  | CfgZstd t =>
      p <- zstd_with_target_section_size_r t ;;
      Ok {| search_state := ZstdSearchState; to_search_state := zstd_search_default; find_chunk_edge := zstd_find_chunk_edge_r p |}
  end.

(** ** Where the checked build does not panic, the release build does the same *)
Definition refines {A} (m m' : res A) : Prop := forall x, m = Ok x -> m' = Ok x.

Lemma refines_refl : forall A (m : res A), refines m m.
Proof. intros A m x E. exact E. Qed.
Lemma refines_panic : forall A (m : res A), refines Panic m.
Proof. intros A m x E. discriminate. Qed.
Lemma refines_bind : forall A B (m m' : res A) (f f' : A -> res B), refines m m' -> (forall a, refines (f a) (f' a)) -> refines (bind m f) (bind m' f').
Proof. intros A B m m' f f' H K x E. destruct m as [a| |] eqn:Em; cbn [bind] in E; try discriminate. rewrite (H a eq_refl). exact (K a x E). Qed.
Lemma refines_let : forall A B (m : res A) (a' : A) (f : A -> res B) (t : res B), refines m (Ok a') -> refines (f a') t -> refines (bind m f) t.
Proof. intros A B m a' f t H K x E. destruct m as [a| |] eqn:Em; cbn [bind] in E; try discriminate. assert (W := H a eq_refl). inversion W; subst. exact (K x E). Qed.

Lemma refines_enum : forall S R A (f g : S -> nat -> A -> res (ctl S R)), (forall s i v, refines (f s i v) (g s i v)) ->
  forall data i s, refines (for_enum f i data s) (for_enum g i data s).
Proof.
  intros S R A f g H. induction data as [|v d IH]; intros i s; [apply refines_refl|]. cbn [for_enum]. apply refines_bind; [apply H|].
  intros [s'|s' r|s']; [apply IH|apply refines_refl|apply refines_refl].
Qed.
Lemma refines_range : forall S R (f g : S -> nat -> res (ctl S R)), (forall s i, refines (f s i) (g s i)) ->
  forall n lo s, refines (for_range f lo n s) (for_range g lo n s).
Proof.
  intros S R f g H. induction n as [|n IH]; intros lo s; [apply refines_refl|]. cbn [for_range]. apply refines_bind; [apply H|].
  intros [s'|s' r|s']; [apply IH|apply refines_refl|apply refines_refl].
Qed.
Lemma refines_loop : forall S R (f g : S -> res (ctl S R)), (forall s, refines (f s) (g s)) ->
  forall n s, refines (loop n f s) (loop n g s).
Proof.
  intros S R f g H. induction n as [|n IH]; intros s; [apply refines_refl|]. cbn [loop]. apply refines_bind; [apply H|].
  intros [s'|s' r|s']; [apply IH|apply refines_refl|apply refines_refl].
Qed.

Lemma add_u64_r : forall a b, refines (add_u64 a b) (Ok (add_w64 a b)).
Proof. intros a b x E. unfold add_u64, add_w64 in *. destruct (a + b <? two64); [exact E|discriminate]. Qed.
Lemma sub_u64_r : forall a b, refines (sub_u64 a b) (Ok (sub_w64 a b)).
Proof. intros a b x E. unfold sub_u64, sub_w64 in *. destruct (b <=? a); [exact E|discriminate]. Qed.
Lemma mul_u64_r : forall a b, refines (mul_u64 a b) (Ok (mul_w64 a b)).
Proof. intros a b x E. unfold mul_u64, mul_w64 in *. destruct (a * b <? two64); [exact E|discriminate]. Qed.
Lemma sub_u32_r : forall a b, refines (sub_u32 a b) (Ok (sub_w32 a b)).
Proof. intros a b x E. unfold sub_u32, sub_w32 in *. destruct (b <=? a); [exact E|discriminate]. Qed.
Lemma sub_usize_r : forall a b, refines (sub_usize a b) (Ok (sub_wsize a b)).
Proof. intros a b x E. unfold sub_usize, sub_wsize in *. destruct (Nat.leb b a); [exact E|discriminate]. Qed.
Lemma shl_u32_r : forall a n, refines (shl_u32 a n) (Ok (shl_w32 a n)).
Proof.
  intros a n x E. unfold shl_u32, shl_w32 in *. destruct (Z.leb_spec 0 n); destruct (Z.ltb_spec n 32); cbn [andb] in E; try discriminate. rewrite (Z.mod_small n 32) by lia. exact E.
Qed.
Lemma shl_u64_r : forall a n, refines (shl_u64 a n) (Ok (shl_w64 a n)).
Proof.
  intros a n x E. unfold shl_u64, shl_w64 in *. destruct (Z.leb_spec 0 n); destruct (Z.ltb_spec n 64); cbn [andb] in E; try discriminate. rewrite (Z.mod_small n 64) by lia. exact E.
Qed.

Ltac refine_step :=
  match goal with
  | |- refines ?m ?m => apply refines_refl
  | |- refines (if ?b then _ else _) (if ?b then _ else _) => destruct b
  | |- refines (bind (for_enum _ _ _ _) _) (bind (for_enum _ _ _ _) _) => apply refines_bind; [apply refines_enum; intros|intros [?|? ?|?]]
  | |- refines (bind (for_range _ _ _ _) _) (bind (for_range _ _ _ _) _) => apply refines_bind; [apply refines_range; intros|intros [?|? ?|?]]
  | |- refines (bind (loop _ _ _) _) (bind (loop _ _ _) _) => apply refines_bind; [apply refines_loop; intros|intros [?|? ?|?]]
  end.

Lemma mii_push_refines : forall s d, refines (mii_push s d) (mii_push_r s d).
Proof.
  intros s d. unfold mii_push, mii_push_r. refine_step; try refine_step. unfold mii_push_body, mii_push_body_r.
  destruct (byte_gtb _ _); [|apply refines_refl]. apply (refines_let _ _ _ _ _ _ (add_u64_r _ _)). apply refines_refl.
Qed.
Lemma mii_find_refines : forall s d, refines (mii_find_chunk_edge s d) (mii_find_chunk_edge_r s d).
Proof. intros s d. apply refines_bind; [apply mii_push_refines|]. intros a. apply refines_refl. Qed.

Lemma ram_push_refines : forall w s d, refines (ram_state_push w s d) (ram_state_push_r w s d).
Proof.
  intros w s d. unfold ram_state_push, ram_state_push_r. refine_step; try refine_step.
  - unfold ram_push_body, ram_push_body_r. destruct (byte_geb _ _); [|apply refines_refl]. apply (refines_let _ _ _ _ _ _ (add_u64_r _ _)). apply refines_refl.
  - apply (refines_let _ _ _ _ _ _ (add_u64_r _ _)). apply refines_refl.
  - apply (refines_let _ _ _ _ _ _ (add_u64_r _ _)). apply refines_refl.
Qed.
Lemma ram_find_refines : forall w s d, refines (ram_find_chunk_edge w s d) (ram_find_chunk_edge_r w s d).
Proof. intros w s d. apply refines_bind; [apply ram_push_refines|]. intros a. apply refines_refl. Qed.

Lemma gear_new_refines : forall n, is_u64 n -> refines (gear_with_average_size_log2 n) (Ok (gear_with_average_size_log2_r n)).
Proof.
  intros n Hn x E. unfold gear_with_average_size_log2, gear_with_average_size_log2_r in *.
  destruct (msb_mask n) as [m| |] eqn:Em; cbn [bind] in E; try discriminate. inversion E; subst. do 2 f_equal.
  unfold msb_mask in Em. destruct (shl_u32 1 n) as [a| |] eqn:E1; cbn [bind] in Em; try discriminate. apply shl_u32_r in E1. injection E1 as E1.
  destruct (sub_u32 a 1) as [b| |] eqn:E2; cbn [bind] in Em; try discriminate. apply sub_u32_r in E2. injection E2 as E2.
  destruct (Z.leb_spec n 32) as [G|G]; cbn [bind] in Em; try discriminate. apply shl_u32_r in Em. injection Em as Em.
  unfold msb_mask_r. rewrite E1, E2. rewrite <- Em. f_equal. unfold sub_w64. destruct (Z.leb_spec n 32); [reflexivity|lia].
Qed.

Lemma pigz_new_refines : forall b, refines (pigz_with_bits b) (Ok (pigz_with_bits_r b)).
Proof.
  intros b x E. unfold pigz_with_bits, pigz_with_bits_r in *. destruct (shl_u32 1 b) as [a| |] eqn:E1; cbn [bind] in E; try discriminate. apply shl_u32_r in E1. injection E1 as E1.
  destruct (sub_u32 a 1) as [m| |] eqn:E2; cbn [bind] in E; try discriminate. apply sub_u32_r in E2. injection E2 as E2. rewrite E1, E2. exact E.
Qed.

Lemma fastcdc_loop1_refines : forall p d x, refines (fastcdc_loop1 p d x) (fastcdc_loop1_r p d x).
Proof.
  intros p d x. unfold fastcdc_loop1, fastcdc_loop1_r. do 2 refine_step; try refine_step. apply refines_bind; [apply refines_refl|intros v]. apply refines_bind; [apply refines_refl|intros fp].
  refine_step; try refine_step. apply (refines_let _ _ _ _ _ _ (add_u64_r _ _)). apply refines_refl.
Qed.
Lemma fastcdc_loop2_refines : forall p d x, refines (fastcdc_loop2 p d x) (fastcdc_loop2_r p d x).
Proof.
  intros p d x. unfold fastcdc_loop2, fastcdc_loop2_r. do 2 refine_step; try refine_step. apply refines_bind; [apply refines_refl|intros v]. apply refines_bind; [apply refines_refl|intros fp].
  refine_step; try refine_step. apply (refines_let _ _ _ _ _ _ (add_u64_r _ _)). apply refines_refl.
Qed.
Lemma fastcdc_push_refines : forall p s d, refines (fastcdc_state_push p s d) (fastcdc_state_push_r p s d).
Proof.
  intros p s d. unfold fastcdc_state_push, fastcdc_state_push_r. cbv zeta.
  intros x E. destruct (add_u64 (Z.of_nat (length d)) (fc_l s)) as [ge| |] eqn:Ege; cbn [bind] in E; try discriminate. apply add_u64_r in Ege. injection Ege as Ege. rewrite Ege.
  destruct (ge <=? fc_min_size p); [exact E|].
  assert (K : refines (if fc_l s <=? fc_min_size p then skip <- sub_u64 (fc_min_size p) (fc_l s);; gi' <- add_u64 (fc_l s) skip;; Ok (gi', Z.to_nat skip) else Ok (fc_l s, 0%nat))
    (Ok (if fc_l s <=? fc_min_size p then (add_w64 (fc_l s) (sub_w64 (fc_min_size p) (fc_l s)), Z.to_nat (sub_w64 (fc_min_size p) (fc_l s))) else (fc_l s, 0%nat)))).
  { intros y Y. destruct (fc_l s <=? fc_min_size p); [|exact Y]. destruct (sub_u64 _ _) as [sk| |] eqn:E1; cbn [bind] in Y; try discriminate. apply sub_u64_r in E1. injection E1 as E1. rewrite E1.
    destruct (add_u64 _ _) as [gi| |] eqn:E2; cbn [bind] in Y; try discriminate. apply add_u64_r in E2. injection E2 as E2. rewrite E2. exact Y. }
  destruct (if fc_l s <=? fc_min_size p then _ else _) as [[gi i]| |] eqn:E1 in E; cbn [bind] in E; try discriminate. apply K in E1. injection E1 as E1. rewrite E1.
  revert x E. match goal with |- forall x, ?m = Ok x -> ?m' = Ok x => change (refines m m') end.
  refine_step; [apply fastcdc_loop1_refines| |apply refines_refl|]; (refine_step; [apply fastcdc_loop2_refines| | |]; apply refines_refl).
Qed.
Lemma fastcdc_find_refines : forall p s d, refines (fastcdc_find_chunk_edge p s d) (fastcdc_find_chunk_edge_r p s d).
Proof. intros p s d. apply refines_bind; [apply fastcdc_push_refines|]. intros a. apply refines_refl. Qed.

Lemma rollsum_push_refines : forall s d, refines (rollsum_push s d) (rollsum_push_r s d).
Proof.
  intros s d. unfold rollsum_push, rollsum_push_r. refine_step; try refine_step. unfold rollsum_push_body, rollsum_push_body_r. apply refines_bind; [|intros a; apply refines_refl].
  unfold roll_byte, roll_byte_r. apply refines_bind; [apply refines_refl|intros w]. cbv zeta. apply refines_bind; [apply refines_refl|intros win].
  apply (refines_let _ _ _ _ _ _ (sub_usize_r _ _)). apply refines_refl.
Qed.

Lemma buz_push_refines : forall p s d, refines (buz_push p s d) (buz_push_r p s d).
Proof.
  intros p s d. unfold buz_push, buz_push_r. refine_step; try refine_step. unfold buz_push_body, buz_push_body_r. apply refines_bind; [|intros a; apply refines_refl].
  unfold buz_push_byte, buz_push_byte_r. do 3 (apply refines_bind; [apply refines_refl|intros ?]).
  apply (refines_let _ _ _ _ _ _ (add_u64_r _ _)). apply refines_refl.
Qed.

Lemma zpaq_new_refines : forall f r, refines (zpaq_with_average_and_range f r) (zpaq_with_average_and_range_r f r).
Proof.
  intros f r. apply refines_bind; [|intros a; apply refines_refl]. apply refines_bind; [apply refines_refl|intros []]. apply shl_u32_r.
Qed.
Lemma zpaq_ave_refines : forall f, refines (zpaq_with_average_size_pow_2 f) (zpaq_with_average_size_pow_2_r f).
Proof.
  intros f. apply refines_bind; [|intros r; apply zpaq_new_refines]. unfold range_from_fragment_ave, range_from_fragment_ave_r. do 2 (apply refines_bind; [apply refines_refl|intros []]).
  intros x E. destruct (shl_u64 64 _) as [lo| |] eqn:E1; cbn [bind] in E; try discriminate. apply shl_u64_r in E1. injection E1 as ->.
  destruct (shl_u64 8128 _) as [hi| |] eqn:E2; cbn [bind] in E; try discriminate. apply shl_u64_r in E2. injection E2 as ->. exact E.
Qed.
Lemma zpaq_max_refines : forall m, refines (zpaq_with_max_size m) (zpaq_with_max_size_r m).
Proof. intros m. apply zpaq_new_refines. Qed.
Lemma zpaq_range_refines : forall r, refines (zpaq_with_range r) (zpaq_with_range_r r).
Proof.
  intros r x E. unfold zpaq_with_range, zpaq_with_range_r in *. destruct (fragment_ave_from_range r) as [f| |] eqn:Ef; cbn [bind] in E; try discriminate.
  assert (K : fragment_ave_from_range_r r = f); [|rewrite K; exact (zpaq_new_refines f r x E)].
  unfold fragment_ave_from_range, fragment_ave_from_range_r in *. destruct (end_bound r) as [i|i|]; [congruence| |].
  - destruct (sub_u64 i 1) as [v| |] eqn:E1; cbn [bind] in Ef; try discriminate. apply sub_u64_r in E1. congruence.
  - destruct (start_bound r) as [i|i|]; [| |congruence].
    + destruct (mul_u64 64 i) as [v| |] eqn:E1; cbn [bind] in Ef; try discriminate. apply mul_u64_r in E1. congruence.
    + destruct (add_u64 i 1) as [j| |] eqn:E1; cbn [bind] in Ef; try discriminate. apply add_u64_r in E1. injection E1 as ->.
      destruct (mul_u64 64 j) as [v| |] eqn:E2; cbn [bind] in Ef; try discriminate. apply mul_u64_r in E2. congruence.
Qed.

Lemma zpaq_feed_refines : forall s v, refines (zpaq_feed s v) (zpaq_feed_r s v).
Proof.
  intros s v x E. unfold zpaq_feed, zpaq_feed_r in *. destruct (add_u64 (zs_idx s) 1) as [i| |] eqn:E1; cbn [bind] in E; try discriminate. apply add_u64_r in E1. injection E1 as ->. exact E.
Qed.
Lemma zpaq_push_refines : forall p s d, refines (zpaq_push p s d) (zpaq_push_r p s d).
Proof.
  intros p s d. unfold zpaq_push, zpaq_push_r. refine_step; try refine_step. apply refines_bind; [apply zpaq_feed_refines|intros a; apply refines_refl].
Qed.
Lemma zpaq_find_refines : forall p s d, refines (zpaq_find_chunk_edge p s d) (zpaq_find_chunk_edge_r p s d).
Proof.
  intros p s d. unfold zpaq_find_chunk_edge, zpaq_find_chunk_edge_r. refine_step; try refine_step. apply refines_bind; [apply zpaq_feed_refines|intros a].
  apply (refines_let _ _ _ _ _ _ (add_u64_r _ _)). apply refines_refl.
Qed.

Lemma zstd_new_refines : forall t, refines (zstd_with_target_section_size t) (zstd_with_target_section_size_r t).
Proof.
  intros t. apply refines_bind; [apply refines_refl|intros j]. apply refines_bind; [apply refines_refl|intros []].
  intros x E. cbv zeta in E |- *. destruct (shl_u64 1 _) as [o| |] eqn:E1; cbn [bind] in E; try discriminate. apply shl_u64_r in E1. injection E1 as E1. rewrite E1.
  destruct (sub_u64 o 1) as [m| |] eqn:E2; cbn [bind] in E; try discriminate. apply sub_u64_r in E2. injection E2 as ->. exact E.
Qed.
Lemma zstd_find_refines : forall p s d, refines (zstd_find_chunk_edge p s d) (zstd_find_chunk_edge_r p s d).
Proof.
  intros p s d. unfold zstd_find_chunk_edge, zstd_find_chunk_edge_r. apply refines_bind; [apply refines_refl|intros s1]. destruct (Nat.ltb (zss_offset s1) RSYNC_LENGTH); [apply refines_refl|].
  apply refines_bind; [apply refines_range; intros|intros [?|? ?|?]; apply refines_refl]. unfold zstd_fce_body, zstd_fce_body_r.
  apply (refines_let _ _ _ _ _ _ (sub_usize_r _ _)). apply refines_refl.
Qed.
Lemma zstd_push_refines : forall p s d, refines (zstd_push p s d) (zstd_push_r p s d).
Proof.
  intros p s d. unfold zstd_push, zstd_push_r. destruct (negb (zi_window_full s)); [|apply refines_refl].
  intros x E. destruct (sub_usize _ _) as [room| |] eqn:E1; cbn [bind] in E; try discriminate. apply sub_usize_r in E1. injection E1 as ->. exact E.
Qed.
