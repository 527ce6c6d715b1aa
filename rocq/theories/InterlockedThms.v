(** C48: interlocked bit operations. *)
From Coq Require Import ZArith Lia Bool List Arith.
From Verif Require Import Slots SlotsProofs InterlockedModel.
Import ListNotations.
Local Open Scope Z_scope.

(** * Single calls *)
Definition is_word (bits w : Z) : Prop := 0 <= w < 2 ^ bits.

Lemma word_bits : forall bits w, 0 <= bits -> 0 <= w -> (forall n, bits <= n -> Z.testbit w n = false) -> is_word bits w.
Proof.
  intros bits w B W H. split; [exact W|]. destruct (Z.eq_dec w 0) as [->|N]; [apply Z.pow_pos_nonneg; lia|].
  apply Z.log2_lt_pow2; [lia|]. destruct (Z.lt_ge_cases (Z.log2 w) bits) as [|G]; [assumption|].
  specialize (H _ G). rewrite Z.bit_log2 in H by lia. discriminate.
Qed.
Lemma word_high : forall bits w n, is_word bits w -> bits <= n -> Z.testbit w n = false.
Proof.
  intros bits w n [A B] N. destruct (Z.eq_dec w 0) as [->|]; [apply Z.bits_0|]. apply Z.bits_above_log2; [lia|].
  assert (Z.log2 w < bits) by (apply Z.log2_lt_pow2; lia). lia.
Qed.
Lemma mark_bits : forall off n, 0 <= off -> 0 <= n -> Z.testbit (Z.shiftl 1 off) n = (n =? off).
Proof.
  intros off n O N. rewrite Z.shiftl_1_l, Z.pow2_bits_eqb by lia. apply Z.eqb_sym.
Qed.
Lemma not32_bits : forall off n, 0 <= off < 32 -> 0 <= n ->
  Z.testbit (not32 (Z.shiftl 1 off)) n = (n <? 32) && negb (n =? off).
Proof.
  intros off n O N. unfold not32. replace (2 ^ 32 - 1 - Z.shiftl 1 off) with (Z.ldiff (Z.ones 32) (Z.shiftl 1 off)).
  - rewrite Z.ldiff_spec, mark_bits by lia. f_equal. destruct (Z.ltb_spec n 32).
    + apply Z.ones_spec_low. lia.
    + apply Z.ones_spec_high. lia.
  - rewrite <- Z.sub_nocarry_ldiff; [rewrite Z.ones_equiv; reflexivity|].
    apply Z.bits_inj'. intros k K. rewrite Z.ldiff_spec, mark_bits, Z.bits_0 by lia.
    destruct (Z.eqb_spec k off) as [->|]; [|reflexivity]. rewrite Z.ones_spec_low by lia. reflexivity.
Qed.
Lemma land_mark : forall off w, 0 <= off -> negb (Z.land w (Z.shiftl 1 off) =? 0) = Z.testbit w off.
Proof.
  intros off w O. destruct (Z.testbit w off) eqn:T.
  - destruct (Z.eqb_spec (Z.land w (Z.shiftl 1 off)) 0) as [E|]; [|reflexivity]. exfalso.
    assert (Z.testbit (Z.land w (Z.shiftl 1 off)) off = true) by (rewrite Z.land_spec, mark_bits, T, Z.eqb_refl by lia; reflexivity).
    rewrite E, Z.bits_0 in H. discriminate.
  - apply negb_false_iff, Z.eqb_eq, Z.bits_inj'. intros n N. rewrite Z.land_spec, mark_bits, Z.bits_0 by lia.
    destruct (Z.eqb_spec n off) as [->|]; [rewrite T|apply andb_false_r]; reflexivity.
Qed.

(** BitSet gives the old bit and sets exactly this bit. *)
Theorem C48_BitSet32 : forall off w, 0 <= off < 32 -> is_word 32 w ->
  exists w', BitSet32 off w = Some (Z.testbit w off, w') /\ is_word 32 w' /\
    forall n, 0 <= n -> Z.testbit w' n = if n =? off then true else Z.testbit w n.
Proof.
  intros off w O W. unfold BitSet32, mark. rewrite (proj2 (Z.ltb_lt off 32)) by lia. rewrite land_mark by lia.
  eexists. split; [reflexivity|].
  assert (B : forall n, 0 <= n -> Z.testbit (Z.lor w (Z.shiftl 1 off)) n = if n =? off then true else Z.testbit w n).
  { intros n N. rewrite Z.lor_spec, mark_bits by lia. destruct (n =? off); [apply orb_true_r|apply orb_false_r]. }
  split; [|exact B]. apply word_bits; [lia|apply Z.lor_nonneg; split; [apply W|apply Z.shiftl_nonneg; lia]|].
  intros n N. rewrite B by lia. rewrite (proj2 (Z.eqb_neq n off)) by lia. apply (word_high 32); assumption.
Qed.
Print Assumptions C48_BitSet32.

Theorem C48_BitReset32 : forall off w, 0 <= off < 32 -> is_word 32 w ->
  exists w', BitReset32 off w = Some (Z.testbit w off, w') /\ is_word 32 w' /\
    forall n, 0 <= n -> Z.testbit w' n = if n =? off then false else Z.testbit w n.
Proof.
  intros off w O W. unfold BitReset32, mark. rewrite (proj2 (Z.ltb_lt off 32)) by lia. rewrite land_mark by lia.
  eexists. split; [reflexivity|].
  assert (B : forall n, 0 <= n -> Z.testbit (Z.land w (not32 (Z.shiftl 1 off))) n = if n =? off then false else Z.testbit w n).
  { intros n N. rewrite Z.land_spec, not32_bits by lia. destruct (Z.ltb_spec n 32).
    - destruct (n =? off); cbn; [apply andb_false_r|apply andb_true_r].
    - rewrite (word_high 32 w n) by assumption. destruct (n =? off); reflexivity. }
  split; [|exact B]. apply word_bits; [lia|apply Z.land_nonneg; left; apply W|].
  intros n N. rewrite B by lia. destruct (n =? off); [reflexivity|]. apply (word_high 32); assumption.
Qed.
Print Assumptions C48_BitReset32.

(** The 64-bit BitSet works for the low half ... *)
Theorem C48_BitSet64_partial : forall off w, 0 <= off < 32 -> is_word 64 w ->
  exists w', BitSet64 off w = Some (Z.testbit w off, w') /\ is_word 64 w' /\
    forall n, 0 <= n -> Z.testbit w' n = if n =? off then true else Z.testbit w n.
Proof.
  intros off w O W. unfold BitSet64, mark. rewrite (proj2 (Z.ltb_lt off 32)) by lia. rewrite land_mark by lia.
  eexists. split; [reflexivity|].
  assert (B : forall n, 0 <= n -> Z.testbit (Z.lor w (Z.shiftl 1 off)) n = if n =? off then true else Z.testbit w n).
  { intros n N. rewrite Z.lor_spec, mark_bits by lia. destruct (n =? off); [apply orb_true_r|apply orb_false_r]. }
  split; [|exact B]. apply word_bits; [lia|apply Z.lor_nonneg; split; [apply W|apply Z.shiftl_nonneg; lia]|].
  intros n N. rewrite B by lia. rewrite (proj2 (Z.eqb_neq n off)) by lia. apply (word_high 64); assumption.
Qed.
Print Assumptions C48_BitSet64_partial.

(** ... and shifts an int by 32 or more for the high half. *)
Theorem C48_BitSet64_refuted : exists off, 0 <= off < 64 /\ forall w, BitSet64 off w = None.
Proof. exists 40. split; [lia|reflexivity]. Qed.
Print Assumptions C48_BitSet64_refuted.

(** The 64-bit BitReset clears the whole high half of the word besides the named bit. *)
Theorem C48_BitReset64_exact : forall off w, 0 <= off < 32 -> is_word 64 w ->
  exists w', BitReset64 off w = Some (Z.testbit w off, w') /\
    forall n, 0 <= n -> Z.testbit w' n = if (n =? off) || (32 <=? n) then false else Z.testbit w n.
Proof.
  intros off w O W. unfold BitReset64, mark. rewrite (proj2 (Z.ltb_lt off 32)) by lia. rewrite land_mark by lia.
  eexists. split; [reflexivity|]. intros n N. rewrite Z.land_spec, not32_bits by lia. rewrite Z.ltb_antisym.
  destruct (n =? off), (32 <=? n); cbn; rewrite ?andb_false_r, ?andb_true_r; reflexivity.
Qed.
Print Assumptions C48_BitReset64_exact.
Theorem C48_BitReset64_refuted : exists off w n b w', 0 <= off < 64 /\ is_word 64 w /\ BitReset64 off w = Some (b, w') /\
  0 <= n < 64 /\ n <> off /\ Z.testbit w' n <> Z.testbit w n.
Proof. exists 0, (2 ^ 32), 32, false, 0. unfold is_word. vm_compute. intuition discriminate. Qed.
Print Assumptions C48_BitReset64_refuted.

(** The overloads of BitReset for signed 32-bit words call themselves for ever. *)
Theorem C48_BitReset_int32_refuted : forall fuel off w, BitReset fuel VI32 off w = None /\ BitReset fuel I32 off w = None.
Proof. induction fuel as [|f IH]; intros off w; [split; reflexivity|]. cbn. apply IH. Qed.
Print Assumptions C48_BitReset_int32_refuted.
Theorem C48_BitReset_overloads : forall fuel off w,
  BitReset (3 + fuel) VU32 off w = BitReset32 off w /\ BitReset (3 + fuel) U32 off w = BitReset32 off w /\
  BitReset (3 + fuel) VU64 off w = BitReset64 off w /\ BitReset (3 + fuel) U64 off w = BitReset64 off w /\
  BitReset (3 + fuel) VI64 off w = BitReset64 off w /\ BitReset (3 + fuel) I64 off w = BitReset64 off w.
Proof. intros. cbn. auto 10. Qed.
Print Assumptions C48_BitReset_overloads.

(** Subtract subtracts, and gives the new value. *)
Theorem C48_Subtract : forall bits x w, 0 < bits -> is_word bits x -> is_word bits w ->
  Subtract bits x w = ((w - x) mod 2 ^ bits, (w - x) mod 2 ^ bits).
Proof.
  intros bits x w B X W. unfold Subtract, Add.
  assert (E : (w + (2 ^ bits - 1 - x + 1) mod 2 ^ bits) mod 2 ^ bits = (w - x) mod 2 ^ bits); [|rewrite E; reflexivity].
  rewrite Z.add_mod_idemp_r by (apply Z.pow_nonzero; lia).
  replace (w + (2 ^ bits - 1 - x + 1)) with ((w - x) + 1 * 2 ^ bits) by ring. apply Z_mod_plus_full.
Qed.
Print Assumptions C48_Subtract.
(** The signed form computes the addend in the signed type: undefined exactly for the least
    number, correct otherwise. *)
Theorem C48_SubtractSigned : forall bits x w, 1 < bits -> - 2 ^ (bits - 1) <= x < 2 ^ (bits - 1) ->
  SubtractSigned bits x w =
    (if x =? - 2 ^ (bits - 1) then None else Some ((w - x) mod 2 ^ bits, (w - x) mod 2 ^ bits)).
Proof.
  intros bits x w B X. unfold SubtractSigned, Add. replace (- x - 1 + 1) with (- x) by ring.
  destruct (Z.eqb_spec (- x) (2 ^ (bits - 1))) as [E|E]; destruct (Z.eqb_spec x (- 2 ^ (bits - 1))) as [F|F]; try lia; [reflexivity|].
  rewrite Z.add_mod_idemp_r by (apply Z.pow_nonzero; lia). replace (w + - x) with (w - x) by ring. reflexivity.
Qed.
Print Assumptions C48_SubtractSigned.

(** * Competing calls *)
(** What one call has to do to the word, and what it returns. *)
Definition bitwise (f : bool -> bool -> bool) (v w w' : Z) : Prop := forall n, 0 <= n -> Z.testbit w' n = f (Z.testbit w n) (Z.testbit v n).
Definition effect (r : req) (w w' x : Z) : Prop :=
  match r with
  | ROr v => bitwise orb v w w' /\ x = w
  | RXor v => bitwise xorb v w w' /\ x = w
  | RAnd v => bitwise andb v w w' /\ x = w
  | RBitSet off => (forall n, 0 <= n -> Z.testbit w' n = if n =? off then true else Z.testbit w n) /\ x = Z.b2z (Z.testbit w off)
  | RBitReset off => (forall n, 0 <= n -> Z.testbit w' n = if n =? off then false else Z.testbit w n) /\ x = Z.b2z (Z.testbit w off)
  | RAdd v => w' = (w + v) mod 2 ^ 32 /\ x = w'
  end.
Definition valid (r : req) : Prop :=
  match r with
  | ROr v | RXor v | RAnd v | RAdd v => is_word 32 v
  | RBitSet off | RBitReset off => 0 <= off < 32
  end.
(** A sequence of calls that run one after the other: thread, call, result. *)
Inductive sequential (w0 : Z) : list (nat * req * Z) -> Z -> Prop :=
| seq_nil : sequential w0 [] w0
| seq_snoc : forall h w i r x w', sequential w0 h w -> effect r w w' x -> sequential w0 (h ++ [(i, r, x)]) w'.
Definition of_thread (i : nat) (h : list (nat * req * Z)) : list (req * Z) :=
  map (fun e => (snd (fst e), snd e)) (filter (fun e => Nat.eqb (fst (fst e)) i) h).

Lemma effect_loop : forall r w v, valid r -> is_word 32 w -> loop_value r w = Some v -> effect r w v w /\ is_word 32 v.
Proof.
  intros r w v V W H. destruct r; try discriminate H; injection H as <-; cbn [valid] in V; cbn [effect].
  - split; [split; [intros n N; apply Z.lor_spec|reflexivity]|]. apply word_bits; [lia|apply Z.lor_nonneg; split; [apply W|apply V]|].
    intros n N. rewrite Z.lor_spec, (word_high 32 w n), (word_high 32 v0 n) by assumption. reflexivity.
  - split; [split; [intros n N; apply Z.lxor_spec|reflexivity]|].
    apply word_bits; [lia|apply Z.lxor_nonneg; unfold is_word in *; lia|].
    intros n N. rewrite Z.lxor_spec, (word_high 32 w n), (word_high 32 v0 n) by assumption. reflexivity.
  - split; [split; [intros n N; apply Z.land_spec|reflexivity]|]. apply word_bits; [lia|apply Z.land_nonneg; left; apply W|].
    intros n N. rewrite Z.land_spec, (word_high 32 w n) by assumption. reflexivity.
Qed.
Lemma effect_atomic : forall r w, valid r -> is_word 32 w -> loop_value r 0 = None ->
  exists x w', atomic r w = Some (x, w') /\ effect r w w' x /\ is_word 32 w'.
Proof.
  intros r w V W H. destruct r; try discriminate H; cbn [valid atomic effect] in *.
  - destruct (C48_BitSet32 off w V W) as (w' & -> & A & B). eauto 8.
  - destruct (C48_BitReset32 off w V W) as (w' & -> & A & B). eauto 8.
  - unfold Add. eexists _, _. split; [reflexivity|]. split; [auto|]. apply Z.mod_pos_bound. lia.
Qed.

Definition ok_thr (s : st) (h : list (nat * req * Z)) (progs : list (list req)) (i : nat) (t : thr) : Prop :=
  (exists p, nth_error progs i = Some p /\ map fst (fin t) ++ todo t = p) /\
  fin t = of_thread i h /\ (fails t <= length h)%nat /\
  (forall c, last t = Some c -> c = word s \/ (fails t < length h)%nat).
Definition Inv (w0 : Z) (progs : list (list req)) (s : st) : Prop :=
  exists h, sequential w0 h (word s) /\ is_word 32 (word s) /\ length (thrs s) = length progs /\
    (forall i t, nth_error (thrs s) i = Some t -> ok_thr s h progs i t).

Lemma of_thread_snoc : forall i j r x h, of_thread i (h ++ [(j, r, x)]) = of_thread i h ++ (if Nat.eqb j i then [(r, x)] else []).
Proof.
  intros i j r x h. unfold of_thread. rewrite filter_app, map_app. f_equal. cbn. destruct (Nat.eqb j i); reflexivity.
Qed.
Lemma nth_set_cases : forall A (l : list A) i a o x, nth_error (set l i a) o = Some x -> (o = i /\ x = a) \/ (o <> i /\ nth_error l o = Some x).
Proof.
  intros A l i a o x H. destruct (Nat.eq_dec i o) as [<-|N].
  - left. split; [reflexivity|]. destruct (Nat.ltb_spec i (length l)).
    + rewrite nth_set_eq in H by assumption. congruence.
    + rewrite (proj2 (nth_error_None _ i)) in H; [discriminate|]. rewrite set_length. assumption.
  - right. rewrite nth_set_neq in H by exact N. auto.
Qed.

(** A thread finishes its call. *)
Lemma finish_Inv : forall w0 progs s i t r rest x w' h,
  sequential w0 h (word s) -> length (thrs s) = length progs ->
  (forall i t, nth_error (thrs s) i = Some t -> ok_thr s h progs i t) ->
  nth_error (thrs s) i = Some t -> todo t = r :: rest -> effect r (word s) w' x -> is_word 32 w' ->
  Inv w0 progs (ST w' (set (thrs s) i (THR rest None (fin t ++ [(r, x)]) (fails t))) (log s ++ [(i, r, word s)])).
Proof.
  intros w0 progs s i t r rest x w' h Sq L Ok T R E W. exists (h ++ [(i, r, x)]). cbn [word thrs].
  split; [econstructor; eassumption|]. split; [exact W|]. split; [rewrite set_length; exact L|].
  intros j u J. apply nth_set_cases in J as [[-> ->]|[N J]].
  - destruct (Ok _ _ T) as ((p & P1 & P2) & F & Fa & _). split; [|split; [|split]].
    + exists p. split; [exact P1|]. cbn [fin todo]. rewrite map_app, <- app_assoc. cbn. rewrite <- P2, R. reflexivity.
    + cbn [fin]. rewrite of_thread_snoc, Nat.eqb_refl, F. reflexivity.
    + cbn [fails]. rewrite app_length. cbn. lia.
    + discriminate.
  - destruct (Ok _ _ J) as (P & F & Fa & La). split; [exact P|]. split; [|split].
    + rewrite of_thread_snoc, (proj2 (Nat.eqb_neq i j)), app_nil_r by congruence. exact F.
    + rewrite app_length. cbn. lia.
    + intros c C. right. rewrite app_length. cbn. lia.
Qed.

Lemma step_Inv : forall w0 progs s i, Forall (Forall valid) progs -> Inv w0 progs s -> exists s', step i s = Some s' /\ Inv w0 progs s'.
Proof.
  intros w0 progs s i V (h & Sq & W & L & Ok). unfold step. destruct (nth_error (thrs s) i) as [[td l f n]|] eqn:T; [|exists s; split; [reflexivity|exists h; auto]].
  destruct td as [|r rest]; [exists s; split; [reflexivity|exists h; auto]|].
  assert (Vr : valid r).
  { destruct (Ok _ _ T) as ((p & P1 & P2) & _). apply nth_error_In in P1. rewrite Forall_forall in V. specialize (V _ P1).
    rewrite Forall_forall in V. apply V. rewrite <- P2. apply in_or_app. right. left. reflexivity. }
  assert (Lt : (i < length (thrs s))%nat) by (apply nth_error_Some; congruence).
  destruct (loop_value r 0) as [z|] eqn:Lp.
  - destruct l as [c|].
    + destruct (Z.eqb_spec (word s) c) as [E|E].
      * subst c. eexists. split; [reflexivity|]. destruct (loop_value r (word s)) as [v|] eqn:Lv; [|destruct r; discriminate].
        destruct (effect_loop r (word s) v Vr W Lv) as (Ef & Wv).
        exact (finish_Inv w0 progs s i _ r rest (word s) v h Sq L Ok T eq_refl Ef Wv).
      * eexists. split; [reflexivity|]. exists h. cbn [word thrs]. split; [exact Sq|]. split; [exact W|]. split; [rewrite set_length; exact L|].
        intros j u J. apply nth_set_cases in J as [[-> ->]|[N J]]; [|exact (Ok _ _ J)].
        destruct (Ok _ _ T) as (P & F & Fa & La). cbn [fin fails last todo] in *. split; [exact P|]. split; [exact F|].
        destruct (La c eq_refl) as [|G]; [congruence|]. split; [cbn; lia|]. cbn. intros c0 C. injection C as <-. left. reflexivity.
    + eexists. split; [reflexivity|]. exists h. cbn [word thrs]. split; [exact Sq|]. split; [exact W|]. split; [rewrite set_length; exact L|].
      intros j u J. apply nth_set_cases in J as [[-> ->]|[N J]]; [|exact (Ok _ _ J)].
      destruct (Ok _ _ T) as (P & F & Fa & La). cbn [fin fails last todo] in *. split; [exact P|]. split; [exact F|].
      split; [exact Fa|]. cbn. intros c0 C. injection C as <-. left. reflexivity.
  - destruct (effect_atomic r (word s) Vr W Lp) as (x & w' & -> & Ef & Wv). eexists. split; [reflexivity|].
    exact (finish_Inv w0 progs s i _ r rest x w' h Sq L Ok T eq_refl Ef Wv).
Qed.
Lemma run_Inv : forall w0 progs l s, Forall (Forall valid) progs -> Inv w0 progs s -> exists s', run l s = Some s' /\ Inv w0 progs s'.
Proof.
  intros w0 progs. induction l as [|i l IH]; intros s V I; cbn [run]; [eauto|].
  destruct (step_Inv w0 progs s i V I) as (s1 & -> & I1). apply IH; assumption.
Qed.
Lemma init_Inv : forall w progs, is_word 32 w -> Inv w progs (init w progs).
Proof.
  intros w progs W. exists []. cbn. split; [constructor|]. split; [exact W|]. split; [apply map_length|].
  intros i t T. rewrite nth_error_map in T. destruct (nth_error progs i) as [p|] eqn:E; [|discriminate]. injection T as <-.
  split; [exists p; auto|]. split; [reflexivity|]. cbn. split; [lia|discriminate].
Qed.

(** Whatever the interleaving, the calls behave as if they ran one after the other: some
    sequential history has the calls of every thread in program order with the results they
    returned, and leads to the word. *)
Theorem C48_linearizable : forall w progs l, is_word 32 w -> Forall (Forall valid) progs ->
  exists s h, run l (init w progs) = Some s /\ sequential w h (word s) /\
    forall i t, nth_error (thrs s) i = Some t ->
      fin t = of_thread i h /\ exists p, nth_error progs i = Some p /\ map fst (fin t) ++ todo t = p.
Proof.
  intros w progs l W V. destruct (run_Inv w progs l _ V (init_Inv w progs W)) as (s & R & h & Sq & _ & _ & Ok).
  exists s, h. split; [exact R|]. split; [exact Sq|]. intros i t T. destruct (Ok _ _ T) as (P & F & _). auto.
Qed.
Print Assumptions C48_linearizable.

(** A loop fails only because another call succeeded: no thread's exchange fails more often than
    the history has calls. *)
Theorem C48_lock_free : forall w progs l, is_word 32 w -> Forall (Forall valid) progs ->
  exists s h, run l (init w progs) = Some s /\ sequential w h (word s) /\
    forall i t, nth_error (thrs s) i = Some t -> fin t = of_thread i h /\ (fails t <= length h)%nat.
Proof.
  intros w progs l W V. destruct (run_Inv w progs l _ V (init_Inv w progs W)) as (s & R & h & Sq & _ & _ & Ok).
  exists s, h. split; [exact R|]. split; [exact Sq|]. intros i t T. destruct (Ok _ _ T) as (_ & F & Fa & _). auto.
Qed.
Print Assumptions C48_lock_free.

(** Two threads compete; the exchange of the second fails once. *)
Example C48_example :
  match run [0; 1; 0; 1; 1; 0]%nat (init 1 [[ROr 6; RBitReset 1]; [RXor 5]]) with
  | Some s => word s = 0 /\ map fin (thrs s) = [[(ROr 6, 1); (RBitReset 1, 1)]; [(RXor 5, 7)]] /\ map fails (thrs s) = [0; 1]%nat
  | None => False
  end.
Proof. vm_compute. auto. Qed.
Example C48_bits : BitReset64 3 (2 ^ 40 + 8 + 1) = Some (true, 1) /\ BitSet32 31 1 = Some (false, 2147483649).
Proof. vm_compute. auto. Qed.
