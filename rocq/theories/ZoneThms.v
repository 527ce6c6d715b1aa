(** Property C119: the cached time zone. *)
From Coq Require Import List Bool Arith Lia.
From Verif Require Import Slots SlotsProofs Threads ZoneModel.
Import ListNotations.

(** * Specification *)
(** The thread has a pointer to the published object without a reference of its own. *)
Definition borrows (p : nat) (x : pc) : bool :=
  match x with Lost _ w => w =? p | Won q => q =? p | Got q => q =? p | _ => false end.
(** No handler drops the object while a thread is between getting the pointer and AddRef. *)
Definition polite (s : st) (a : act) : Prop :=
  match a, pend s with Free, Some p => forall i x, nth_error (ths s) i = Some x -> borrows p x = false | _, _ => True end.
Fixpoint all_polite (s : st) (l : list act) : Prop :=
  match l with [] => True | a :: l => polite s a /\ match step s a with Some s' => all_polite s' l | None => True end end.
Definition exits (a : act) : bool := match a with Take => true | _ => false end.

(** * Invariant *)
Definition owns (p : nat) (x : pc) : nat :=
  match x with Made q => if q =? p then 1 else 0 | Lost q _ => if q =? p then 1 else 0 | Have q => if q =? p then 1 else 0 | _ => 0 end.
Definition one (o : option nat) (p : nat) : nat := match o with Some q => if q =? p then 1 else 0 | None => 0 end.
Record Inv (s : st) : Prop := {
  icount : forall p, ref s p = suml (owns p) (ths s) + one (cache s) p + one (pend s) p;
  iborrow : forall i x p, nth_error (ths s) i = Some x -> borrows p x = true -> one (cache s) p + one (pend s) p > 0;
  inew : forall p, next s <= p -> ref s p = 0;
  igood : bad s = false
}.
Lemma one_self : forall p, one (Some p) p = 1. Proof. intros p. cbn. rewrite Nat.eqb_refl. reflexivity. Qed.
Lemma set_out : forall (f : pc -> nat) l i x y, nth_error l i = Some x -> f x = f y -> suml f (set l i y) = suml f l.
Proof. intros f l i x y N E. pose proof (suml_set _ f l i x y N). lia. Qed.
Lemma eqb_sw : forall a b, (a =? b) = (b =? a). Proof. intros. apply Nat.eqb_sym. Qed.

Lemma init_Inv : forall n, Inv (init n).
Proof.
  intros n. constructor; cbn; auto.
  - intros p. rewrite suml_repeat; reflexivity.
  - intros i x p N B. apply nth_error_In in N. apply repeat_spec in N. subst x. discriminate B.
Qed.
Lemma live : forall s p, Inv s -> 0 < suml (owns p) (ths s) + one (cache s) p + one (pend s) p -> ref s p <> 0 /\ p < next s.
Proof.
  intros s p I L. rewrite <- (icount s I p) in L. split; [lia|]. destruct (le_lt_dec (next s) p) as [G|G]; [|exact G]. pose proof (inew s I p G). lia.
Qed.
Lemma step_Inv : forall s a s', Inv s -> polite s a -> step s a = Some s' -> Inv s'.
Proof.
  intros s a s' I P E. pose proof (icount s I) as C. pose proof (iborrow s I) as B. pose proof (inew s I) as N. pose proof (igood s I) as G.
  destruct a as [i|i z|i|i|i|i|i| |]; cbn in E.
  - destruct (nth_error (ths s) i) as [[| | | | | |]|] eqn:T; try discriminate. injection E as <-. constructor; cbn; auto.
    + intros p. rewrite (set_out _ _ _ _ _ T); [apply C|]. destruct (cache s); reflexivity.
    + intros j x p X Y. apply nth_set in X. destruct X as [(-> & ->)|(_ & X)]; [|exact (B j x p X Y)].
      destruct (cache s) as [q|]; [|discriminate Y]. cbn in *. rewrite Y. lia.
  - destruct (nth_error (ths s) i) as [[| | | | | |]|] eqn:T; try discriminate. injection E as <-.
    assert (Z0 : suml (owns (next s)) (ths s) + one (cache s) (next s) + one (pend s) (next s) = 0) by (rewrite <- C; apply N; lia).
    destruct z as [z|].
    + constructor; cbn; auto.
      * intros p. pose proof (suml_set _ (owns p) _ _ _ (Made (next s)) T) as U. unfold owns at 2 4 in U. unfold upd. rewrite (eqb_sw (next s) p) in U.
        destruct (Nat.eqb_spec p (next s)) as [EQ|NE]; [subst p; lia|rewrite (C p); lia].
      * intros j x p X Y. apply nth_set in X. destruct X as [(_ & ->)|(_ & X)]; [discriminate Y|exact (B j x p X Y)].
      * intros p L. unfold upd. destruct (Nat.eqb_spec p (next s)); [lia|apply N; lia].
    + constructor; cbn; auto.
      * intros p. rewrite (set_out _ _ _ _ _ T) by reflexivity. unfold upd. rewrite Nat.eqb_refl. cbn.
        destruct (Nat.eqb_spec p (next s)) as [EQ|NE]; [subst p; lia|apply C].
      * intros j x p X Y. apply nth_set in X. destruct X as [(_ & ->)|(_ & X)]; [discriminate Y|exact (B j x p X Y)].
      * intros p L. unfold upd. rewrite Nat.eqb_refl. destruct (Nat.eqb_spec p (next s)); [reflexivity|apply N; lia].
      * unfold upd. rewrite Nat.eqb_refl, G. reflexivity.
  - destruct (nth_error (ths s) i) as [[| |q| | | |]|] eqn:T; try discriminate. injection E as <-. destruct (cache s) as [w|] eqn:K.
    + constructor; cbn; auto.
      * intros p. rewrite (set_out _ _ _ _ _ T) by reflexivity. rewrite (C p), K. reflexivity.
      * intros j x p X Y. rewrite K. apply nth_set in X. destruct X as [(_ & ->)|(_ & X)]; [cbn in *; rewrite Y; lia|specialize (B j x p X Y); exact B].
    + constructor; cbn; auto.
      * intros p. pose proof (suml_set _ (owns p) _ _ _ (Won q) T) as U. unfold owns at 2 4 in U. pose proof (C p) as Cp. cbn in Cp. lia.
      * intros j x p X Y. apply nth_set in X. destruct X as [(_ & ->)|(_ & X)]; [cbn in *; rewrite Y; lia|specialize (B j x p X Y); cbn in B; lia].
  - destruct (nth_error (ths s) i) as [[| | |q w| | |]|] eqn:T; try discriminate. injection E as <-.
    pose proof (suml_ge _ (owns q) _ _ _ T) as L. cbn in L. rewrite Nat.eqb_refl in L. destruct (live s q I) as (R & R2); [lia|].
    constructor; cbn; auto.
    + intros p. pose proof (suml_set _ (owns p) _ _ _ (Got w) T) as U. unfold owns at 2 4 in U. unfold upd. rewrite (eqb_sw q p) in U.
      destruct (Nat.eqb_spec p q) as [EQ|NE]; [rewrite EQ in *; pose proof (C q); lia|rewrite (C p); lia].
    + intros j x p X Y. apply nth_set in X. destruct X as [(_ & ->)|(_ & X)]; [exact (B i _ p T Y)|exact (B j x p X Y)].
    + intros p Q. unfold upd. destruct (Nat.eqb_spec p q); [lia|apply N; exact Q].
    + rewrite G. apply Nat.eqb_neq. exact R.
  - destruct (nth_error (ths s) i) as [[| | | |q| |]|] eqn:T; try discriminate. injection E as <-. constructor; cbn; auto.
    + intros p. rewrite (set_out _ _ _ _ _ T) by reflexivity. apply C.
    + intros j x p X Y. apply nth_set in X. destruct X as [(_ & ->)|(_ & X)]; [exact (B i _ p T Y)|exact (B j x p X Y)].
  - destruct (nth_error (ths s) i) as [[| | | | |q|]|] eqn:T; try discriminate. injection E as <-.
    assert (L : one (cache s) q + one (pend s) q > 0) by (apply (B i _ q T); cbn; apply Nat.eqb_refl). destruct (live s q I) as (R & R2); [lia|].
    constructor; cbn; auto.
    + intros p. pose proof (suml_set _ (owns p) _ _ _ (Have q) T) as U. unfold owns at 2 4 in U. unfold upd. rewrite (eqb_sw q p) in U.
      destruct (Nat.eqb_spec p q) as [EQ|NE]; [rewrite EQ in *; pose proof (C q); lia|rewrite (C p); lia].
    + intros j x p X Y. apply nth_set in X. destruct X as [(_ & ->)|(_ & X)]; [discriminate Y|exact (B j x p X Y)].
    + intros p Q. unfold upd. destruct (Nat.eqb_spec p q); [lia|apply N; exact Q].
    + rewrite G. apply Nat.eqb_neq. exact R.
  - destruct (nth_error (ths s) i) as [[| | | | | |q]|] eqn:T; try discriminate. injection E as <-.
    pose proof (suml_ge _ (owns q) _ _ _ T) as L. cbn in L. rewrite Nat.eqb_refl in L. destruct (live s q I) as (R & R2); [lia|].
    constructor; cbn; auto.
    + intros p. pose proof (suml_set _ (owns p) _ _ _ Out T) as U. unfold owns at 2 4 in U. unfold upd. rewrite (eqb_sw q p) in U.
      destruct (Nat.eqb_spec p q) as [EQ|NE]; [rewrite EQ in *; pose proof (C q); lia|rewrite (C p); lia].
    + intros j x p X Y. apply nth_set in X. destruct X as [(_ & ->)|(_ & X)]; [discriminate Y|exact (B j x p X Y)].
    + intros p Q. unfold upd. destruct (Nat.eqb_spec p q); [lia|apply N; exact Q].
    + rewrite G. apply Nat.eqb_neq. exact R.
  - destruct (hand s); [discriminate|]. destruct (pend s) eqn:K; [discriminate|]. injection E as <-. constructor; cbn; auto.
    + intros p. specialize (C p). cbn in C. lia.
    + intros j x p X Y. specialize (B j x p X Y). cbn in B. lia.
  - cbn in P. destruct (pend s) as [q|] eqn:K; [|discriminate]. injection E as <-.
    destruct (live s q I) as (R & R2); [rewrite K, one_self; lia|]. constructor; cbn; auto.
    + intros p. unfold upd. pose proof (C p) as Cp. cbn in Cp. rewrite (eqb_sw q p) in Cp. destruct (Nat.eqb_spec p q) as [EQ|NE]; [rewrite EQ in *|]; lia.
    + intros j x p X Y. pose proof (B j x p X Y) as Bp. cbn in Bp. destruct (Nat.eqb_spec q p) as [->|NE]; [|lia].
      rewrite (P j x X) in Y. discriminate Y.
    + intros p Q. unfold upd. destruct (Nat.eqb_spec p q); [lia|apply N; exact Q].
    + rewrite G. apply Nat.eqb_neq. exact R.
Qed.
Lemma run_Inv : forall l s s', Inv s -> all_polite s l -> run s l = Some s' -> Inv s'.
Proof.
  induction l as [|a l IH]; intros s s' I P R; cbn in R; [injection R as <-; exact I|]. destruct P as (P1 & P2).
  destruct (step s a) as [s1|] eqn:E; [|discriminate]. exact (IH s1 s' (step_Inv s a s1 I P1 E) P2 R).
Qed.

(** * Theorems *)
(** Full statement (C119): whatever the threads and the handlers do, no destroyed object is touched.  Missing: runs where
    a handler releases the object while a thread is between reading the pointer and AddRef (see below). *)
Theorem C119_alive_partial : forall n l s, run (init n) l = Some s -> all_polite (init n) l ->
  bad s = false /\ forall i p, nth_error (ths s) i = Some (Have p) -> 0 < ref s p.
Proof.
  intros n l s R P. pose proof (run_Inv l _ s (init_Inv n) P R) as I. split; [exact (igood s I)|].
  intros i p T. pose proof (suml_ge _ (owns p) _ _ _ T) as L. cbn in L. rewrite Nat.eqb_refl in L. rewrite (icount s I p). lia.
Qed.
(** Nothing leaks: when no thread is inside or holds a pointer, only the published object is alive, with one reference;
    after the handler has run none is.  Missing: the same runs as above. *)
Theorem C119_freed_partial : forall n l s, run (init n) l = Some s -> all_polite (init n) l -> (forall i x, nth_error (ths s) i = Some x -> x = Out) ->
  pend s = None -> forall p, ref s p = match cache s with Some q => if q =? p then 1 else 0 | None => 0 end.
Proof.
  intros n l s R P O K p. pose proof (run_Inv l _ s (init_Inv n) P R) as I. rewrite (icount s I p), K.
  assert (Z : suml (owns p) (ths s) = 0).
  { destruct (Nat.eq_dec (suml (owns p) (ths s)) 0) as [Z|Z]; [exact Z|]. destruct (suml_pos _ (owns p) (ths s) ltac:(lia)) as (i & x & T & Q). rewrite (O i x T) in Q. cbn in Q. lia. }
  rewrite Z. unfold one. lia.
Qed.

(** Until the handlers run, everybody gets the same object and the same zone (C119_same_partial).  Missing: calls after a
    handler, which make a new object, as C119_late shows. *)
Record Same (s : st) : Prop := {
  smhand : pend s = None;
  smthr : forall i x p, nth_error (ths s) i = Some x -> borrows p x = true -> cache s = Some p;
  smret : forall r p z, In r (rets s) -> r = Some (p, z) -> cache s = Some p /\ info s p = z;
  smnew : forall p, cache s = Some p -> p < next s;
  smmade : forall i x, nth_error (ths s) i = Some x -> forall q, x = Made q -> q < next s
}.
Lemma init_Same : forall n, Same (init n).
Proof.
  intros n. constructor; cbn; auto; try discriminate; try contradiction; intros i x.
  - intros p N B. apply nth_error_In in N. apply repeat_spec in N. subst x. discriminate B.
  - intros N q E. apply nth_error_In in N. apply repeat_spec in N. congruence.
Qed.
Lemma step_Same : forall s a s', Same s -> exits a = false -> step s a = Some s' -> Same s'.
Proof.
  intros s a s' M X E. destruct M as [H B V N D].
  destruct a as [i|i z|i|i|i|i|i| |]; cbn in E; try discriminate X.
  - destruct (nth_error (ths s) i) as [[| | | | | |]|] eqn:T; try discriminate. injection E as <-. constructor; cbn; auto.
    + intros j x p J Y. apply nth_set in J. destruct J as [(_ & ->)|(_ & J)]; [|exact (B j x p J Y)]. destruct (cache s) as [q|]; [|discriminate Y]. cbn in Y. apply Nat.eqb_eq in Y. congruence.
    + intros j x J q Q. apply nth_set in J. destruct J as [(_ & ->)|(_ & J)]; [destruct (cache s); discriminate Q|exact (D j x J q Q)].
  - destruct (nth_error (ths s) i) as [[| | | | | |]|] eqn:T; try discriminate. injection E as <-. destruct z as [z|]; constructor; cbn; auto.
    + intros j x p J Y. apply nth_set in J. destruct J as [(_ & ->)|(_ & J)]; [discriminate Y|exact (B j x p J Y)].
    + intros r p y R Q. destruct (V r p y R Q) as (V1 & V2). split; [exact V1|]. unfold upd. pose proof (N p V1). destruct (Nat.eqb_spec p (next s)); [lia|exact V2].
    + intros p Q. pose proof (N p Q). lia.
    + intros j x J q Q. apply nth_set in J. destruct J as [(_ & ->)|(_ & J)]; [injection Q as <-; lia|pose proof (D j x J q Q); lia].
    + intros j x p J Y. apply nth_set in J. destruct J as [(_ & ->)|(_ & J)]; [discriminate Y|exact (B j x p J Y)].
    + intros r p y [<-|R] Q; [discriminate Q|exact (V r p y R Q)].
    + intros p Q. pose proof (N p Q). lia.
    + intros j x J q Q. apply nth_set in J. destruct J as [(_ & ->)|(_ & J)]; [discriminate Q|pose proof (D j x J q Q); lia].
  - destruct (nth_error (ths s) i) as [[| |q| | | |]|] eqn:T; try discriminate. injection E as <-. destruct (cache s) as [w|] eqn:K; constructor; cbn; rewrite ?K; auto.
    + intros j x p J Y. apply nth_set in J. destruct J as [(_ & ->)|(_ & J)]; [cbn in Y; apply Nat.eqb_eq in Y; congruence|exact (B j x p J Y)].
    + intros j x J q' Q. apply nth_set in J. destruct J as [(_ & ->)|(_ & J)]; [discriminate Q|exact (D j x J q' Q)].
    + intros j x p J Y. apply nth_set in J. destruct J as [(_ & ->)|(_ & J)]; [cbn in Y; apply Nat.eqb_eq in Y; congruence|discriminate (B j x p J Y)].
    + intros r p y R Q. destruct (V r p y R Q) as (V1 & _). discriminate V1.
    + intros p Q. injection Q as <-. exact (D i _ T q eq_refl).
    + intros j x J q' Q. apply nth_set in J. destruct J as [(_ & ->)|(_ & J)]; [discriminate Q|exact (D j x J q' Q)].
  - destruct (nth_error (ths s) i) as [[| | |q w| | |]|] eqn:T; try discriminate. injection E as <-. constructor; cbn; auto.
    + intros j x p J Y. apply nth_set in J. destruct J as [(_ & ->)|(_ & J)]; [exact (B i _ p T Y)|exact (B j x p J Y)].
    + intros j x J q' Q. apply nth_set in J. destruct J as [(_ & ->)|(_ & J)]; [discriminate Q|exact (D j x J q' Q)].
  - destruct (nth_error (ths s) i) as [[| | | |q| |]|] eqn:T; try discriminate. injection E as <-. constructor; cbn; auto.
    + intros j x p J Y. apply nth_set in J. destruct J as [(_ & ->)|(_ & J)]; [exact (B i _ p T Y)|exact (B j x p J Y)].
    + intros j x J q' Q. apply nth_set in J. destruct J as [(_ & ->)|(_ & J)]; [discriminate Q|exact (D j x J q' Q)].
  - destruct (nth_error (ths s) i) as [[| | | | |q|]|] eqn:T; try discriminate. injection E as <-. constructor; cbn; auto.
    + intros j x p J Y. apply nth_set in J. destruct J as [(_ & ->)|(_ & J)]; [discriminate Y|exact (B j x p J Y)].
    + intros r p y [<-|R] Q; [|exact (V r p y R Q)]. injection Q as <- <-. split; [|reflexivity]. apply (B i _ q T). cbn. apply Nat.eqb_refl.
    + intros j x J q' Q. apply nth_set in J. destruct J as [(_ & ->)|(_ & J)]; [discriminate Q|exact (D j x J q' Q)].
  - destruct (nth_error (ths s) i) as [[| | | | | |q]|] eqn:T; try discriminate. injection E as <-. constructor; cbn; auto.
    + intros j x p J Y. apply nth_set in J. destruct J as [(_ & ->)|(_ & J)]; [discriminate Y|exact (B j x p J Y)].
    + intros j x J q' Q. apply nth_set in J. destruct J as [(_ & ->)|(_ & J)]; [discriminate Q|exact (D j x J q' Q)].
  - rewrite H in E. discriminate E.
Qed.
Lemma run_Same : forall l s s', Same s -> existsb exits l = false -> run s l = Some s' -> Same s'.
Proof.
  induction l as [|a l IH]; intros s s' M X R; cbn in R; [injection R as <-; exact M|]. cbn in X. apply orb_false_iff in X. destruct X as (X1 & X2).
  destruct (step s a) as [s1|] eqn:E; [|discriminate]. exact (IH s1 s' (step_Same s a s1 M X1 E) X2 R).
Qed.
Theorem C119_same_partial : forall n l s p y q z, run (init n) l = Some s -> existsb exits l = false ->
  In (Some (p, y)) (rets s) -> In (Some (q, z)) (rets s) -> p = q /\ y = z.
Proof.
  intros n l s p y q z R X A B. pose proof (run_Same l _ s (init_Same n) X R) as M.
  destruct (smret s M _ p y A eq_refl) as (A1 & A2). destruct (smret s M _ q z B eq_refl) as (B1 & B2). split; congruence.
Qed.

(** A handler that runs between a thread's reading of the pointer and its AddRef: the thread revives a destroyed object. *)
Theorem C119_alive_refuted : exists l s, run (init 2) l = Some s /\ bad s = true /\ exists p, nth_error (ths s) 1 = Some (Have p) /\ In (Some (p, 7)) (rets s).
Proof.
  set (l := [Read 0; Ask 0 (Some 7); Cas 0; Reg 0; Ret 0; Drop 0; Read 1; Take; Free; Ret 1]).
  assert (H : match run (init 2) l with Some s => bad s = true /\ nth_error (ths s) 1 = Some (Have 0) /\ In (Some (0, 7)) (rets s) | None => False end)
    by (vm_compute; auto).
  destruct (run (init 2) l) as [s|] eqn:E; [|contradiction]. destruct H as (H1 & H2 & H3). exists l, s. split; [exact E|]. split; [exact H1|]. exists 0. auto.
Qed.
(** The name says current, but a later call gets the zone of the first call although the system would answer another. *)
Theorem C119_current_refuted : forall y z, y <> z -> exists l s, run (init 2) l = Some s /\ In (Ask 1 (Some z)) l /\
  In (Ask 0 (Some y)) l /\ bad s = false /\ rets s = [Some (0, y); Some (0, y)].
Proof.
  intros y z NE. set (l := [Read 0; Read 1; Ask 0 (Some y); Cas 0; Reg 0; Ret 0; Ask 1 (Some z); Cas 1; DropOwn 1; Ret 1]).
  assert (H : match run (init 2) l with Some s => bad s = false /\ rets s = [Some (0, y); Some (0, y)] | None => False end)
    by (vm_compute; auto).
  destruct (run (init 2) l) as [s|] eqn:E; [|contradiction]. destruct H as (H1 & H2). exists l, s. split; [exact E|].
  split; [unfold l; cbn; tauto|]. split; [unfold l; cbn; tauto|]. auto.
Qed.
(** Two threads race, both create; then the handler runs while both hold the object; both drop it; a late caller makes a
    new one, which its own handler frees. *)
Definition race : list act := [Read 0; Read 1; Ask 1 (Some 3); Ask 0 (Some 3); Cas 0; Cas 1; Reg 0; DropOwn 1; Ret 1; Ret 0].
Example C119_race : match run (init 2) race with
  | Some s => rets s = [Some (1, 3); Some (1, 3)] /\ ref s 0 = 0 /\ ref s 1 = 3 /\ bad s = false | None => False end.
Proof. vm_compute. repeat split. Qed.
Example C119_late : match run (init 2) (race ++ [Take; Drop 0; Free; Drop 1; Read 0; Ask 0 (Some 4); Cas 0; Reg 0; Ret 0; Drop 0; Take; Free]) with
  | Some s => rets s = [Some (2, 4); Some (1, 3); Some (1, 3)] /\ (ref s 0, ref s 1, ref s 2) = (0, 0, 0) /\ hand s = 0 /\ bad s = false | None => False end.
Proof. vm_compute. repeat split. Qed.
Example C119_fails : match run (init 1) [Read 0; Ask 0 None] with Some s => rets s = [None] /\ ref s 0 = 0 | None => False end.
Proof. split; reflexivity. Qed.

Print Assumptions C119_alive_partial.
Print Assumptions C119_freed_partial.
Print Assumptions C119_same_partial.
Print Assumptions C119_alive_refuted.
Print Assumptions C119_current_refuted.
