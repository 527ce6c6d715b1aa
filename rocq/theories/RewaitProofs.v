(** Invariants of RewaitModel. *)
From Coq Require Import List Bool Arith Lia.
From Verif Require Import Slots SlotsProofs Threads RewaitModel.
Import ListNotations.

Definition cc (c : cont) : nat := match c with CInst => 1 | CEnd => 0 end.
(** The run of the Wait: posted, running, or waiting as a handler. *)
Definition tk (a : agent) : nat :=
  match a with T0 | T1 | T2 | T3 | T4 | T5 _ | T6 | T7 | T8 | I1 | I2 => 1 | T9 c | T10 c | R0 c _ | R1 c _ | R2 c | R3 c => cc c | R4 c n => cc c + n | K6 n => n | _ => 0 end.
(** Where a completion can come from. *)
Definition sr (a : agent) : nat := match a with T8 | T9 _ | T10 _ | R0 _ _ => 1 | _ => 0 end.
(** Won the exchange, has not set hr. *)
Definition wi (a : agent) : nat := match a with R1 _ _ | R2 _ | K3 | K4 => 1 | _ => 0 end.
Definition tc (a : agent) : nat := match a with T0 | T1 | T2 | T3 | T4 | T5 _ | T6 | T7 => 1 | _ => 0 end.
Definition th (a : agent) : nat := match a with T3 | T4 | T5 _ | T6 => 1 | _ => 0 end.
Definition t7 (a : agent) : nat := match a with T7 => 1 | _ => 0 end.
Definition tb (a : agent) : nat := match a with T0 | T1 | T2 | T3 => 1 | _ => 0 end.
Definition ta (a : agent) : nat := match a with T4 | T5 _ | T6 | T7 => 1 | _ => 0 end.
Definition r1 (a : agent) : nat := match a with R1 _ _ => 1 | _ => 0 end.
Definition bn (b : bool) : nat := if b then 1 else 0.
Fixpoint wins (l : list event) : list nat := match l with [] => [] | EWin v :: r => v :: wins r | _ :: r => wins r end.
Fixpoint calls (l : list event) : list nat := match l with [] => [] | ECall v :: r => v :: calls r | _ :: r => calls r end.
Lemma wins_app : forall l e, wins (l ++ e) = wins l ++ wins e.
Proof. induction l as [|[] l IH]; intros e; cbn; rewrite ?IH; reflexivity. Qed.
Lemma calls_app : forall l e, calls (l ++ e) = calls l ++ calls e.
Proof. induction l as [|[] l IH]; intros e; cbn; rewrite ?IH; reflexivity. Qed.
Lemma suml_app : forall A (f : A -> nat) l e, suml f (l ++ e) = suml f l + suml f e.
Proof. induction l as [|x l IH]; intros e; cbn; [reflexivity|rewrite IH; lia]. Qed.

Definition isC (x : status) : nat := match x with Completed => 1 | _ => 0 end.
Definition isE (x : status) : nat := match x with Error => 1 | _ => 0 end.
Definition isS (x : status) : nat := match x with Started => 1 | _ => 0 end.
Record Inv (s : st) : Prop := {
  v_tok : inst s + q s + suml tk (ag s) <= 1;
  v_src : bn (armed s) + suml sr (ag s) + isC (sts s) + isE (sts s) <= 1;
  v_run : q s + suml tc (ag s) <= isC (sts s);
  v_win : suml wi (ag s) + suml t7 (ag s) + bn (negb (op s)) + isS (sts s) = 1;
  v_hr : suml th (ag s) <= bn (negb (op s));
  v_seq : wins (log s) = seq 0 (nxt s);
  (* the completions that were not yet given to the handler *)
  v_open : exists r, wins (log s) = calls (log s) ++ r /\ length r <= isC (sts s)
    /\ length r + suml ta (ag s) <= 1 /\ isC (sts s) + inst s + q s + suml tk (ag s) <= 1 + length r + suml ta (ag s)
    /\ (forall v, In v r -> suml r1 (ag s) = 0 -> res s = Some v)
    /\ (forall i c v, nth_error (ag s) i = Some (R1 c v) -> r = [v]) }.
Lemma Inv_init : Inv init.
Proof.
  constructor; cbn; auto; try lia.
  exists []. repeat split; cbn; auto; try tauto; try lia. intros [|[|i]] c v H; discriminate.
Qed.
Lemma sub : forall (f g : agent -> nat) l, (forall a, f a <= g a) -> suml f l <= suml g l.
Proof. intros f g l H. induction l as [|a l IH]; cbn; [lia|]. specialize (H a). lia. Qed.
Ltac sums G y := let f := constr:(y) in
  pose proof (suml_set _ tk _ _ _ f G); pose proof (suml_set _ sr _ _ _ f G); pose proof (suml_set _ wi _ _ _ f G); pose proof (suml_set _ tc _ _ _ f G);
  pose proof (suml_set _ th _ _ _ f G); pose proof (suml_set _ t7 _ _ _ f G); pose proof (suml_set _ tb _ _ _ f G); pose proof (suml_set _ ta _ _ _ f G); pose proof (suml_set _ r1 _ _ _ f G).
Ltac red0 := cbn [tk sr wi tc th t7 tb ta r1 cc bn negb bit wp sts op inst armed res nxt q ag log w_bit w_wp w_sts w_op w_inst w_armed w_res w_nxt w_q w_ag say put after Nat.add] in *.
Lemma r1_keep : forall l i y (P : nat -> Prop), (forall c v, y = R1 c v -> P v) -> (forall j c v, nth_error l j = Some (R1 c v) -> P v) -> forall j c v, nth_error (set l i y) j = Some (R1 c v) -> P v.
Proof.
  intros l i y P Y H j c v G. destruct (Nat.eq_dec j i) as [->|N].
  - destruct (Nat.lt_ge_cases i (length l)) as [L|L]; [rewrite nth_set_eq in G by assumption; injection G as ->; exact (Y _ _ eq_refl)|]. assert (nth_error (set l i y) i = None) by (apply nth_error_None; rewrite set_length; exact L). congruence.
  - rewrite nth_set_neq in G by congruence. exact (H _ _ _ G).
Qed.
Lemma subs : forall l, suml tc l <= suml tk l /\ suml th l + suml t7 l <= suml tc l /\ suml tb l + suml ta l <= suml tc l /\ suml r1 l <= suml wi l.
Proof. induction l as [|a l IH]; cbn; [lia|]. destruct a; cbn; lia. Qed.
Lemma isC_1 : forall x, 1 <= isC x -> x = Completed. Proof. intros []; cbn; auto; lia. Qed.
Lemma step_inv : forall s i h r s', step s i h r = Some s' -> Inv s -> Inv s'.
Proof.
  intros s i h r s' E I. destruct I as [TOK SRC RUN WIN HR SEQ (o & O1 & O2 & O3 & O4 & O5 & O6)].
  unfold step, on_completed in E. destruct (nth_error (ag s) i) as [a|] eqn:G; [|discriminate].
  pose proof (subs (ag s)) as SB.
  assert (KEEP : forall y, (forall c v, y <> R1 c v) -> forall i0 c v, nth_error (set (ag s) i y) i0 = Some (R1 c v) -> o = [v]).
  { intros y Y i0 c v GG. refine (r1_keep _ _ _ (fun v => o = [v]) _ O6 _ _ _ GG). intros c' v' ->. destruct (Y c' v'). reflexivity. }
  pose proof (suml_ge _ tk _ _ _ G) as Gk. pose proof (suml_ge _ sr _ _ _ G) as Gs. pose proof (suml_ge _ wi _ _ _ G) as Gw. pose proof (suml_ge _ tc _ _ _ G) as Gc.
  pose proof (suml_ge _ th _ _ _ G) as Gh. pose proof (suml_ge _ t7 _ _ _ G) as G7. pose proof (suml_ge _ tb _ _ _ G) as Gb. pose proof (suml_ge _ ta _ _ _ G) as Ga. pose proof (suml_ge _ r1 _ _ _ G) as G1.
  destruct a; try discriminate; red0.
  all: repeat match type of E with
    | context [match ?c with _ => _ end] => destruct c eqn:?
    end; try discriminate.
  all: injection E as <-.
  all: match goal with |- context [put _ _ ?y] => sums G y; pose proof (subs (set (ag s) i y)) as SB' end.
  all: repeat match goal with x : cont |- _ => destruct x end; red0.
  all: cbn [isC isE isS bn negb] in *.
  all: try (exfalso; lia).
  all: constructor; red0; rewrite ?wins_app, ?calls_app, ?app_nil_r; cbn [wins calls isC isE isS]; rewrite ?app_nil_r; try assumption.
  all: try match goal with H : sts _ = ?x |- _ => rewrite ?H; cbn [isC isE isS] end.
  all: try match goal with H : op _ = ?x |- _ => rewrite ?H; cbn [bn negb] end.
  all: try lia.
  all: first
    [ solve [destruct (sts s) eqn:?, (op s) eqn:?; red0; lia]
    | solve [exists o; split; [assumption|]; split; [lia|]; split; [lia|]; split; [lia|]; split; [intros v0 X Y; apply O5; [assumption|lia]|apply KEEP; discriminate]]
    | idtac ].
  all: try (rewrite seq_S, SEQ; reflexivity).
  - destruct o as [|v0 [|]]; cbn [length] in *; try (exfalso; lia). assert (X : Some n = Some v0) by (apply O5; [left; reflexivity|lia]). injection X as ->.
    exists []. rewrite app_nil_r. split; [assumption|]. cbn [length]. split; [lia|]. split; [lia|]. split; [lia|]. split; [intros v1 []|]. intros i0 c v X. exfalso. apply suml_ge with (f := r1) in X. cbn in X. lia.
  - exfalso. destruct o as [|v0 o]; cbn [length] in *; [lia|]. assert (X : None = Some v0) by (apply O5; [left; reflexivity|lia]). discriminate.
  - destruct o as [|v0 o]; [|cbn [length] in *; lia]. exists [nxt s]. rewrite app_nil_r in O1. rewrite O1. split; [reflexivity|]. cbn [length]. split; [lia|]. split; [lia|]. split; [lia|]. split; [intros v X Y; lia|].
    apply r1_keep; [intros c v X; injection X as <- <-; reflexivity|]. intros j c v X. specialize (O6 _ _ _ X). discriminate.
  - destruct o as [|v0 o]; [|cbn [length] in *; lia]. exists [nxt s]. rewrite app_nil_r in O1. rewrite O1. split; [reflexivity|]. cbn [length]. split; [lia|]. split; [lia|]. split; [lia|]. split; [intros v X Y; lia|].
    apply r1_keep; [intros c v X; injection X as <- <-; reflexivity|]. intros j c v X. specialize (O6 _ _ _ X). discriminate.
  - exists o. split; [assumption|]. split; [lia|]. split; [lia|]. split; [lia|]. split; [|apply KEEP; discriminate]. intros v0 X _. rewrite (O6 _ _ _ G) in X. destruct X as [->|[]]. reflexivity.
  - exists o. split; [assumption|]. split; [lia|]. split; [lia|]. split; [lia|]. split; [|apply KEEP; discriminate]. intros v0 X _. rewrite (O6 _ _ _ G) in X. destruct X as [->|[]]. reflexivity.
Qed.
Lemma r1_app : forall l y (P : nat -> Prop), (forall c v, y <> R1 c v) -> (forall j c v, nth_error l j = Some (R1 c v) -> P v) -> forall j c v, nth_error (l ++ [y]) j = Some (R1 c v) -> P v.
Proof.
  intros l y P Y H j c v G. destruct (Nat.lt_ge_cases j (length l)) as [L|L].
  - rewrite nth_error_app1 in G by assumption. exact (H _ _ _ G).
  - rewrite nth_error_app2 in G by assumption. destruct (j - length l) as [|[|]]; try discriminate. cbn in G. injection G as G. destruct (Y _ _ G).
Qed.
Lemma exec_inv : forall s a s', exec s a = Some s' -> Inv s -> Inv s'.
Proof.
  intros s a s' E I. destruct a; cbn [exec] in E.
  - exact (step_inv _ _ _ _ _ E I).
  - destruct (armed s) eqn:A; [|discriminate]. injection E as <-. destruct I as [TOK SRC RUN WIN HR SEQ (o & O1 & O2 & O3 & O4 & O5 & O6)]. rewrite A in SRC.
    constructor; red0; rewrite ?suml_app; cbn [suml]; red0; try lia; try assumption.
    exists o. repeat split; try assumption; try lia. { intros v X Y. apply O5; [assumption|lia]. } apply r1_app; [discriminate|assumption].
  - destruct (q s) eqn:A; [discriminate|]. injection E as <-. destruct I as [TOK SRC RUN WIN HR SEQ (o & O1 & O2 & O3 & O4 & O5 & O6)].
    constructor; red0; rewrite ?suml_app; cbn [suml]; red0; try lia; try assumption.
    exists o. repeat split; try assumption; try lia. { intros v X Y. apply O5; [assumption|lia]. } apply r1_app; [discriminate|assumption].
  - destruct (nth_error (ag s) 0) as [[]|]; try discriminate. injection E as <-. destruct I as [TOK SRC RUN WIN HR SEQ (o & O1 & O2 & O3 & O4 & O5 & O6)].
    constructor; red0; rewrite ?suml_app; cbn [suml]; red0; try lia; try assumption.
    exists o. repeat split; try assumption; try lia. { intros v X Y. apply O5; [assumption|lia]. } apply r1_app; [discriminate|assumption].
Qed.
Lemma run_inv : forall l s s', run s l = Some s' -> Inv s -> Inv s'.
Proof.
  induction l as [|a l IH]; intros s s' R I; cbn in R; [injection R as <-; assumption|].
  destruct (exec s a) as [s1|] eqn:E; [|discriminate]. exact (IH _ _ R (exec_inv _ _ _ E I)).
Qed.
