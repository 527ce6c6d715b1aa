(** Invariants of RewaitModel for runs without cancellation, refusal and overtaken notification, and for
    runs that are cancelled while no run is past its check. *)
From Coq Require Import List Bool Arith Lia.
From Verif Require Import Slots SlotsProofs Threads RewaitModel RewaitProofs.
Import ListNotations.

Definition clean (l : list event) : Prop := ~ In EOver l /\ ~ In EFail l /\ forall b, ~ In (ECancel b) l.
Lemma clean_app : forall l e, clean (l ++ e) -> clean l /\ clean e.
Proof.
  intros l e (A & B & C). split; (split; [|split]).
  1, 4: intros H; apply A; apply in_or_app; auto.
  1, 3: intros H; apply B; apply in_or_app; auto.
  all: intros b H; apply (C b); apply in_or_app; auto.
Qed.
Definition ends (l : list event) : nat := suml (fun e => match e with ERet false => 1 | _ => 0 end) l.
Definition tk2 (a : agent) : nat := match a with T5 false => 0 | _ => tk a end.
Definition kk (a : agent) : nat := match a with K1 | K2 | K3 | K4 | K5 | K6 _ => 1 | _ => 0 end.
Definition w3 (a : agent) : nat := match a with R1 _ _ | R2 _ | R3 _ => 1 | _ => 0 end.
Definition dn (a : agent) : nat := match a with I2 => 1 | R4 _ n => n | _ => 0 end.
Definition i1 (a : agent) : nat := match a with I1 => 1 | _ => 0 end.
Record Inv2 (s : st) : Prop := {
  w_tok : inst s + q s + suml tk2 (ag s) + ends (log s) = 1;
  w_st : isS (sts s) + isC (sts s) = 1;
  w_src : bn (armed s) + suml sr (ag s) = isS (sts s);
  w_bit : bit s = false;
  w_kk : suml kk (ag s) = 0;
  w_w3 : suml w3 (ag s) <= isC (sts s);
  w_ins : inst s + isC (sts s) <= 1 + suml w3 (ag s);
  w_dn : suml dn (ag s) <= isC (sts s) }.
Lemma Inv2_init : Inv2 init.
Proof. constructor; cbn; auto. Qed.
Lemma ends_app : forall l e, ends (l ++ e) = ends l + ends e.
Proof. intros. apply suml_app. Qed.
Lemma subs2 : forall l, suml tc l <= suml tk l /\ suml th l + suml t7 l <= suml tc l /\ suml tk2 l <= suml tk l /\ suml w3 l <= suml wi l + suml (fun a => if late a then 1 else 0) l /\ suml dn l <= suml tk l /\ suml tc l + suml dn l + suml i1 l <= suml tk l.
Proof. induction l as [|a l IH]; cbn; [lia|]. destruct a; cbn [tc tk th t7 tk2 w3 wi late dn i1]; try lia. destruct again; cbn [tk]; lia. Qed.
Lemma no_late : forall l, existsb late l = false -> suml (fun a => if late a then 1 else 0) l = 0.
Proof. induction l as [|a l IH]; cbn; [reflexivity|]. destruct (late a); cbn; [discriminate|assumption]. Qed.
Ltac sums2 G f :=
  pose proof (suml_set _ tk2 _ _ _ f G); pose proof (suml_set _ sr _ _ _ f G); pose proof (suml_set _ kk _ _ _ f G); pose proof (suml_set _ w3 _ _ _ f G); pose proof (suml_set _ dn _ _ _ f G).
Ltac red2 := cbn [i1 tk tk2 kk w3 dn sr wi tc th t7 tb ta r1 cc bn negb isC isS isE bit wp sts op inst armed res nxt q ag log RewaitModel.w_bit w_wp w_sts w_op w_inst w_armed w_res w_nxt w_q w_ag say put after Nat.add] in *.
Lemma at_T3 : forall s i, Inv s -> nth_error (ag s) i = Some T3 -> sts s = Completed /\ exists v, res s = Some v /\ wins (log s) = calls (log s) ++ [v].
Proof.
  intros s i [TOK SRC RUN WIN HR SEQ (o & O1 & O2 & O3 & O4 & O5 & O6)] G. pose proof (subs (ag s)) as SB.
  pose proof (suml_ge _ tc _ _ _ G) as Gc. pose proof (suml_ge _ th _ _ _ G) as Gh. pose proof (suml_ge _ tb _ _ _ G) as Gb. pose proof (suml_ge _ tk _ _ _ G) as Gk. cbn in Gc, Gh, Gb, Gk.
  assert (C : sts s = Completed) by (apply isC_1; lia). split; [assumption|]. rewrite C in *. cbn in *.
  destruct o as [|v [|]]; cbn in *; try lia. exists v. split; [|assumption]. apply O5; [auto|]. destruct (op s); cbn in *; lia.
Qed.
Lemma step_inv2 : forall s i h r s', step s i h r = Some s' -> clean (log s') -> Inv s -> Inv2 s -> Inv2 s'.
Proof.
  intros s i h r s' E CL I. pose proof (at_T3 s i I) as A3. revert I. intros [TOK SRC RUN WIN HR SEQ _] [W1 W2 W3 W4 W5 W6 W7 W8].
  unfold step, on_completed in E. destruct (nth_error (ag s) i) as [a|] eqn:G; [|discriminate].
  pose proof (subs2 (ag s)) as SB.
  pose proof (suml_ge _ tk _ _ _ G) as Gk. pose proof (suml_ge _ sr _ _ _ G) as Gs. pose proof (suml_ge _ wi _ _ _ G) as Gw. pose proof (suml_ge _ tc _ _ _ G) as Gc.
  pose proof (suml_ge _ t7 _ _ _ G) as G7. pose proof (suml_ge _ kk _ _ _ G) as Gb. pose proof (suml_ge _ w3 _ _ _ G) as Ga. pose proof (suml_ge _ dn _ _ _ G) as G1. pose proof (suml_ge _ i1 _ _ _ G) as Gi. pose proof (suml_ge _ tk2 _ _ _ G) as G2.
  destruct a; try discriminate; red2.
  all: repeat match type of E with
    | context [match ?c with _ => _ end] => destruct c eqn:?
    end; try discriminate.
  all: injection E as <-.
  all: match goal with |- context [put _ _ ?y] => sums2 G y end.
  all: repeat match goal with x : cont |- _ => destruct x end; red2.
  all: repeat match goal with x : bool |- _ => destruct x end; red2.
  all: try (exfalso; lia).
  all: try (exfalso; destruct CL as (C1 & C2 & C3); first [apply C1; apply in_or_app; right; left; reflexivity | apply C2; apply in_or_app; right; left; reflexivity | eapply C3; apply in_or_app; right; left; reflexivity]).
  all: try match goal with H : existsb late _ = false |- _ => apply no_late in H end.
  all: constructor; red2; rewrite ?ends_app; cbn [ends suml]; red2; try congruence; try lia.
  all: try match goal with H : sts _ = ?x |- _ => rewrite ?H; cbn [isC isE isS] end; try lia.
  all: destruct (A3 eq_refl) as (_ & v & X & _); discriminate.
Qed.
Lemma exec_inv2 : forall s a s', exec s a = Some s' -> clean (log s') -> Inv s -> Inv2 s -> Inv2 s'.
Proof.
  intros s a s' E CL I W. destruct a; cbn [exec] in E.
  - exact (step_inv2 _ _ _ _ _ E CL I W).
  - destruct (armed s) eqn:A; [|discriminate]. injection E as <-. destruct W as [W1 W2 W3 W4 W5 W6 W7 W8]. rewrite A in W3.
    constructor; red2; rewrite ?suml_app; cbn [suml]; red2; try lia; try assumption.
  - destruct (q s) eqn:A; [discriminate|]. injection E as <-. destruct W as [W1 W2 W3 W4 W5 W6 W7 W8].
    constructor; red2; rewrite ?suml_app; cbn [suml]; red2; try lia; try assumption.
  - destruct (nth_error (ag s) 0) as [[]|]; try discriminate. injection E as <-. destruct W as [W1 W2 W3 W4 W5 W6 W7 W8].
    constructor; red2; rewrite ?suml_app; cbn [suml]; red2; try lia; try assumption.
Qed.
Lemma exec_log : forall s a s', exec s a = Some s' -> exists e, log s' = log s ++ e.
Proof.
  intros s a s' E. destruct a; cbn [exec] in E.
  - unfold step, on_completed in E. destruct (nth_error (ag s) i) as [a|]; [|discriminate].
    destruct a; try discriminate.
    all: repeat match type of E with context [match ?c with _ => _ end] => destruct c end; try discriminate; injection E as <-; cbn; try (eexists; reflexivity); exists []; rewrite app_nil_r; reflexivity.
  - destruct (armed s); [|discriminate]. injection E as <-. exists []. cbn. rewrite app_nil_r. reflexivity.
  - destruct (q s); [discriminate|]. injection E as <-. exists []. cbn. rewrite app_nil_r. reflexivity.
  - destruct (nth_error (ag s) 0) as [[]|]; try discriminate. injection E as <-. exists []. cbn. rewrite app_nil_r. reflexivity.
Qed.
Lemma run_log : forall l s s', run s l = Some s' -> exists e, log s' = log s ++ e.
Proof.
  induction l as [|a l IH]; intros s s' R; cbn in R; [injection R as <-; exists []; rewrite app_nil_r; reflexivity|].
  destruct (exec s a) as [s1|] eqn:E; [|discriminate]. destruct (exec_log _ _ _ E) as (e1 & E1). destruct (IH _ _ R) as (e2 & E2). exists (e1 ++ e2). rewrite E2, E1, app_assoc. reflexivity.
Qed.
Lemma run_inv2 : forall l s s', run s l = Some s' -> clean (log s') -> Inv s -> Inv2 s -> Inv2 s'.
Proof.
  induction l as [|a l IH]; intros s s' R CL I W; cbn in R; [injection R as <-; assumption|].
  destruct (exec s a) as [s1|] eqn:E; [|discriminate]. destruct (run_log _ _ _ R) as (e & X). pose proof CL as CL'. rewrite X in CL'. apply clean_app in CL'.
  exact (IH _ _ R CL (exec_inv _ _ _ E I) (exec_inv2 _ _ _ E (proj1 CL') I W)).
Qed.

(** * Cancellation *)
Definition isX (e : event) : bool := match e with ECancel _ => true | _ => false end.
(** Handlers called after the first Cancel. *)
Fixpoint after_cancel (l : list event) : list event := match l with [] => [] | e :: r => if isX e then r else after_cancel r end.
Definition t13 (a : agent) : nat := match a with T1 | T2 | T3 => 1 | _ => 0 end.
Record Inv3 (s : st) : Prop := {
  x_bit : bit s = existsb isX (log s);
  x_call : length (calls (after_cancel (log s))) + (if bit s then suml t13 (ag s) else 0) <= 1 }.
Lemma after_app : forall l e, existsb isX l = true -> after_cancel (l ++ e) = after_cancel l ++ e.
Proof. induction l as [|a l IH]; intros e H; cbn in *; [discriminate|]. destruct (isX a); cbn in *; [reflexivity|auto]. Qed.
Lemma after_none : forall l, existsb isX l = false -> after_cancel l = [].
Proof. induction l as [|a l IH]; intros H; cbn in *; [reflexivity|]. destruct (isX a); cbn in *; [discriminate|auto]. Qed.
Lemma after_last : forall l b, existsb isX l = false -> after_cancel (l ++ [ECancel b]) = [].
Proof. induction l as [|a l IH]; intros b H; cbn in *; [reflexivity|]. destruct (isX a); cbn in *; [discriminate|auto]. Qed.
Lemma t13_tk : forall l, suml t13 l <= suml tk l.
Proof. induction l as [|a l IH]; cbn; [lia|]. destruct a; cbn; lia. Qed.
Lemma step_inv3 : forall s i h r s', step s i h r = Some s' -> Inv s -> Inv3 s -> Inv3 s'.
Proof.
  intros s i h r s' E I [X1 X2]. pose proof (v_tok _ I) as TOK. pose proof (t13_tk (ag s)) as TT.
  unfold step, on_completed in E. destruct (nth_error (ag s) i) as [a|] eqn:G; [|discriminate].
  pose proof (suml_ge _ t13 _ _ _ G) as Gk.
  destruct a; try discriminate.
  all: repeat match type of E with context [match ?c with _ => _ end] => destruct c eqn:? end; try discriminate.
  all: injection E as <-.
  all: match goal with |- context [put _ _ ?y] => pose proof (suml_set _ t13 _ _ _ y G) end.
  all: repeat match goal with x : cont |- _ => destruct x end.
  all: cbn [t13 after] in *.
  all: constructor; cbn [bit ag log say put w_ag w_wp w_sts w_op w_inst w_armed w_res w_nxt w_q RewaitModel.w_bit]; rewrite ?existsb_app; cbn [existsb isX orb]; rewrite ?orb_false_r, ?orb_true_r; try congruence.
  all: try (rewrite X1 in *; destruct (existsb isX (log s)) eqn:EX; [rewrite ?after_app by assumption; rewrite ?calls_app, ?app_length; cbn [calls length]; lia | rewrite after_none by (rewrite ?existsb_app, EX; reflexivity); cbn; lia]).
  - rewrite Heqb. lia.
  - rewrite Heqb. rewrite after_none by (rewrite existsb_app, <- X1; reflexivity). cbn. lia.
  - rewrite Heqb. lia.
  - rewrite after_last by congruence. cbn. lia.
Qed.
Lemma exec_inv3 : forall s a s', exec s a = Some s' -> Inv s -> Inv3 s -> Inv3 s'.
Proof.
  intros s a s' E I W. destruct a; cbn [exec] in E.
  - exact (step_inv3 _ _ _ _ _ E I W).
  - destruct (armed s) eqn:A; [|discriminate]. injection E as <-. destruct W as [X1 X2]. constructor; cbn [bit ag log w_ag w_armed]; rewrite ?suml_app; cbn [suml t13]; rewrite ?Nat.add_0_r; assumption.
  - destruct (q s) eqn:A; [discriminate|]. injection E as <-. destruct W as [X1 X2]. constructor; cbn [bit ag log w_ag w_q]; rewrite ?suml_app; cbn [suml t13]; rewrite ?Nat.add_0_r; assumption.
  - destruct (nth_error (ag s) 0) as [[]|]; try discriminate. injection E as <-. destruct W as [X1 X2]. constructor; cbn [bit ag log w_ag w_q]; rewrite ?suml_app; cbn [suml t13]; rewrite ?Nat.add_0_r; assumption.
Qed.
Lemma run_inv3 : forall l s s', run s l = Some s' -> Inv s -> Inv3 s -> Inv3 s'.
Proof.
  induction l as [|a l IH]; intros s s' R I W; cbn in R; [injection R as <-; assumption|].
  destruct (exec s a) as [s1|] eqn:E; [|discriminate]. exact (IH _ _ R (exec_inv _ _ _ E I) (exec_inv3 _ _ _ E I W)).
Qed.

Definition bz (a : agent) : nat := if busy a then 1 else 0.
Definition k1 (a : agent) : nat := match a with K1 => 1 | _ => 0 end.
Definition k12 (a : agent) : nat := match a with K1 | K2 => 1 | _ => 0 end.
Definition k3 (a : agent) : nat := match a with K3 => 1 | _ => 0 end.
Definition k345 (a : agent) : nat := match a with K3 | K4 | K5 => 1 | _ => 0 end.
Definition isX' (x : status) : nat := match x with Canceled => 1 | _ => 0 end.
Definition quiet (l : list event) : Prop := In (ECancel false) l.
Record Inv4 (s : st) : Prop := {
  y_ins : inst s + isC (sts s) + isE (sts s) <= 1 + suml w3 (ag s);
  y_can : inst s + isX' (sts s) <= 1 + suml k345 (ag s);
  y_new : bit s = false -> suml kk (ag s) + isX' (sts s) = 0;
  y_bit : quiet (log s) -> bit s = true;
  y_q : quiet (log s) -> suml bz (ag s) = 0 /\ isS (sts s) <= suml k12 (ag s) /\ bn (armed s) <= isS (sts s) + suml k3 (ag s) /\ bn (wp s) <= suml k1 (ag s) /\ calls (after_cancel (log s)) = [] }.
Lemma not_busy : forall l, existsb busy l = false -> suml bz l = 0.
Proof. unfold bz. induction l as [|a l IH]; cbn; [reflexivity|]. destruct (busy a); cbn; [discriminate|assumption]. Qed.
Lemma quiet_app : forall l e, quiet (l ++ [e]) -> e <> ECancel false -> quiet l.
Proof. intros l e H N. apply in_app_or in H. destruct H as [H|[H|[]]]; [assumption|congruence]. Qed.
Lemma quiet_in : forall l, quiet l -> existsb isX l = true.
Proof. intros l H. apply existsb_exists. exists (ECancel false). auto. Qed.
Ltac red4 := cbn [tk cc kk isX' bz busy k1 k12 k3 k345 w3 sr bn negb isC isS isE bit wp sts op inst armed res nxt q ag log RewaitModel.w_bit w_wp w_sts w_op w_inst w_armed w_res w_nxt w_q w_ag say put after Nat.add] in *.
Lemma step_inv4 : forall s i h r s', step s i h r = Some s' -> Inv s -> Inv3 s -> Inv4 s -> Inv4 s'.
Proof.
  intros s i h r s' E I I3 [Y1 Y2 Y0 Y3 Y4]. pose proof (v_tok _ I) as TOK. pose proof (v_src _ I) as SRC. pose proof (x_bit _ I3) as XB.
  unfold step, on_completed in E. destruct (nth_error (ag s) i) as [a|] eqn:G; [|discriminate].
  pose proof (suml_ge _ tk _ _ _ G) as Gk. pose proof (suml_ge _ bz _ _ _ G) as Gb. pose proof (suml_ge _ kk _ _ _ G) as Gkk. pose proof (suml_ge _ sr _ _ _ G) as Gs.
  destruct a; try discriminate.
  all: repeat match type of E with context [match ?c with _ => _ end] => destruct c eqn:? end; try discriminate.
  all: injection E as <-.
  all: match goal with |- context [put _ _ ?y] => pose proof (suml_set _ bz _ _ _ y G); pose proof (suml_set _ kk _ _ _ y G); pose proof (suml_set _ k1 _ _ _ y G); pose proof (suml_set _ k12 _ _ _ y G); pose proof (suml_set _ k3 _ _ _ y G); pose proof (suml_set _ k345 _ _ _ y G); pose proof (suml_set _ w3 _ _ _ y G) end.
  all: repeat match goal with x : cont |- _ => destruct x end; red4.
  all: constructor; red4.
  all: try match goal with H : sts _ = ?x |- _ => rewrite ?H; cbn [isC isE isS isX'] end; try lia.
  all: try (intros B; first [discriminate B | specialize (Y0 B); try match goal with H : sts _ = ?x |- _ => rewrite ?H in *; cbn [isC isE isS isX'] in * end; lia]).
  all: try intros Q; try (apply quiet_app in Q; [|discriminate]).
  all: try (apply Y3; assumption).
  all: try (specialize (Y4 Q); destruct Y4 as (Z1 & Z2 & Z3 & Z4 & Z5); rewrite ?after_app by (apply quiet_in; assumption); rewrite ?calls_app; cbn [calls]; rewrite ?app_nil_r; repeat split; try assumption; lia).
  - congruence.
  - apply Y3 in Q. congruence.
  - exfalso. apply Y3 in Q. congruence.
  - congruence.
  - apply in_app_or in Q. destruct Q as [Q|[Q|[]]]; [apply Y3 in Q; discriminate|]. injection Q as Q. pose proof (not_busy _ Q) as NB. rewrite Q. specialize (Y0 eq_refl).
    rewrite after_last by congruence. cbn [calls]. destruct (sts s); red4; destruct (armed s), (wp s); red4; repeat split; lia.
  - destruct (sts s); cbn; lia.
Qed.
Lemma exec_inv4 : forall s a s', exec s a = Some s' -> Inv s -> Inv3 s -> Inv4 s -> Inv4 s'.
Proof.
  intros s a s' E I W3 W. destruct a; cbn [exec] in E.
  - exact (step_inv4 _ _ _ _ _ E I W3 W).
  - destruct (armed s) eqn:A; [|discriminate]. injection E as <-. destruct W as [Y1 Y2 Y0 Y3 Y4]. constructor; red4; rewrite ?suml_app; cbn [suml]; red4; rewrite ?Nat.add_0_r; try assumption.
    intros Q. specialize (Y4 Q). rewrite A in Y4. cbn [bn] in Y4. repeat split; try lia; tauto.
  - destruct (q s) eqn:A; [discriminate|]. injection E as <-. destruct W as [Y1 Y2 Y0 Y3 Y4]. constructor; red4; rewrite ?suml_app; cbn [suml]; red4; rewrite ?Nat.add_0_r; assumption.
  - destruct (nth_error (ag s) 0) as [[]|]; try discriminate. injection E as <-. destruct W as [Y1 Y2 Y0 Y3 Y4]. constructor; red4; rewrite ?suml_app; cbn [suml]; red4; rewrite ?Nat.add_0_r; assumption.
Qed.
Lemma run_inv4 : forall l s s', run s l = Some s' -> Inv s -> Inv3 s -> Inv4 s -> Inv4 s'.
Proof.
  induction l as [|a l IH]; intros s s' R I W3 W; cbn in R; [injection R as <-; assumption|].
  destruct (exec s a) as [s1|] eqn:E; [|discriminate]. exact (IH _ _ R (exec_inv _ _ _ E I) (exec_inv3 _ _ _ E I W3) (exec_inv4 _ _ _ E I W3 W)).
Qed.
Lemma Inv3_init : Inv3 init. Proof. constructor; cbn; lia. Qed.
Lemma Inv4_init : Inv4 init. Proof. constructor; cbn; try lia; intros []. Qed.
(** Steps left to an agent when it is alone. *)
Definition left (a : agent) : nat :=
  match a with T0 => 22 | T1 => 21 | T2 => 20 | T3 => 19 | T4 => 18 | T5 _ => 17 | T6 => 16 | T7 => 15 | T8 => 14 | T9 _ => 13 | T10 _ => 12
  | R0 _ _ => 11 | R1 _ _ => 10 | R2 _ => 9 | R3 _ => 8 | R4 _ n => 4 + n | I1 => 2 | I2 => 1 | K0 => 8 | K1 => 7 | K2 => 6 | K3 => 5 | K4 => 4 | K5 => 3 | K6 n => 1 + n | Idle => 0 end.
Lemma step_left : forall s i h r s', step s i h r = Some s' -> Inv s -> suml left (ag s') < suml left (ag s).
Proof.
  intros s i h r s' E I. pose proof (v_tok _ I) as TOK.
  unfold step, on_completed in E. destruct (nth_error (ag s) i) as [a|] eqn:G; [|discriminate].
  destruct a; try discriminate.
  all: repeat match type of E with context [match ?c with _ => _ end] => destruct c eqn:? end; try discriminate.
  all: injection E as <-.
  all: match goal with |- context [put _ _ ?y] => pose proof (suml_set _ left _ _ _ y G) end.
  all: repeat match goal with x : cont |- _ => destruct x end.
  all: cbn [left after ag say put w_ag w_wp w_sts w_op w_inst w_armed w_res w_nxt w_q RewaitModel.w_bit] in *; lia.
Qed.
Lemma can_step : forall s i a h r, nth_error (ag s) i = Some a -> a <> Idle -> a <> T2 -> exists s', step s i h r = Some s'.
Proof.
  intros s i a h r G N N2. unfold step. rewrite G. destruct a; try contradiction; try (eexists; reflexivity).
  - destruct (sts s); try (eexists; reflexivity). destruct (res s); eexists; reflexivity.
  - destruct n; eexists; reflexivity.
  - destruct n; eexists; reflexivity.
Qed.
Lemma progress : forall s i a h r, Inv s -> nth_error (ag s) i = Some a -> a <> Idle -> exists j s', step s j h r = Some s'.
Proof.
  intros s i a h r I G N. assert (D : a = T2 \/ a <> T2) by (destruct a; auto; right; discriminate). destruct D as [->|D]; [|exists i; exact (can_step _ _ _ h r G N D)].
  destruct (op s) eqn:O; [|exists i; unfold step; rewrite G, O; eexists; reflexivity].
  destruct I as [TOK SRC RUN WIN HR SEQ _]. pose proof (subs (ag s)) as SB. pose proof (suml_ge _ tc _ _ _ G) as Gc. cbn in Gc. rewrite O in WIN. cbn in WIN.
  assert (C : sts s = Completed) by (apply isC_1; lia). rewrite C in *. cbn in *.
  assert (T7 : suml t7 (ag s) = 0).
  { destruct (suml t7 (ag s)) eqn:E; [reflexivity|]. destruct (suml_pos _ t7 (ag s)) as (j & b & GJ & P); [lia|]. destruct b; cbn in P; try lia.
    assert (NJ : i <> j) by congruence. pose proof (suml_two _ tk _ _ _ _ _ NJ G GJ) as X. cbn in X. lia. }
  destruct (suml_pos _ wi (ag s)) as (j & b & GJ & P); [lia|]. exists j. apply (can_step _ _ b h r GJ); destruct b; cbn in P; try lia; discriminate.
Qed.
(** Once the handler has asked to stop, nothing is left to deliver. *)
Definition InvE (s : st) : Prop := ends (log s) + isS (sts s) <= 1 /\ ends (log s) + length (wins (log s)) <= 1 + length (calls (log s)).
Lemma step_invE : forall s i h r s', step s i h r = Some s' -> Inv s -> Inv2 s -> InvE s -> InvE s'.
Proof.
  intros s i h r s' E [TOK SRC RUN WIN HR SEQ (o & O1 & O2 & O3 & _)] [W1 W2 W3 W4 W5 W6 W7 W8] [X1 X2].
  assert (LW : length (wins (log s)) = length (calls (log s)) + length o) by (rewrite O1, app_length; reflexivity).
  unfold step, on_completed in E. destruct (nth_error (ag s) i) as [a|] eqn:G; [|discriminate].
  pose proof (suml_ge _ tk2 _ _ _ G) as G2. pose proof (suml_ge _ ta _ _ _ G) as Ga. pose proof (suml_ge _ tc _ _ _ G) as Gc.
  destruct a; try discriminate.
  all: repeat match type of E with
    | context [match ?c with _ => _ end] => destruct c eqn:?
    end; try discriminate.
  all: injection E as <-.
  all: split; red2; rewrite ?ends_app, ?wins_app, ?calls_app, ?app_length; cbn [ends suml wins calls length]; red2; try lia.
  all: try match goal with H : sts _ = _ |- _ => rewrite H in *; cbn in * end; try lia.
Qed.
Lemma exec_invE : forall s a s', exec s a = Some s' -> Inv s -> Inv2 s -> InvE s -> InvE s'.
Proof.
  intros s a s' E I W X. destruct a; cbn [exec] in E.
  - exact (step_invE _ _ _ _ _ E I W X).
  - destruct (armed s); [|discriminate]. injection E as <-. exact X.
  - destruct (q s); [discriminate|]. injection E as <-. exact X.
  - destruct (nth_error (ag s) 0) as [[]|]; try discriminate. injection E as <-. exact X.
Qed.
Lemma run_invE : forall l s s', run s l = Some s' -> clean (log s') -> Inv s -> Inv2 s -> InvE s -> InvE s'.
Proof.
  induction l as [|a l IH]; intros s s' R CL I W X; cbn in R; [injection R as <-; assumption|].
  destruct (exec s a) as [s1|] eqn:E; [|discriminate]. destruct (run_log _ _ _ R) as (e & Y). pose proof CL as CL'. rewrite Y in CL'. apply clean_app in CL'.
  exact (IH _ _ R CL (exec_inv _ _ _ E I) (exec_inv2 _ _ _ E (proj1 CL') I W) (exec_invE _ _ _ E I W X)).
Qed.
Lemma InvE_init : InvE init.
Proof. split; cbn; lia. Qed.
