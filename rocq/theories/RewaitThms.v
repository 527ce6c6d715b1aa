(** C95-C97: a Wait that calls its handler each time a handle is signalled. *)
From Coq Require Import List Bool Arith Lia.
From Verif Require Import Slots SlotsProofs Threads RewaitModel RewaitProofs RewaitInv.
Import ListNotations.

(** Specification, over the log and the kind of the agents only. *)
Definition won (l : list event) : list nat := flat_map (fun e => match e with EWin v => [v] | _ => [] end) l.
Definition called (l : list event) : list nat := flat_map (fun e => match e with ECall v => [v] | _ => [] end) l.
(** Executing RunTask up to the point where the wait is set again. *)
Definition running (a : agent) : Prop := match a with T0 | T1 | T2 | T3 | T4 | T5 _ | T6 | T7 | T8 => True | _ => False end.
Definition settled (s : st) : Prop := q s = 0 /\ forall i a, nth_error (ag s) i = Some a -> a = Idle.
(** What happens after the first Cancel. *)
Fixpoint since (l : list event) : list event := match l with [] => [] | ECancel _ :: r => r | _ :: r => since r end.

Lemma won_wins : forall l, won l = wins l.
Proof. induction l as [|[] l IH]; cbn; auto. rewrite <- IH. reflexivity. Qed.
Lemma called_calls : forall l, called l = calls l.
Proof. induction l as [|[] l IH]; cbn; auto. rewrite <- IH. reflexivity. Qed.
Lemma since_after : forall l, since l = after_cancel l.
Proof. induction l as [|[] l IH]; cbn; auto. Qed.
Lemma reach : forall l s, run init l = Some s -> Inv s.
Proof. intros l s R. exact (run_inv _ _ _ R Inv_init). Qed.
Lemma idle0 : forall s (f : agent -> nat), f Idle = 0 -> settled s -> suml f (ag s) = 0.
Proof.
  intros s f F (_ & Q). destruct (suml f (ag s)) as [|n] eqn:E; [reflexivity|]. destruct (suml_pos _ f (ag s)) as (i & a & G & P); [lia|]. rewrite (Q _ _ G) in P. lia.
Qed.

(** C95: in every run, the handler is called with the completions in the order in which they were accepted,
    once each and none left out; at most the last one is not yet delivered. *)
Theorem C95_order : forall l s, run init l = Some s -> exists r, won (log s) = called (log s) ++ r /\ length r <= 1 /\ won (log s) = seq 0 (length (won (log s))).
Proof.
  intros l s R. destruct (reach _ _ R) as [_ _ _ _ _ SEQ (o & O1 & O2 & _)]. rewrite won_wins, called_calls. exists o. split; [assumption|]. split; [destruct (sts s); cbn in O2; lia|].
  rewrite SEQ, seq_length. reflexivity.
Qed.
(** RunTask is not executed by two threads, and not while a run is posted. *)
Theorem C95_serial : forall l s i j a b, run init l = Some s -> nth_error (ag s) i = Some a -> nth_error (ag s) j = Some b -> running a -> running b -> i = j /\ q s = 0 /\ inst s = 0.
Proof.
  intros l s i j a b R GI GJ RA RB. pose proof (v_tok _ (reach _ _ R)) as TOK.
  assert (A : 1 <= tk a) by (destruct a; cbn in *; lia || contradiction). assert (B : 1 <= tk b) by (destruct b; cbn in *; lia || contradiction).
  pose proof (suml_ge _ tk _ _ _ GI). destruct (Nat.eq_dec i j) as [|N]; [split; [assumption|lia]|]. pose proof (suml_two _ tk _ _ _ _ _ N GI GJ). lia.
Qed.
(** GetResult in RunTask never fails: the operation is completed whenever RunTask looks at it. *)
Theorem C95_result : forall l s i, run init l = Some s -> nth_error (ag s) i = Some T3 -> sts s = Completed /\ exists v, res s = Some v /\ won (log s) = called (log s) ++ [v].
Proof. intros l s i R G. rewrite won_wins, called_calls. exact (at_T3 _ _ (reach _ _ R) G). Qed.

(** A handler that returns false or throws is not called again, whatever happens afterwards. *)
Definition tk2 (a : agent) : nat := match a with T5 false => 0 | _ => tk a end.
Definition Over (s : st) : Prop := sts s = Completed /\ inst s = 0 /\ q s = 0 /\ armed s = false /\ suml tk2 (ag s) = 0 /\ suml sr (ag s) = 0.
Lemma exec_Over : forall s a s', exec s a = Some s' -> Over s -> Over s' /\ called (log s') = called (log s).
Proof.
  intros s a s' E (C & N & Q & A & T & R). destruct a as [i h r| | |]; cbn [exec] in E.
  - unfold step, on_completed in E. destruct (nth_error (ag s) i) as [a|] eqn:G; [|discriminate].
    pose proof (suml_ge _ tk2 _ _ _ G) as X1. pose proof (suml_ge _ sr _ _ _ G) as X2. rewrite T in X1. rewrite R in X2.
    assert (U : forall y, tk2 y = 0 -> sr y = 0 -> suml tk2 (set (ag s) i y) = 0 /\ suml sr (set (ag s) i y) = 0).
    { intros y Y1 Y2. pose proof (suml_set _ tk2 _ _ _ y G). pose proof (suml_set _ sr _ _ _ y G). lia. }
    destruct a; try discriminate; cbn in X1, X2; try (exfalso; lia); try (destruct c; cbn in X1; try (exfalso; lia)); try (destruct again; cbn in X1; try (exfalso; lia)); try (destruct n; cbn in X1; try (exfalso; lia)); rewrite ?C in E.
    all: repeat match type of E with context [if ?b then _ else _] => destruct b end.
    all: injection E as <-; (split; [|cbn; rewrite ?called_calls, ?calls_app; cbn; rewrite ?app_nil_r; reflexivity]).
    all: unfold Over; cbn [put say w_bit w_wp w_op w_inst w_armed w_res w_q w_ag sts inst q armed ag after].
    all: rewrite ?N in *; (split; [assumption|]); (split; [reflexivity || assumption|]); (split; [assumption|]); (split; [reflexivity || assumption|]); apply U; cbn; reflexivity.
  - rewrite A in E. discriminate.
  - rewrite Q in E. discriminate.
  - destruct (nth_error (ag s) 0) as [[]|]; try discriminate. injection E as <-. split; [|reflexivity]. unfold Over. cbn. rewrite !suml_app. cbn. repeat (split; [assumption|]). lia.
Qed.
Theorem C95_stop : forall l s i h r k s', run init l = Some s -> nth_error (ag s) i = Some T4 -> r <> RAgain -> run s (Step i h r :: k) = Some s' -> called (log s') = called (log s).
Proof.
  intros l s i h r k s' R G N R2. pose proof (reach _ _ R) as [TOK SRC RUN WIN HR SEQ _].
  assert (E : exec s (Step i h r) = Some (say (put s i (T5 false)) [ERet false])) by (cbn; unfold step; rewrite G; destruct r; [congruence|reflexivity|reflexivity]).
  cbn [run] in R2. rewrite E in R2. assert (O : Over (say (put s i (T5 false)) [ERet false])).
  { pose proof (suml_ge _ tk _ _ _ G) as X1. pose proof (suml_ge _ tc _ _ _ G) as X2. cbn in X1, X2. assert (C : sts s = Completed) by (apply isC_1; lia). rewrite C in *. cbn in *.
    pose proof (suml_set _ tk2 _ _ _ (T5 false) G) as Y1. pose proof (suml_set _ sr _ _ _ (T5 false) G) as Y2. cbn in Y1, Y2. pose proof (sub tk2 tk (ag s) (fun a => ltac:(destruct a as [| | | | |[]| | | | | | | | | | | | | | | | | | | |]; cbn; lia))) as Y3.
    unfold Over. cbn. split; [exact C|]. split; [lia|]. split; [lia|]. split; [destruct (armed s); [cbn in SRC; lia|reflexivity]|]. lia. }
  assert (L : called (log (say (put s i (T5 false)) [ERet false])) = called (log s)) by (cbn; rewrite !called_calls, calls_app; apply app_nil_r).
  rewrite <- L. clear L E G R TOK SRC RUN WIN HR SEQ. revert O R2. generalize (say (put s i (T5 false)) [ERet false]). clear. induction k as [|a k IH]; intros s O R; cbn in R; [injection R as <-; reflexivity|].
  destruct (exec s a) as [s1|] eqn:E; [|discriminate]. destruct (exec_Over _ _ _ E O) as (O1 & L). rewrite <- L. apply IH; assumption.
Qed.
Example C95_throw : match run init (Step 0 HArm RAgain :: Signal :: map (fun i => Step i HArm RAgain) [1;1;1;1;1;1] ++ Take :: map (fun i => Step i HArm RAgain) [2;2;2;2]) with
  | Some s => nth_error (ag s) 2 = Some T4 /\ (exists s', run s (Step 2 HArm RThrow :: Step 2 HArm RAgain :: Cancel :: map (fun i => Step i HArm RAgain) [3;3;3]) = Some s' /\ called (log s') = [0]) | None => False end.
Proof. vm_compute. split; [reflexivity|]. eexists. split; reflexivity. Qed.

Example C95_run : match run init (Step 0 HArm RAgain :: Signal :: map (fun i => Step i HArm RAgain) [1;1;1;1;1;1] ++ Take :: map (fun i => Step i HArm RAgain) [2;2;2;2;2]) with
  | Some s => log s = [EWin 0; EPass; ECall 0; ERet true] /\ nth_error (ag s) 2 = Some (T5 true) | None => False end.
Proof. vm_compute. split; reflexivity. Qed.

(** C96: without Cancel, if every wait is accepted and no thread that reports a completion is overtaken by
    the next round, then when everything has settled all accepted completions were delivered, and either the
    handler has asked to stop or the wait is armed with its handler installed. *)
Theorem C96_partial : forall l s, run init l = Some s -> (forall b, ~ In (ECancel b) (log s)) -> ~ In EFail (log s) -> ~ In EOver (log s) -> settled s ->
  won (log s) = called (log s) /\ (In (ERet false) (log s) \/ (armed s = true /\ inst s = 1 /\ sts s = Started)).
Proof.
  intros l s R NC NF NO Q. pose proof (reach _ _ R) as I. assert (CL : clean (log s)) by (split; [assumption|split; assumption]).
  pose proof (run_inv2 _ _ _ R CL Inv_init Inv2_init) as [W1 W2 W3 W4 W5 W6 W7 W8]. pose proof Q as (Q0 & _).
  pose proof (run_invE _ _ _ R CL Inv_init Inv2_init InvE_init) as [E1 E2].
  rewrite !idle0 in * by (auto; exact Q). rewrite Q0 in W1. rewrite won_wins, called_calls.
  destruct I as [_ _ _ _ _ _ (o & O1 & O2 & _)]. rewrite O1, app_length in E2.
  destruct (inst s) as [|[|]] eqn:EI; try lia.
  - split.
    + destruct o as [|v o]; [rewrite app_nil_r in O1; assumption|cbn in E2; lia].
    + left. destruct (suml_pos _ (fun e => match e with ERet false => 1 | _ => 0 end) (log s)) as (i & e & G & P); [unfold ends in *; lia|].
      destruct e as [| | | |[]| | | |]; try lia. exact (nth_error_In _ _ G).
  - assert (S1 : sts s = Started) by (destruct (sts s); cbn in *; lia || reflexivity). rewrite S1 in *. cbn in *. split.
    + destruct o; [rewrite app_nil_r in O1; assumption|cbn in O2; lia].
    + right. split; [|split; reflexivity]. destruct (armed s); [reflexivity|cbn in W3; lia].
Qed.
(** Everything does settle: some thread can go on as long as one is not done, and every step brings the end
    nearer, whatever the handler returns and however the wait is taken. *)
Theorem C96_live : forall l s i a h r, run init l = Some s -> nth_error (ag s) i = Some a -> a <> Idle -> exists j s', exec s (Step j h r) = Some s'.
Proof. intros l s i a h r R G N. exact (progress _ _ _ h r (reach _ _ R) G N). Qed.
Theorem C96_ends : forall l s, run init l = Some s -> forall k s', (forall a, In a k -> match a with Step _ _ _ => True | _ => False end) -> run s k = Some s' -> length k <= suml left (ag s).
Proof.
  intros l s R. pose proof (reach _ _ R) as I. clear R. intros k. revert s I. induction k as [|a k IH]; intros s I s' H E; cbn in *; [lia|].
  pose proof (H a (or_introl eq_refl)) as Ha. destruct a; try contradiction. cbn [exec] in E.
  destruct (step s i h r) as [s1|] eqn:S; [|discriminate]. pose proof (step_left _ _ _ _ _ S I). pose proof (IH s1 (exec_inv s (Step i h r) s1 S I) s' (fun b Hb => H b (or_intror Hb)) E). lia.
Qed.
(** The thread that completes round 2 is slow to take the handlers; the third wait is installed meanwhile,
    the slow thread takes its handler away and drops it, and the third signal calls nobody: the wait is over
    although the handler asked to go on, and nobody cancelled. *)
Definition st1 (i : nat) := Step i HArm RAgain.
Definition lost_run : list act :=
  st1 0 :: Signal :: map st1 [1;1;1;1;1;1] ++ Take :: map st1 [2;2;2;2;2;2;2;2;2;2;2] ++ Signal :: map st1 [3;3;2;2]
  ++ Take :: map st1 [4;4;3;4;4;4;4;4;4;4;4;4;4] ++ map st1 [3;3;3] ++ Signal :: map st1 [5;5;5;5;5].
Theorem C96_refuted : exists s, run init lost_run = Some s /\ settled s /\ won (log s) = [0; 1; 2] /\ called (log s) = [0; 1]
  /\ armed s = false /\ inst s = 0 /\ (forall b, ~ In (ECancel b) (log s)) /\ ~ In EFail (log s) /\ ~ In (ERet false) (log s).
Proof.
  eexists. split; [vm_compute; reflexivity|]. cbn. repeat split.
  - intros [|[|[|[|[|[|i]]]]]] a H; cbn in H; try (injection H as <-; reflexivity). destruct i; discriminate.
  - intros b H. repeat (destruct H as [H|H]; [discriminate|]). exact H.
  - intros H. repeat (destruct H as [H|H]; [discriminate|]). exact H.
  - intros H. repeat (destruct H as [H|H]; [discriminate|]). exact H.
Qed.
(** The pool refuses the wait: CreateWait succeeds, the handler is never called, and whoever waits for the
    Wait waits for ever. *)
Definition fail_run : list act := map (fun i => Step i HFail RAgain) [0;0;0;0;0;0].
Theorem C96_fail_refuted : exists s, run init fail_run = Some s /\ settled s /\ log s = [EFail; EDrop Error] /\ armed s = false /\ wp s = true.
Proof.
  eexists. split; [vm_compute; reflexivity|]. cbn. repeat split. intros [|[|i]] a H; cbn in H; try discriminate. injection H as <-. reflexivity.
Qed.

(** C97: after the first Cancel the handler is called at most once more. *)
Theorem C97_once : forall l s, run init l = Some s -> length (called (since (log s))) <= 1.
Proof. intros l s R. rewrite since_after, called_calls. pose proof (x_call _ (run_inv3 _ _ _ R Inv_init Inv3_init)). lia. Qed.
(** If RunTask was not past its check, the handler is not called any more, and when everything has settled the
    wait is not armed, has no handler, and whoever waits for it was woken. *)
Theorem C97_partial : forall l s, run init l = Some s -> In (ECancel false) (log s) ->
  called (since (log s)) = [] /\ (settled s -> armed s = false /\ wp s = false /\ inst s = 0 /\ sts s <> Started).
Proof.
  intros l s R Q. pose proof (run_inv4 _ _ _ R Inv_init Inv3_init Inv4_init) as [Y1 Y2 Y3 Y4 Y5]. destruct (Y5 Q) as (A & B & C & D & E). rewrite since_after, called_calls. split; [assumption|].
  intros ST. rewrite !idle0 in * by (auto; exact ST). destruct (sts s); cbn in *; try lia; (split; [destruct (armed s); cbn in *; lia || reflexivity|split; [destruct (wp s); cbn in *; lia || reflexivity|split; [lia|discriminate]]]).
Qed.
(** Cancel returns while RunTask is between its check and the handler; the handler is called afterwards. *)
Definition late_run : list act := st1 0 :: Signal :: map st1 [1;1;1;1;1;1] ++ Take :: map st1 [2] ++ Cancel :: map st1 [3;3;3] ++ map st1 [2;2;2].
Theorem C97_refuted : match run init late_run with Some s => log s = [EWin 0; EPass; ECancel true; EDone; ECall 0] | None => False end.
Proof. vm_compute. reflexivity. Qed.
(** Cancel returns while the handler runs, the handler asks to go on: everything settles with the wait armed
    again, and whoever waits for the cancelled Wait waits for ever. *)
Definition rearm_run : list act := st1 0 :: Signal :: map st1 [1;1;1;1;1;1] ++ Take :: map st1 [2;2;2;2] ++ Cancel :: map st1 [3;3;3] ++ map st1 [2;2;2;2;2;2;2;2].
Theorem C97_armed_refuted : exists s, run init rearm_run = Some s /\ settled s /\ In EDone (log s) /\ armed s = true /\ inst s = 1 /\ wp s = true.
Proof.
  eexists. split; [vm_compute; reflexivity|]. cbn. repeat split.
  - intros [|[|[|[|i]]]] a H; cbn in H; try (injection H as <-; reflexivity). destruct i; discriminate.
  - auto 10.
Qed.
(** Its next signal posts RunTask for nothing. *)
Example C97_swallowed : match run init (rearm_run ++ Signal :: map st1 [4;4;4;4;4;4] ++ Take :: map st1 [5]) with
  Some s => won (log s) = [0; 1] /\ called (log s) = [0] /\ settled s /\ armed s = false /\ wp s = true | None => False end.
Proof. vm_compute. repeat split. intros [|[|[|[|[|[|i]]]]]] a H; cbn in H; try (injection H as <-; reflexivity). destruct i; discriminate. Qed.

(** The hypotheses of C96_partial and C97_partial are met by non-trivial runs. *)
Definition round (sig run : nat) (r : ret) : list act := Signal :: map st1 (repeat sig 6) ++ Take :: map (fun i => Step i HArm r) (repeat run (match r with RAgain => 12 | _ => 6 end)).
Example C96_two_rounds : match run init (st1 0 :: round 1 2 RAgain ++ round 3 4 RAgain) with
  Some s => won (log s) = [0; 1] /\ called (log s) = [0; 1] /\ armed s = true /\ inst s = 1 /\ settled s /\ ~ In EOver (log s) | None => False end.
Proof.
  vm_compute. repeat split.
  - intros [|[|[|[|[|i]]]]] a H; cbn in H; try (injection H as <-; reflexivity). destruct i; discriminate.
  - intros H. repeat (destruct H as [H|H]; [discriminate|]). exact H.
Qed.
Example C96_stop : match run init (st1 0 :: round 1 2 RAgain ++ round 3 4 RStop) with
  Some s => won (log s) = [0; 1] /\ called (log s) = [0; 1] /\ armed s = false /\ In (ERet false) (log s) /\ settled s | None => False end.
Proof.
  vm_compute. repeat split; auto 10. intros [|[|[|[|[|i]]]]] a H; cbn in H; try (injection H as <-; reflexivity). destruct i; discriminate.
Qed.
Example C97_quiet : match run init (st1 0 :: round 1 2 RAgain ++ Cancel :: map st1 [3;3;3;3;3;3;3;3]) with
  Some s => In (ECancel false) (log s) /\ settled s /\ armed s = false /\ wp s = false /\ log s = [EWin 0; EPass; ECall 0; ERet true; ECancel false; EDrop Canceled; EDone] | None => False end.
Proof.
  vm_compute. repeat split; auto 10. intros [|[|[|[|i]]]] a H; cbn in H; try (injection H as <-; reflexivity). destruct i; discriminate.
Qed.

Print Assumptions C95_order.
Print Assumptions C95_stop.
Print Assumptions C95_serial.
Print Assumptions C95_result.
Print Assumptions C96_partial.
Print Assumptions C96_live.
Print Assumptions C96_ends.
Print Assumptions C96_refuted.
Print Assumptions C96_fail_refuted.
Print Assumptions C97_once.
Print Assumptions C97_partial.
Print Assumptions C97_refuted.
Print Assumptions C97_armed_refuted.
