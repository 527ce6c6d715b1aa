(** C124: a coroutine goes on once after co_await, with the result of the task, where it awaited; its frame is used only
    while it lives.  C125: it comes to its end, its task settles and its frame is freed. *)
From Coq Require Import List Bool Arith Lia.
From Verif Require Import Slots SlotsProofs Threads RecoverModel RecoverProofs AwaitModel AwaitProofs.
Import ListNotations.

Lemma suml_some : forall l, suml cactive l <> 0 -> exists i p, nth_error l i = Some p /\ p <> CIdle.
Proof.
  induction l as [|p l IH]; cbn; [congruence|]. intros H. destruct (cactive p) eqn:A.
  - destruct IH as (i & q & N & Q); [exact H|]. exists (S i), q. auto.
  - exists 0, p. split; [reflexivity|]. intros ->. discriminate.
Qed.
(** Every reachable state is before the await, after it, or at the end. *)
Lemma phase tok r s : CInv tok r s -> before s \/ (awake r s) \/ knows tok r s \/ killed r s \/ done_ tok r s.
Proof.
  intros I. destruct (Nat.eq_dec (clive s) 0) as [Z|Z].
  - destruct (j_end tok r s I Z) as [(A & _)|[A|A]]; auto.
  - unfold clive in Z. destruct (Nat.eq_dec (suml cactive (cths s)) 0) as [S|S].
    + left. assert (H : reg (aw s) = true \/ cent s = QWait) by (destruct (reg (aw s)); [auto|destruct (cent s); cbn in Z; auto; lia]).
      destruct (j_wait tok r s I H) as (A & _). exact A.
    + destruct (suml_some _ S) as (i & p & N & Q). pose proof (j_pc tok r s I i p N) as P. destruct p; cbn in P; try (exfalso; congruence); tauto.
Qed.

(** * C124 *)
Theorem C124_safe : forall tok r l s, crun tok r cinit l = Some s -> ub s = false /\ resumed s <= 1 /\ freed s <= 1.
Proof.
  intros tok r l s R. pose proof (crun_CInv tok r l _ s (init_CInv tok r) R) as I. split; [exact (j_ub tok r s I)|].
  destruct (phase tok r s I) as [A|[A|[A|[A|A]]]].
  - destruct A as (A1 & _ & _ & _ & A2 & _). lia.
  - destruct A as ((A1 & _ & A2 & _) & _). lia.
  - destruct A as ((A1 & _ & A2 & _) & _). lia.
  - destruct A as (_ & _ & A1 & _ & _ & _ & A2 & _). lia.
  - destruct A as (A1 & A2 & _). lia.
Qed.
(** co_await gives the value of a completed task, throws what a failed one holds, or reports a cancellation. *)
Theorem C124_result : forall tok r l s g, crun tok r cinit l = Some s -> got s = Some g ->
  match g with
  | RVal v => dec (aw s) = Some (EVal v)
  | RExn x => dec (aw s) = Some (EExn x) \/ (exists c, dec (aw s) = Some (ECode c) /\ x = Code (norm c)) \/ (dec (aw s) = Some ECan /\ x = OpCanceled) \/
      (tok = true /\ cflag s = true /\ (x = OpCanceled \/ x = Code E_FAIL))
  end.
Proof.
  intros tok r l s g R G. pose proof (crun_CInv tok r l _ s (init_CInv tok r) R) as I.
  assert (T : truth tok s g).
  { destruct (phase tok r s I) as [A|[A|[A|[A|A]]]].
    - destruct A as (_ & A & _). congruence.
    - destruct A as (_ & A & _). congruence.
    - destruct A as (_ & g' & A & B). assert (g' = g) by congruence. subst g'. exact B.
    - destruct A as (_ & _ & _ & A & _). congruence.
    - destruct A as (_ & _ & _ & _ & _ & g' & A & B). assert (g' = g) by congruence. subst g'. exact B. }
  destruct g as [v|x]; [exact T|]. destruct T as [(d & D & B & E)|(S & E)].
  - destruct d; cbn in *; subst; eauto 6; contradiction.
  - apply andb_true_iff in S as (S1 & S2). auto 10.
Qed.
(** It goes on in the thread that awaits, without having been suspended, or on the runner that was current there, or, if there
    was none, in the thread that completes the task. *)
Theorem C124_place : forall tok r l s p, crun tok r cinit l = Some s -> at_ s = Some p ->
  resumed s = 1 /\ match p with Same => True | Runner => r = true | Completer => r = false end.
Proof.
  intros tok r l s p R G. pose proof (crun_CInv tok r l _ s (init_CInv tok r) R) as I.
  destruct (phase tok r s I) as [A|[A|[A|[A|A]]]].
  - destruct A as (_ & _ & A & _). congruence.
  - destruct A as ((A & _ & _ & p' & B & C) & _). assert (p' = p) by congruence. subst p'. split; [exact A|exact C].
  - destruct A as ((A & _ & _ & p' & B & C) & _). assert (p' = p) by congruence. subst p'. split; [exact A|exact C].
  - destruct A as (_ & _ & _ & _ & A & _). congruence.
  - destruct A as (A & _ & _ & _ & (p' & B & C) & _). assert (p' = p) by congruence. subst p'. split; [exact A|exact C].
Qed.
(** The coroutine's own task completes with what the body returned, fails with what it threw, and stays settled. *)
Theorem C124_own : forall tok r l s, crun tok r cinit l = Some s ->
  match own s with
  | Started => True
  | Completed v => fin s = Some (FReturn v)
  | Canceled => In ACancel l
  | Failed p c => exists x, fin s = Some (FThrow x) /\ p = Some x /\ c = norm (code_of x)
  end.
Proof.
  intros tok r l s R. pose proof (j_own tok r s (crun_CInv tok r l _ s (init_CInv tok r) R)) as W.
  unfold own_ok in W. destruct (own s) eqn:O; try exact W.
  assert (H : own cinit = Canceled \/ In ACancel l); [|destruct H as [H|H]; [discriminate|exact H]]. clear W. revert R O. generalize cinit as s0.
  induction l as [|a l IH]; intros s0 R O; cbn in R; [injection R as ->; left; exact O|].
  destruct (cstep tok r s0 a) as [s1|] eqn:E; [|discriminate]. destruct (IH s1 R O) as [H|H]; [|right; right; exact H].
  assert (D : a = ACancel \/ own s0 = Canceled); [|destruct D as [->|D]; [right; left; reflexivity|left; exact D]].
  clear IH R O. destruct a; cbn in E; auto; right;
    repeat match type of E with
    | context [match nth_error ?l ?i with _ => _ end] => destruct (nth_error l i); [|discriminate E]
    | context [match cinside tok s0 ?p with _ => _ end] => destruct (cinside tok s0 p) as [[s2 q]|] eqn:C; [|discriminate E]
    end.
  - destruct (dec (aw s0)); [discriminate|]. injection E as <-. exact H.
  - destruct (dec (aw s0)); [|discriminate]. destruct (fill (aw s0)); [discriminate|]. injection E as <-. exact H.
  - destruct (fill (aw s0) && negb (hrw (aw s0))); [|discriminate]. injection E as <-. exact H.
  - destruct (hrw (aw s0) && reg (aw s0)); [|discriminate]. injection E as <-. exact H.
  - injection E as <-. cbn in H. destruct c; cbn in C; try discriminate C;
      try (destruct (aw_canceled tok s0)); try (destruct (dec (aw s0))); try (destruct (hrw (aw s0)); [|discriminate C]); injection C as <- <-; cbn in H; auto;
      unfold w_own in H; cbn in H; destruct (own s0) eqn:OW; cbn in H; try rewrite OW in H; try discriminate H; auto.
  - destruct c0; try discriminate. destruct (negb r); [injection E as <-; destruct (hset s0); exact H|]. destruct (cgone s0); [injection E as <-; exact H|].
    destruct c; injection E as <-; try exact H. destruct (hset s0); exact H.
  - destruct c; try discriminate. injection E as <-. exact H.
  - destruct (cent s0); try discriminate. injection E as <-. exact H.
  - destruct (cent s0); try discriminate. injection E as <-. exact H.
  - injection E as <-. exact H.
  - injection E as <-. exact H.
Qed.

(** * C125 *)
(** The steps that happen by themselves: the settling of the task, once it is decided; the threads; the runner. *)
Definition own_act (a : cact) : Prop :=
  match a with AFill | AHr | ATake | AGo _ | AWhere _ _ _ | AEnd _ _ | ABegin => True | _ => False end.
Definition cquiet (tok r : bool) (s : cst) : Prop := forall a, own_act a -> cstep tok r s a = None.
Lemma quiet_clive tok r s : CInv tok r s -> cquiet tok r s -> dec (aw s) <> None -> clive s = 0.
Proof.
  intros I Q D. assert (F : fill (aw s) = true).
  { pose proof (Q AFill Logic.I) as A. cbn in A. destruct (dec (aw s)); [|congruence]. destruct (fill (aw s)); [reflexivity|discriminate]. }
  assert (H : hrw (aw s) = true).
  { pose proof (Q AHr Logic.I) as A. cbn in A. rewrite F in A. destruct (hrw (aw s)); [reflexivity|discriminate]. }
  assert (G : reg (aw s) = false).
  { pose proof (Q ATake Logic.I) as A. cbn in A. rewrite H in A. destruct (reg (aw s)); [discriminate|reflexivity]. }
  assert (E : cent s <> QWait) by (intros E; pose proof (Q ABegin Logic.I) as A; cbn in A; rewrite E in A; discriminate).
  unfold clive. rewrite G. destruct (cent s) eqn:EE; try congruence; cbn; rewrite !Nat.add_0_r;
  (destruct (Nat.eq_dec (suml cactive (cths s)) 0) as [S|S]; [exact S|exfalso]; destruct (suml_some _ S) as (i & p & N & P);
   pose proof (Q (AGo i) Logic.I) as A; cbn in A; rewrite N in A;
   pose proof (Q (AWhere i CNone true) Logic.I) as B; cbn in B; rewrite N in B;
   pose proof (Q (AEnd i (FReturn 0)) Logic.I) as C; cbn in C; rewrite N in C;
   destruct p; cbn in A, B, C; try congruence; try discriminate;
   try (destruct (aw_canceled tok s); discriminate); try (destruct (dec (aw s)); discriminate);
   try (rewrite H in A; discriminate); try (destruct (negb r); [discriminate|destruct (cgone s); discriminate])).
Qed.
(** When everything has come to rest after the task was decided, the coroutine has run to its end exactly once, its task is settled and its frame
    freed, provided the runner lives and did not lose the entry. *)
Theorem C125_settles_partial : forall tok r l s, crun tok r cinit l = Some s -> cquiet tok r s -> dec (aw s) <> None -> cent s <> QGone -> cgone s = false ->
  own s <> Started /\ freed s = 1 /\ resumed s = 1 /\ got s <> None.
Proof.
  intros tok r l s R Q D C G. pose proof (crun_CInv tok r l _ s (init_CInv tok r) R) as I.
  destruct (j_end tok r s I (quiet_clive tok r s I Q D)) as [A|[A|A]].
  - destruct A as (_ & _ & A & _). contradiction.
  - destruct A as (_ & A & _). congruence.
  - destruct A as (A1 & A2 & A3 & _ & _ & g & A4 & _). sp; auto. congruence.
Qed.
(** In any case there are only three ends; the frame is freed in two of them. *)
Theorem C125_ends_partial : forall tok r l s, crun tok r cinit l = Some s -> cquiet tok r s -> dec (aw s) <> None ->
  (resumed s = 1 /\ freed s = 1 /\ own s <> Started) \/
  (r = true /\ resumed s = 0 /\ (own s = Started \/ own s = Canceled) /\ (freed s = 1 /\ cgone s = true \/ freed s = 0 /\ cent s = QGone)).
Proof.
  intros tok r l s R Q D. pose proof (crun_CInv tok r l _ s (init_CInv tok r) R) as I.
  destruct (j_end tok r s I (quiet_clive tok r s I Q D)) as [A|[A|A]].
  - right. destruct A as ((A1 & _ & _ & _ & A2 & A3) & _ & A4 & A5). sp; auto.
  - right. destruct A as (A0 & A1 & A2 & _ & _ & _ & A3 & A4). sp; auto.
  - left. destruct A as (A1 & A2 & A3 & _). auto.
Qed.

(** When the runner is gone the coroutine is destroyed at the await (Task.h 906-909): the rest of it never runs, and its own
    task, which others may be waiting for, stays Started for ever. *)
Definition expired (s : cst) : Prop := cths s = [CIdle; CIdle; CIdle] /\ reg (aw s) = false /\ cent s <> QWait /\ own s = Started /\ resumed s = 0.
Lemma expired_step tok r s a s' : expired s -> a <> ACancel -> cstep tok r s a = Some s' -> expired s' /\ freed s' = freed s.
Proof.
  intros (T & G & C & O & S) N E.
  assert (TH : forall i p, nth_error (cths s) i = Some p -> p = CIdle) by (rewrite T; intros [|[|[|[|i]]]] p X; cbn in X; congruence).
  destruct a; cbn in E; try congruence.
  - destruct (dec (aw s)); [discriminate|]. injection E as <-. unfold expired; cbn; auto 10.
  - destruct (dec (aw s)); [|discriminate]. destruct (fill (aw s)); [discriminate|]. injection E as <-. unfold expired; cbn; auto 10.
  - destruct (fill (aw s) && negb (hrw (aw s))); [|discriminate]. injection E as <-. unfold expired; cbn; auto 10.
  - rewrite G, andb_false_r in E. discriminate.
  - destruct (nth_error (cths s) i) as [p|] eqn:X; [|discriminate]. rewrite (TH _ _ X) in E. discriminate.
  - destruct (nth_error (cths s) i) as [p|] eqn:X; [|discriminate]. rewrite (TH _ _ X) in E. discriminate.
  - destruct (nth_error (cths s) i) as [p|] eqn:X; [|discriminate]. rewrite (TH _ _ X) in E. discriminate.
  - destruct (cent s); try discriminate; congruence.
  - destruct (cent s); try discriminate; congruence.
  - injection E as <-. unfold expired; cbn; auto 10.
  - injection E as <-. unfold expired; cbn; auto 10.
Qed.
Lemma expired_run tok r l : forall s s', expired s -> ~ In ACancel l -> crun tok r s l = Some s' -> own s' = Started /\ resumed s' = 0 /\ freed s' = freed s.
Proof.
  induction l as [|a l IH]; intros s s' X N R; cbn in R; [injection R as <-; destruct X as (_ & _ & _ & O & S); auto|].
  destruct (cstep tok r s a) as [s1|] eqn:E; [|discriminate].
  destruct (expired_step tok r s a s1 X (fun H => N (or_introl H)) E) as (X1 & F). rewrite <- F. apply IH; auto. intros H; apply N; right; exact H.
Qed.
Lemma reachc tok r l (P : cst -> Prop) : match crun tok r cinit l with Some s => P s | None => False end -> exists s, crun tok r cinit l = Some s /\ P s.
Proof. destruct (crun tok r cinit l) as [s|]; [eauto|contradiction]. Qed.
Definition awaits (e : ending) : list cact := [AGo 0; AGo 0; AGo 0; AGo 0; AGo 0; ADecide e; AFill; AHr; ATake].
Theorem C125_gone_refuted : forall tok e, exists l s, crun tok true cinit l = Some s /\ dec (aw s) = Some e /\ freed s = 1 /\
  forall l' s', ~ In ACancel l' -> crun tok true s l' = Some s' -> own s' = Started /\ resumed s' = 0.
Proof.
  intros tok e. destruct (reachc tok true (awaits e ++ [AExpire; AWhere 1 CNone true]) (fun s => dec (aw s) = Some e /\ freed s = 1 /\ expired s)) as (s & R & D & F & X).
  { unfold expired. destruct tok; vm_compute; repeat split; discriminate. }
  exists (awaits e ++ [AExpire; AWhere 1 CNone true]), s. sp; auto. intros l' s' N R'. destruct (expired_run tok true l' s s' X N R') as (A & B & _). auto.
Qed.
(** The answer of PostTask is not used (901-905): refused or dropped, the coroutine never goes on, its task stays Started and its frame is
    never freed. *)
Theorem C125_lost_refuted : forall tok e drop, exists l s, crun tok true cinit l = Some s /\ dec (aw s) = Some e /\ (In ADiscard l <-> drop = true) /\
  forall l' s', ~ In ACancel l' -> crun tok true s l' = Some s' -> own s' = Started /\ resumed s' = 0 /\ freed s' = 0.
Proof.
  intros tok e drop. destruct (reachc tok true (awaits e ++ (if drop then [AWhere 1 CNone true; ADiscard] else [AWhere 1 COther false])) (fun s => dec (aw s) = Some e /\ freed s = 0 /\ expired s)) as (s & R & D & F & X).
  { unfold expired. destruct tok, drop; vm_compute; repeat split; discriminate. }
  eexists _, s. split; [exact R|]. split; [exact D|]. split.
  - destruct drop; cbn; intuition discriminate.
  - intros l' s' N R'. destruct (expired_run tok true l' s s' X N R') as (A1 & A2 & A3). rewrite F in A3. auto.
Qed.
(** A failed task whose token is cancelled as well: what it failed with is not seen, and there are two different reports of the
    cancellation, depending on when the token was cancelled (Async.h 165 and 170). *)
Theorem C124_masked_refuted : forall r x, exists l1 l2 s1 s2, crun true r cinit l1 = Some s1 /\ crun true r cinit l2 = Some s2 /\
  dec (aw s1) = Some (EExn x) /\ dec (aw s2) = Some (EExn x) /\ got s1 = Some (RExn OpCanceled) /\ got s2 = Some (RExn (Code E_FAIL)).
Proof.
  intros r x.
  destruct (reachc true r [ADecide (EExn x); AFill; AHr; AGo 0; AGo 0; AToken; AGo 0] (fun s => dec (aw s) = Some (EExn x) /\ got s = Some (RExn OpCanceled))) as (s1 & R1 & D1 & G1); [destruct r; vm_compute; auto|].
  destruct (reachc true r [ADecide (EExn x); AFill; AHr; AGo 0; AGo 0; AGo 0; AToken; AGo 0] (fun s => dec (aw s) = Some (EExn x) /\ got s = Some (RExn (Code E_FAIL)))) as (s2 & R2 & D2 & G2); [destruct r; vm_compute; auto|].
  eexists _, _, s1, s2. split; [exact R1|]. split; [exact R2|]. auto.
Qed.

(** Suspended, completed elsewhere, resumed on the runner, returns 7 made of 5. *)
Example C124_resumes : exists s, crun false true cinit (awaits (EVal 5) ++ [AWhere 1 COther true; ABegin; AGo 2; AGo 2; AGo 2; AGo 2; AEnd 2 (FReturn 7); AGo 2; AGo 2; AGo 2; AGo 2]) = Some s /\
  got s = Some (RVal 5) /\ at_ s = Some Runner /\ own s = Completed 7 /\ freed s = 1.
Proof. apply reachc. vm_compute. auto. Qed.
(** Already failed: not suspended, throws, the exception leaves the coroutine. *)
Example C124_throws : exists s, crun true true cinit [ADecide (ECode 9); AFill; AGo 0; AGo 0; AGo 0; AGo 0; AHr; AGo 0; AGo 0; AEnd 0 (FThrow (Code 9)); AGo 0; AGo 0] = Some s /\
  got s = Some (RExn (Code 9)) /\ at_ s = Some Same /\ own s = Failed (Some (Code 9)) 9 /\ freed s = 1.
Proof. apply reachc. vm_compute. auto. Qed.
(** Decided between the test and the registration: await_suspend answers false. *)
Example C124_race : exists s, crun true false cinit [AGo 0; AGo 0; AGo 0; ADecide (EVal 3); AGo 0; AGo 0; AFill; AHr; AGo 0; AGo 0; AGo 0; AGo 0; AEnd 0 (FReturn 4); ACancel; AGo 0; AGo 0; AGo 0] = Some s /\
  got s = Some (RVal 3) /\ at_ s = Some Same /\ own s = Canceled /\ freed s = 1 /\ susp s = false.
Proof. apply reachc. vm_compute. auto 10. Qed.

Print Assumptions C124_safe.
Print Assumptions C124_result.
Print Assumptions C124_place.
Print Assumptions C124_own.
Print Assumptions C124_masked_refuted.
Print Assumptions C125_settles_partial.
Print Assumptions C125_ends_partial.
Print Assumptions C125_gone_refuted.
Print Assumptions C125_lost_refuted.
