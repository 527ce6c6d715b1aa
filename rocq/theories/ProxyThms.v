(** Properties C107-C109: the proxy task runner of a thread with its own message loop. *)
From Coq Require Import Lia List ZArith Bool Arith.
From Verif Require Import Slots SlotsProofs Threads ThreadModel ThreadProofs ProxyModel ProxyProofs ProxyInv ProxyLive.
Import ListNotations.
Local Open Scope Z_scope.

(** Schedules. *)
Definition post (i t : nat) : list act := Post t :: repeat (Step i) 7.
Definition M (n : nat) : list act := repeat Move n.

(** ** C107: tasks run in posting order, one at a time or nested *)
(** For every schedule: the tasks started or cancelled are a prefix of those pushed, the rest is in the queue; starts
    and ends are nested brackets, and those open are the tasks on the stack of the thread. *)
Theorem C107_fifo : forall l s, run init l = Some s ->
  pushed (log s) = taken (log s) ++ q s /\ nest [] (log s) = Some (tasks (rs s)).
Proof. intros l s R. destruct (run_F _ _ _ R F_init) as [f1 f2 _ _ _]. auto. Qed.
Print Assumptions C107_fifo.
(** Once the runner is destroyed the queue is empty, so that every task pushed was started or cancelled; nothing is
    running, and nothing happens any more. *)
Theorem C107_dead : forall l s k s', run init l = Some s -> In EDead (log s) -> run s k = Some s' ->
  pushed (log s) = taken (log s) /\ nest [] (log s) = Some [] /\ log s' = log s.
Proof.
  intros l s k s' R D K. pose proof (run_F _ _ _ R F_init) as Fs.
  assert (DD : dd s = true).
  { assert (G : forall m z z', run z m = Some z' -> F z -> (In EDead (log z) -> dd z = true) -> In EDead (log z') -> dd z' = true).
    { induction m as [|a m IH]; intros z z' Rz Fz Hz; cbn in Rz; [injection Rz as <-; exact Hz|].
      destruct (exec z a) as [z1|] eqn:E; [|discriminate]. apply (IH _ _ Rz (exec_F _ _ _ E Fz)).
      intros X. destruct (dd z) eqn:Dz; [exact (proj1 (exec_dead _ _ _ E Fz Dz))|].
      assert (NX : forall e, log z1 = log z ++ e -> ~ In EDead e -> dd z1 = true).
      { intros e L N. rewrite L in X. apply in_app_or in X. destruct X as [X|X]; [specialize (Hz X); discriminate|contradiction]. }
      clear IH Rz. destruct a; cbn in E.
      - unfold move in E. destruct (rs z) as [|[x|t] kk]; try discriminate. destruct x; cbv zeta in E.
        all: repeat match type of E with (if ?c then _ else _) = _ => destruct c | match ?c with _ => _ end = _ => destruct c end; try discriminate; injection E as <-.
        all: try (apply (NX []); [cbn; rewrite app_nil_r; reflexivity|intros []]).
        all: try (eapply NX; [cbn; reflexivity|intros [Y|[]]; discriminate]).
        + apply (NX []); [destruct (pd z =? 0); cbn; rewrite app_nil_r; reflexivity|intros []].
        + destruct (gone_eq (w_rs z kk)) as [(_ & e)|(_ & e)]; [|rewrite e; reflexivity]. apply (NX []); [rewrite e; cbn; rewrite app_nil_r; reflexivity|intros []].
      - unfold ret in E. destruct (rs z) as [|[x|t] kk]; try discriminate. injection E as <-. eapply NX; [cbn; reflexivity|intros [Y|[]]; discriminate].
      - unfold dispatch in E. destruct (mq z); [discriminate|]. rewrite Dz in E. destruct (rs z) as [|[x|t] kk]; try discriminate; injection E as <-.
        + apply (NX []); [reflexivity|intros []].
        + eapply NX; [cbn; reflexivity|intros [Y|[]]; discriminate].
      - unfold step in E. destruct (nth_error (ag z) i) as [[t|t|t|t|n| | | | | ]|]; try discriminate.
        all: cbv zeta in E; repeat match type of E with (if ?c then _ else _) = _ => destruct c end; try discriminate; injection E as <-.
        all: try (apply (NX []); [cbn; rewrite app_nil_r; reflexivity|intros []]).
        all: eapply NX; [cbn; rewrite <- ?app_assoc; reflexivity|]; intros Y; cbn in Y; repeat (destruct Y as [Y|Y]; try discriminate); try contradiction.
        destruct (_ <=? _); [destruct Y as [Y|[]]; discriminate|destruct Y].
      - destruct (Nat.eqb (us z) 0); [discriminate|]. injection E as <-. apply (NX []); [cbn; rewrite app_nil_r; reflexivity|intros []].
      - destruct (Nat.eqb (us z) 0); [discriminate|]. injection E as <-. apply (NX []); [cbn; rewrite app_nil_r; reflexivity|intros []].
      - destruct (Nat.eqb (us z) 0); [discriminate|]. injection E as <-. eapply NX; [cbn; reflexivity|intros [Y|[]]; discriminate].
      - destruct (_ || _); [discriminate|]. injection E as <-. destruct (gone_eq (w_us z (us z - 1)%nat)) as [(_ & e)|(_ & e)]; [|rewrite e; reflexivity].
        apply (NX []); [rewrite e; cbn; rewrite app_nil_r; reflexivity|intros []]. }
    apply (G _ _ _ R F_init); [intros []|exact D]. }
  destruct (f_d _ Fs DD) as (d1 & d2 & _). destruct (run_dead _ _ _ K Fs DD) as (_ & L).
  split; [rewrite (f_q _ Fs), d1; apply app_nil_r|]. split; [rewrite (f_n _ Fs), d2; reflexivity|exact L].
Qed.
Print Assumptions C107_dead.
(** Schedules for the cases: those actions of a list that are enabled. *)
Fixpoint trim (s : st) (l : list act) : list act :=
  match l with [] => [] | a :: r => match exec s a with Some s' => a :: trim s' r | None => trim s r end end.
(** The second task runs within the first one; the third one is cancelled by the destructor. *)
Definition l107 : list act := trim init (post 0 1 ++ post 1 2 ++ Dispatch :: M 20 ++ Dispatch :: M 20 ++ Ret :: M 20 ++ Ret :: M 20 ++ post 2 3 ++ [Drop]).
Example ex_C107 : exists s, run init l107 = Some s /\ In EDead (log s)
  /\ log s = [EPush 1; EAcc 1; EPush 2; EAcc 2; EStart 1; ENest; EStart 2; EEnd 2; EEnd 1; EPush 3; EAcc 3; ECan 3; ECln false; EDead].
Proof. eexists. split; [vm_compute; reflexivity|]. cbn. split; [tauto|reflexivity]. Qed.
Example ex_C107_run : exists s, run init (firstn 28 l107) = Some s /\ tasks (rs s) = [2; 1]%nat /\ taken (log s) = [1; 2]%nat.
Proof. eexists. split; [vm_compute; reflexivity|]. cbn. auto. Qed.

(** ** C108: no wake-up is lost *)
(** Without nested dispatch, Join, Interrupt and overflow of the count: when there is no message, no call and nobody
    in PostTask, every task whose post succeeded was run to its end and none was cancelled.  Missing: nested dispatch
    and Join (refuted below). *)
Theorem C108_partial : forall l s, run init l = Some s -> clean (log s) -> ~ In EStop (log s) -> us s <> 0%nat -> quiet s ->
  accepted (log s) = started (log s) /\ nest [] (log s) = Some [] /\ forall t, ~ In (ECan t) (log s).
Proof. exact quiet_done. Qed.
Print Assumptions C108_partial.
(** The thread gets there by itself: it can go on until there is nothing to do, and it makes at most [mu s] steps. *)
Theorem C108_served_partial : forall l s, run init l = Some s -> clean (log s) -> ~ In EStop (log s) -> us s <> 0%nat -> existsb busy (ag s) = false ->
  (rs s <> [] \/ mq s <> 0%nat -> exists a s', own a = true /\ exec s a = Some s' /\ (rs s = [] \/ a <> Dispatch))
  /\ forall k s', run s k = Some s' -> forallb own k = true -> clean (log s') ->
       Z.of_nat (length k) <= mu s /\ (rs s' = [] -> mq s' = 0%nat -> accepted (log s) = started (log s') /\ nest [] (log s') = Some []).
Proof.
  intros l s R C N U Bz. split; [apply own_live|]. intros k s' K O C'.
  pose proof (run_F _ _ _ R F_init) as Fs. pose proof (run_Inv _ _ _ R F_init Inv_init C) as I.
  assert (W0 : Wk init) by (split; [intros []|right; left; reflexivity]).
  pose proof (run_W _ _ _ R F_init Inv_init W0 C) as W.
  destruct (own_run _ _ _ K O Fs I W C' N U) as (m1 & m2 & m3 & m4 & m5). split; [exact m1|]. intros R1 M1.
  assert (RR : run init (l ++ k) = Some s').
  { clear - R K. revert R. generalize init as z. induction l as [|a l IH]; intros z R; cbn in *; [injection R as <-; exact K|]. destruct (exec z a); [auto|discriminate]. }
  destruct (quiet_done _ _ RR C' m3) as (Q1 & Q2 & _); [congruence|unfold quiet; rewrite m4; auto|]. rewrite <- m5. auto.
Qed.
Print Assumptions C108_served_partial.
(** A runner that lost a wake-up stays so: without a message and a call, and with a task counted, no later post sends
    a message, no task starts and no Join returns, whatever happens, short of an overflow of the count. *)
Theorem C108_stuck : forall l s k s', run init l = Some s -> rs s = [] -> mq s = 0%nat -> re s = 0 -> 1 <= cn (fl s) <= CW - 4 -> bg (fl s) = false ->
  Z.of_nat (suml hold (ag s)) = bit (lk (fl s)) -> (forall i a, nth_error (ag s) i = Some a -> late a) ->
  run s k = Some s' -> ~ In EFull (log s') -> started (log s') = started (log s) /\ (In EJoin (log s') -> In EJoin (log s)).
Proof. intros l s k s' R h1 h2 h3 h4 h5 h6 h7 K NF. apply (run_Stuck k); auto; [exact (run_F _ _ _ R F_init)|constructor; auto]. Qed.
Print Assumptions C108_stuck.
(** Two tasks are posted; the second one dispatches a message, which finds no task left; a third task posted while the
    second one runs sends no message, and nobody looks for it afterwards: it stays in the queue, and so do all later
    ones (C108_stuck). *)
Definition l108 : list act := trim init (post 0 1 ++ post 1 2 ++ Dispatch :: M 20 ++ Ret :: M 20 ++ Dispatch :: M 20 ++ post 2 3 ++ Ret :: M 20 ++ post 3 4 ++ Dispatch :: M 20).
Theorem C108_refuted : exists s, run init l108 = Some s /\ quiet s /\ us s <> 0%nat /\ ~ In EStop (log s) /\ ~ In EFull (log s) /\ ~ In (ECln true) (log s)
  /\ accepted (log s) = [1; 2; 3; 4]%nat /\ started (log s) = [1; 2]%nat /\ q s = [3; 4]%nat /\ Stuck s.
Proof.
  eexists. split; [vm_compute; reflexivity|]. split; [repeat split|]. split; [discriminate|].
  split; [|split; [|split; [|split; [reflexivity|split; [reflexivity|split; [reflexivity|]]]]]]; try (cbn; intuition discriminate).
  constructor; cbn; try reflexivity; rewrite ?CWv; try lia.
  intros [|[|[|[|i]]]] a H; cbn in H; try (injection H as <-; exact I). destruct i; discriminate.
Qed.
Print Assumptions C108_refuted.
(** Without nested dispatch: Join comes between the count and the message of a post, whose Wakeup() then refuses.  The
    post succeeded, but the task never starts, and Join never returns (C108_stuck). *)
Definition l108j : list act := Post 1 :: repeat (Step 0) 5 ++ [Join; Step 1; Step 0].
Theorem C108_join_refuted : exists s, run init l108j = Some s /\ clean (log s) /\ rs s = [] /\ mq s = 0%nat /\ ag s = [Idle; J1]
  /\ accepted (log s) = [1]%nat /\ started (log s) = [] /\ ~ In EJoin (log s) /\ Stuck s.
Proof.
  eexists. split; [vm_compute; reflexivity|]. split; [unfold clean; cbn; intuition discriminate|]. do 5 (split; [reflexivity|]). split; [cbn; intuition discriminate|].
  constructor; cbn; try reflexivity; rewrite ?CWv; try lia.
  intros [|[|i]] a H; cbn in H; try (injection H as <-; exact I). destruct i; discriminate.
Qed.
Print Assumptions C108_join_refuted.
(** Three posts by three threads, the third one while the first task runs; then the thread comes to rest. *)
Definition l108e : list act := trim init (post 0 1 ++ post 1 2 ++ Dispatch :: M 20 ++ post 2 3 ++ Ret :: M 20 ++ Ret :: M 20 ++ Dispatch :: M 20 ++ Ret :: M 20 ++ Dispatch :: M 20 ++ Dispatch :: M 20).
Example ex_C108 : exists s, run init l108e = Some s /\ clean (log s) /\ ~ In EStop (log s) /\ us s <> 0%nat /\ quiet s /\ accepted (log s) = [1; 2; 3]%nat.
Proof. eexists. split; [vm_compute; reflexivity|]. repeat split; try (cbn; intuition discriminate). Qed.
Example ex_C108_served : exists s, run init (firstn 21 l108e) = Some s /\ clean (log s) /\ ~ In EStop (log s) /\ existsb busy (ag s) = false
  /\ accepted (log s) = [1; 2]%nat /\ started (log s) = [1]%nat /\ mu s = 27 /\ rs s <> [].
Proof. eexists. split; [vm_compute; reflexivity|]. repeat split; try (cbn; intuition discriminate). Qed.

(** ** C109: Join *)
(** Without nested dispatch: when Join returns S_OK no task is running and every task whose post had succeeded was
    started or cancelled.  Missing: that they were run (refuted below), nested dispatch (refuted below), and posts that
    overlap the cleanup of the queue. *)
Theorem C109_partial : forall l s l1 l2, run init l = Some s -> clean (log s) -> log s = l1 ++ EJoin :: l2 ->
  nest [] l1 = Some [] /\ exists m, taken l1 = accepted l1 ++ m.
Proof.
  intros l s l1 l2 R C L. apply (run_joined _ _ _ R F_init Inv_init C) in L; [exact L|]. intros [|] ? H; discriminate.
Qed.
Print Assumptions C109_partial.
(** After a cleanup that no post overlaps no task is accepted, started or cancelled any more. *)
Theorem C109_closed_partial : forall l s k s', run init l = Some s -> In (ECln false) (log s) -> run s k = Some s' -> clean (log s') ->
  accepted (log s') = accepted (log s) /\ taken (log s') = taken (log s) /\ pushed (log s') = pushed (log s).
Proof.
  intros l s k s' R W K C. destruct (run_ext _ _ _ K) as (m & L). assert (C1 : clean (log s)) by (rewrite L in C; apply (clean_app _ _ C)).
  exact (closed _ _ _ K (run_F _ _ _ R F_init) (run_Inv _ _ _ R F_init Inv_init C1) C W).
Qed.
Print Assumptions C109_closed_partial.
(** Join cancels tasks accepted before it: uWakeupCount is a word of its own and always zero, so that the first message
    handled after bStopWakeup is set cleans the queue up, whatever is in it. *)
Definition l109 : list act := trim init (post 0 1 ++ Dispatch :: M 20 ++ post 1 2 ++ Join :: Step 2 :: Ret :: M 20 ++ [Step 2]).
Theorem C109_refuted : exists s, run init l109 = Some s /\ clean (log s)
  /\ log s = [EPush 1; EAcc 1; EStart 1; EPush 2; EAcc 2; EStop; EEnd 1; ECan 2; ECln false; EJoin]%nat.
Proof. eexists. split; [vm_compute; reflexivity|]. split; [unfold clean; cbn; intuition discriminate|reflexivity]. Qed.
Print Assumptions C109_refuted.
(** With nested dispatch Join returns while a task is running. *)
Definition l109n : list act := trim init (post 0 1 ++ Dispatch :: M 20 ++ Join :: Step 1 :: Dispatch :: M 20 ++ [Step 1]).
Theorem C109_nested_refuted : exists s, run init l109n = Some s /\ tasks (rs s) = [1]%nat
  /\ log s = [EPush 1; EAcc 1; EStart 1; EStop; ENest; ECln false; EJoin].
Proof. eexists. split; [vm_compute; reflexivity|]. split; reflexivity. Qed.
Print Assumptions C109_nested_refuted.
Example ex_C109 : exists s l1 l2, run init l109 = Some s /\ clean (log s) /\ log s = l1 ++ EJoin :: l2 /\ accepted l1 = [1; 2]%nat.
Proof.
  eexists. exists [EPush 1; EAcc 1; EStart 1; EPush 2; EAcc 2; EStop; EEnd 1; ECan 2; ECln false]%nat, []. split; [vm_compute; reflexivity|].
  split; [unfold clean; cbn; intuition discriminate|]. split; reflexivity.
Qed.
(** A post after the cleanup is refused. *)
Example ex_C109_closed : exists s s', run init l109 = Some s /\ In (ECln false) (log s) /\ run s [Post 9; Step 3] = Some s' /\ clean (log s') /\ In (ERej 9) (log s').
Proof.
  eexists. eexists. split; [vm_compute; reflexivity|]. split; [cbn; tauto|]. split; [vm_compute; reflexivity|].
  split; [unfold clean; cbn; intuition discriminate|cbn; tauto].
Qed.
