(** C93, C94: the references and the system handles of timers and waits that were given to the system's
    thread pool. *)
From Coq Require Import List ZArith Bool Arith Lia.
From Verif Require Import Slots SlotsProofs Threads PoolModel PoolProofs.
Import ListNotations.

(** Specification, over the log and the registrations only. *)
Definition rels (k : nat) (l : list event) : nat := length (filter (fun e => match e with ERel h => Nat.eqb h k | _ => false end) l).
Definition adds (l : list event) : nat := length (filter (fun e => match e with EAdd => true | _ => false end) l).
(** Registrations that still own their reference. *)
Definition owing (s : st) : nat := length (filter (fun k => Nat.eqb (rels k (log s)) 0) (seq 0 (length (regs s)))).
(** Threads between AddRef and the return of the system call, or about to undo it. *)
Definition creating (s : st) : nat := length (filter (fun a => match a with S5 | S7 => true | _ => false end) (ag s)).
(** No callback met the window between the creation of the handle and its store, none ended between the
    moment another thread took the handle and the deletion. *)
Definition undisturbed (l : list event) : Prop := forall k, ~ In (EEarly k) l /\ ~ In (ELate k) l.

Lemma rels_rel : forall k l, rels k l = rel k l.
Proof. intros k. unfold rels, rel, eqn. induction l as [|[] l IH]; cbn; auto. destruct (Nat.eqb k0 k); cbn; lia. Qed.
Lemma filter_suml : forall A (f : A -> bool) l, length (filter f l) = suml (fun x => if f x then 1 else 0) l.
Proof. induction l as [|x l IH]; cbn; auto. destruct (f x); cbn; lia. Qed.
Lemma reach : forall l s, run init l = Some s -> undisturbed (log s) -> Inv s.
Proof. intros l s R U. exact (run_inv _ _ _ R U Inv_init). Qed.
Lemma once : forall s k, Inv s -> rel k (log s) <= 1.
Proof. intros s k I. pose proof (i_k _ I k) as O. unfold ok in O. destruct (nth_error (regs s) k) as [[]|]; lia. Qed.

(** C93: undisturbed, the reference of every registration is released at most once, no handle is deleted
    twice, and the references outstanding are those of the registrations that were not yet released and of
    the threads inside the system call: none is lost, none is dropped that belongs to someone else. *)
Theorem C93_partial : forall l s, run init l = Some s -> undisturbed (log s) ->
  (forall k, rels k (log s) <= 1) /\ (forall h, ~ In (EBad h) (log s)) /\ pr s = Z.of_nat (owing s + creating s).
Proof.
  intros l s R U. pose proof (reach _ _ R U) as I. split; [|split].
  - intros k. rewrite rels_rel. apply once. assumption.
  - apply (i_x _ I).
  - assert (C : Cnt s) by (apply (run_cnt _ _ _ R); unfold Cnt; cbn; split; reflexivity). destruct C as (C1 & C2).
    assert (B : forall k, In (ERel k) (log s) -> k < length (regs s)).
    { intros k K. apply rel_in in K. destruct (Nat.lt_ge_cases k (length (regs s))) as [L|L]; [assumption|]. pose proof (i_k _ I k) as O. unfold ok in O. rewrite (proj2 (nth_error_None _ _) L) in O. lia. }
    rewrite (rel_sum _ _ B) in C1. unfold owing, creating. rewrite !filter_suml.
    rewrite (suml_ext _ (fun x => if match x with S5 | S7 => true | _ => false end then 1 else 0) gets) by (intros []; reflexivity).
    assert (X : forall q, suml (fun x => if Nat.eqb (rels x (log s)) 0 then 1 else 0) q + suml (fun k => rel k (log s)) q = length q).
    { induction q as [|k q IH]; cbn; [reflexivity|]. rewrite rels_rel. pose proof (once _ k I). destruct (rel k (log s)) as [|[|]]; cbn; lia. }
    specialize (X (seq 0 (length (regs s)))). rewrite seq_length in X. lia.
Qed.
(** When all threads have finished their calls, every registration was released exactly once or is armed
    with its handle in the object. *)
Theorem C93_settled_partial : forall l s, run init l = Some s -> undisturbed (log s) -> (forall i a, nth_error (ag s) i = Some a -> a = Idle) ->
  forall k r, nth_error (regs s) k = Some r -> (r = Gone /\ rels k (log s) = 1) \/ (r = Armed /\ slot s = Some k /\ rels k (log s) = 0).
Proof.
  intros l s R U Q k r K. pose proof (reach _ _ R U) as I. pose proof (i_k _ I k) as O. unfold ok in O. rewrite K in O.
  assert (Z : forall f : agent -> nat, f Idle = 0 -> suml f (ag s) = 0).
  { intros f F. destruct (suml f (ag s)) as [|n] eqn:E; [reflexivity|]. destruct (suml_pos _ f (ag s)) as (i & a & G & P); [lia|]. rewrite (Q _ _ G) in P. lia. }
  rewrite !Z in O by reflexivity. rewrite rels_rel. destruct r; try lia.
  - right. split; [reflexivity|]. split; [|lia]. destruct (slot s) as [h|]; cbn in O; [|lia]. destruct (Nat.eq_dec h k) as [->|N]; [reflexivity|]. rewrite (eqn_diff _ _ N) in O. lia.
  - left. split; [reflexivity|lia].
Qed.
(** Every call ends: whoever is not idle has a step, and every step uses one of at most eight. *)
Theorem C93_ends : forall s i a b, nth_error (ag s) i = Some a -> a <> Idle -> exists s', step s i b = Some s' /\ suml left (ag s') < suml left (ag s).
Proof.
  intros s i a b G N. assert (X : exists s', step s i b = Some s').
  { unfold step. rewrite G. destruct a; try contradiction; try (eexists; reflexivity); try (destruct (del s h); eexists; reflexivity). destruct (nth_error (regs s) k) as [[]|]; eexists; reflexivity. }
  destruct X as (s' & E). exists s'. split; [assumption|]. exact (step_left _ _ _ _ E).
Qed.
(** Cancel has taken the handle; the callback runs, passes its reference on and returns; now
    DeleteTimerQueueTimer finds no callback running and reports success, so Cancel releases again a
    reference it does not have. *)
Theorem C93_refuted : exists l s, run init l = Some s /\ rels 0 (log s) = 2 /\ adds (log s) = 1 /\ pr s = (-1)%Z /\ ~ In (EEarly 0) (log s).
Proof.
  exists ([Set_; Step 0 true; Step 0 true; Step 0 true; Step 0 true; Step 0 true; Cancel; Step 1 true; Fire 0] ++ repeat (Step 2 true) 3 ++ repeat (Step 1 true) 2).
  eexists. split; [vm_compute; reflexivity|]. cbn. repeat split; try reflexivity. intros [H|[H|[H|[H|[]]]]]; discriminate.
Qed.
(** The callback runs before CreateTimerQueueTimer has stored the handle, finds none, and the task is
    dispatched; the handle stored afterwards is that of a timer that has fired.  The next SetTimerInternal of
    the same timer deletes it successfully and releases a second time. *)
Theorem C93_handle_refuted : exists l s, run init l = Some s /\ rels 0 (log s) = 2 /\ pr s = (-1)%Z /\ (forall k, ~ In (ELate k) (log s)) /\ ~ In Cancel l.
Proof.
  exists ([Set_; Step 0 true; Step 0 true; Step 0 true; Step 0 true; Fire 0] ++ repeat (Step 1 true) 3 ++ [Step 0 true; Set_; Step 2 true; Step 2 true; Step 2 true]).
  eexists. split; [vm_compute; reflexivity|]. cbn. repeat split; try reflexivity.
  - intros k [H|[H|[H|[H|[]]]]]; discriminate.
  - intros H. repeat (destruct H as [H|H]; [discriminate|]). exact H.
Qed.

(** C94: undisturbed, no system handle is lost: at any time a registration that was not deleted has its
    handle in the object or with a thread that is about to delete or store it. *)
Theorem C94_partial : forall l s, run init l = Some s -> undisturbed (log s) -> forall k r, nth_error (regs s) k = Some r ->
  r = Gone \/ r = Dying \/ slot s = Some k \/ exists i a, nth_error (ag s) i = Some a /\ match a with S1 h | X1 h | S6 h | B1 _ h => h = k | _ => False end.
Proof.
  intros l s R U k r K. pose proof (reach _ _ R U) as I. pose proof (i_k _ I k) as O. unfold ok in O. rewrite K in O.
  assert (X : pts (slot s) k + suml (cus k) (ag s) = 1 -> slot s = Some k \/ exists i a, nth_error (ag s) i = Some a /\ match a with S1 h | X1 h | S6 h | B1 _ h => h = k | _ => False end).
  { intros E. destruct (slot s) as [h|] eqn:S; [destruct (Nat.eq_dec h k) as [->|N]; [left; reflexivity|cbn in E; rewrite (eqn_diff _ _ N) in E]|cbn in E].
    all: right; destruct (suml_pos _ (cus k) (ag s)) as (i & a & G & P); [lia|]; exists i, a; split; [assumption|].
    all: destruct a; cbn in P; try lia; unfold eqn in P; destruct (Nat.eqb_spec h0 k) || destruct (Nat.eqb_spec h k); auto; lia. }
  destruct r; try tauto.
Qed.
(** At most one callback of the object runs, and none while it is being set: the object has one active
    registration at most. *)
Theorem C94_single_partial : forall l s, run init l = Some s -> undisturbed (log s) ->
  (forall k k', nth_error (regs s) k = Some Armed -> nth_error (regs s) k' = Some Armed -> k = k') /\
  (forall k i, nth_error (regs s) k = Some Armed -> nth_error (ag s) i <> Some S0 /\ nth_error (ag s) i <> Some S4).
Proof.
  intros l s R U. pose proof (reach _ _ R U) as I. pose proof (i_t _ I) as T. split.
  - intros k k' A B. destruct (Nat.eq_dec k k') as [|N]; [assumption|]. pose proof (suml_two _ arm _ _ _ _ _ N A B) as X. cbn in X. lia.
  - intros k i A. pose proof (suml_ge _ arm _ _ _ A) as X. cbn in X. split; intros G; pose proof (suml_ge _ actv _ _ _ G) as Y; cbn in Y; lia.
Qed.
(** With the early callback the timer stays with the system after it fired: all calls have ended, nobody
    deletes it. *)
Theorem C94_refuted : exists l s, run init l = Some s /\ nth_error (regs s) 0 = Some Fired /\ rels 0 (log s) = 1 /\ (forall i a, nth_error (ag s) i = Some a -> a = Idle) /\ (forall k, ~ In (ELate k) (log s)).
Proof.
  exists ([Set_; Step 0 true; Step 0 true; Step 0 true; Step 0 true; Fire 0] ++ repeat (Step 1 true) 3 ++ [Step 0 true]).
  eexists. split; [vm_compute; reflexivity|]. cbn. repeat split; try reflexivity.
  - intros [|[|i]] a H; cbn in H; try (injection H as <-; reflexivity). destruct i; discriminate.
  - intros k [H|[H|[H|[]]]]; discriminate.
Qed.

(** * Concrete cases *)
(** A timer fires, is set again, is cancelled: two registrations, two references, two releases. *)
Definition case := [Set_; Step 0 true; Step 0 true; Step 0 true; Step 0 true; Step 0 true; Fire 0; Step 1 true; Step 1 true; Step 1 true; Step 1 true;
  Set_; Step 2 true; Step 2 true; Step 2 true; Step 2 true; Step 2 true; Cancel; Step 3 true; Step 3 true; Step 3 true].
Example C93_case : match run init case with
  | Some s => log s = [EAdd; ERel 0; EAdd; ERel 1] /\ regs s = [Gone; Gone] /\ pr s = 0%Z /\ ag s = [Idle; Idle; Idle; Idle] | None => False end.
Proof. vm_compute. repeat split; reflexivity. Qed.
(** Cancel takes the handle while the callback runs: the deletion fails, only the callback releases. *)
Example C93_case_race : match run init [Set_; Step 0 true; Step 0 true; Step 0 true; Step 0 true; Step 0 true; Cancel; Step 1 true; Fire 0; Step 2 true; Step 1 true; Step 2 true; Step 2 true] with
  | Some s => log s = [EAdd; ERel 0] /\ regs s = [Gone] /\ pr s = 0%Z | None => False end.
Proof. vm_compute. repeat split; reflexivity. Qed.
(** The registration fails. *)
Example C93_case_undo : match run init [Set_; Step 0 true; Step 0 true; Step 0 true; Step 0 false; Step 0 true] with
  | Some s => log s = [EAdd; EUndo] /\ regs s = [] /\ pr s = 0%Z | None => False end.
Proof. vm_compute. repeat split; reflexivity. Qed.
(** Armed, with one reference. *)
Example C94_case : match run init [Set_; Step 0 true; Step 0 true; Step 0 true; Step 0 true; Step 0 true] with
  | Some s => regs s = [Armed] /\ slot s = Some 0 /\ pr s = 1%Z /\ owing s = 1 /\ log s = [EAdd] | None => False end.
Proof. vm_compute. repeat split; reflexivity. Qed.
Print Assumptions C93_partial.
Print Assumptions C93_settled_partial.
Print Assumptions C93_ends.
Print Assumptions C93_refuted.
Print Assumptions C93_handle_refuted.
Print Assumptions C94_partial.
Print Assumptions C94_single_partial.
Print Assumptions C94_refuted.
