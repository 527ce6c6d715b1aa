(** Model of a Wait object, which calls a handler every time a handle is signalled: TaskRunner::CreateWait
    (src/YY/Base/Threading/TaskRunner.cpp 330-362), Wait::OnCompleted, RunTask, Cancel and InstallCompleted
    (509-573), WaitAsyncOperation::Cancel and Reset (575-608), and what they use of AsyncOperation
    (include/YY/Base/Threading/Async.h: ThrowIfWaitTaskFailed 163-195, BeginNotifyCompletedHandlers 199-207,
    SetErrorCode 209-223, AddCompletedHandler 282-297, NotifyCompletedHandlers 309-324, Resolve 436-471).

    One Wait and its WaitAsyncOperation.  Threads: the one that calls CreateWait (agent 0), those of the task
    runner that execute RunTask, those of the thread pool (or of the wait manager) that report a signal, any
    number of callers of Cancel.  Every access to a shared field is one step; memory is sequentially
    consistent.

    Simplifications:
    - The registration with the pool or with the thread's wait manager is one bit, [armed]; it reports one
      signal or time-out and is over (PoolModel and WaitModel follow the two in detail).
    - The task runner lives and accepts the task, and a runner is not destroyed meanwhile.
    - WaitTask inside GetResult returns only when the result code has changed (no spurious wake-up).
    - The handler may throw OperationCanceledException, nothing else.  GetResult that fails otherwise would leave
      RunTask by an exception; here it ends like a cancelled one (RewaitProofs: it does not happen).
    - Cancel is called after CreateWait has returned, since nobody has the object before.
    - The destructor, which calls Cancel too, is not modelled: while the wait is armed the handler list holds
      a reference. *)
From Coq Require Import List Bool Arith.
From Verif Require Import Slots.
Import ListNotations.

Inductive status := Started | Completed | Canceled | Error.
Definition st_eqb (a b : status) : bool :=
  match a, b with Started, Started | Completed, Completed | Canceled, Canceled | Error, Error => true | _, _ => false end.
(** What follows SetWaitInternal: the end of CreateWait, or InstallCompleted in RunTask. *)
Inductive cont := CEnd | CInst.
Inductive agent :=
| T0                       (* RunTask, line 523: IsCanceled *)
| T1                       (* GetResult, Async.h 165: IsCanceled *)
| T2                       (* Async.h 170: WaitTask *)
| T3                       (* Async.h 175: the switch; the result is read *)
| T4                       (* the handler runs, line 531 *)
| T5 (again : bool)        (* line 539: Wakeup *)
| T6                       (* Reset, line 606: hr = E_PENDING *)
| T7                       (* Reset, line 607: eStatus = Started *)
| T8                       (* line 545: hr = E_PENDING of the Wait *)
| T9 (c : cont)            (* SetWaitInternal, line 386: IsCanceled *)
| T10 (c : cont)           (* line 391: to the pool *)
| I1                       (* InstallCompleted, line 569: AddCompletedHandler *)
| I2                       (* line 571: OnCompleted with GetStatus() *)
| R0 (c : cont) (e : bool) (* Resolve or SetErrorCode: the exchange of eStatus *)
| R1 (c : cont) (v : nat)  (* the result is written *)
| R2 (c : cont)            (* Async.h 311: hr *)
| R3 (c : cont)            (* Async.h 315-316: the handlers are taken *)
| R4 (c : cont) (n : nat)  (* Async.h 319-323: they are called with GetStatus() *)
| K0                       (* Cancel, line 72: BitSet *)
| K1                       (* line 74: Wakeup *)
| K2                       (* line 577: the exchange of eStatus *)
| K3                       (* lines 582-598: the registration is cancelled *)
| K4                       (* Async.h 311: hr *)
| K5                       (* Async.h 315-316 *)
| K6 (n : nat)             (* Async.h 319-323 *)
| Idle.
Inductive event :=
| EWin (v : nat)           (* the v-th completion is accepted *)
| EFail                    (* the wait could not be set: SetErrorCode is accepted *)
| EPass                    (* RunTask found the Wait not cancelled *)
| ECall (v : nat)          (* the handler is called with the result of completion v *)
| ERet (again : bool)
| EDrop (x : status)       (* OnCompleted with a status other than Completed: the task is not posted *)
| EOver                    (* Reset while a completing thread has not yet taken the handlers *)
| ECancel (busy : bool)    (* the first Cancel; is RunTask past its check? *)
| EDone.                   (* Cancel returns *)
Record st := ST { bit : bool;         (* TaskEntryStyle::Canceled *)
  wp : bool;                          (* Wait::hr == E_PENDING *)
  sts : status; op : bool;            (* eStatus, and hr == E_PENDING, of the operation *)
  inst : nat;                         (* handlers in oCompletedDelegate *)
  armed : bool; res : option nat; nxt : nat;
  q : nat;                            (* posted runs of RunTask *)
  ag : list agent; log : list event }.
(** After InstallCompleted in CreateWait (line 358) and the check in SetWaitInternal, which cannot fail. *)
Definition init : st := ST false true Started true 1 false None 0 0 [T10 CEnd] [].
Definition w_bit (s : st) v := ST v (wp s) (sts s) (op s) (inst s) (armed s) (res s) (nxt s) (q s) (ag s) (log s).
Definition w_wp (s : st) v := ST (bit s) v (sts s) (op s) (inst s) (armed s) (res s) (nxt s) (q s) (ag s) (log s).
Definition w_sts (s : st) v := ST (bit s) (wp s) v (op s) (inst s) (armed s) (res s) (nxt s) (q s) (ag s) (log s).
Definition w_op (s : st) v := ST (bit s) (wp s) (sts s) v (inst s) (armed s) (res s) (nxt s) (q s) (ag s) (log s).
Definition w_inst (s : st) v := ST (bit s) (wp s) (sts s) (op s) v (armed s) (res s) (nxt s) (q s) (ag s) (log s).
Definition w_armed (s : st) v := ST (bit s) (wp s) (sts s) (op s) (inst s) v (res s) (nxt s) (q s) (ag s) (log s).
Definition w_res (s : st) v := ST (bit s) (wp s) (sts s) (op s) (inst s) (armed s) v (nxt s) (q s) (ag s) (log s).
Definition w_nxt (s : st) v := ST (bit s) (wp s) (sts s) (op s) (inst s) (armed s) (res s) v (q s) (ag s) (log s).
Definition w_q (s : st) v := ST (bit s) (wp s) (sts s) (op s) (inst s) (armed s) (res s) (nxt s) v (ag s) (log s).
Definition w_ag (s : st) v := ST (bit s) (wp s) (sts s) (op s) (inst s) (armed s) (res s) (nxt s) (q s) v (log s).
Definition say (s : st) e := ST (bit s) (wp s) (sts s) (op s) (inst s) (armed s) (res s) (nxt s) (q s) (ag s) (log s ++ e).
Definition put (s : st) i a := w_ag s (set (ag s) i a).

(** How the wait is taken by the pool: accepted; already timed out, so completed at once; refused. *)
Inductive how := HArm | HNow | HFail.
(** How the handler ends: true, false, OperationCanceledException. *)
Inductive ret := RAgain | RStop | RThrow.
Definition after (c : cont) : agent := match c with CEnd => Idle | CInst => I1 end.
(** Wait::OnCompleted, lines 509-519. *)
Definition on_completed (s : st) : st := match sts s with Completed => w_q s (S (q s)) | x => say s [EDrop x] end.
(** RunTask past its check, or setting the wait again. *)
Definition busy (a : agent) : bool :=
  match a with T1 | T2 | T3 | T4 | T5 _ | T6 | T7 | T8 | T9 _ | T10 _ | I1 | I2 => true
  | R0 CInst _ | R1 CInst _ | R2 CInst | R3 CInst | R4 CInst _ => true | _ => false end.
Definition late (a : agent) : bool := match a with R3 _ => true | _ => false end.
Definition step (s : st) (i : nat) (h : how) (r : ret) : option st :=
  match nth_error (ag s) i with
  | Some T0 => Some (if bit s then put s i Idle else say (put s i T1) [EPass])
  | Some T1 => Some (put s i (match sts s with Canceled => T5 false | _ => T2 end))
  | Some T2 => if op s then None else Some (put s i T3)
  | Some T3 =>
      match sts s, res s with
      | Completed, Some v => Some (say (put s i T4) [ECall v])
      | _, _ => Some (put s i (T5 false))
      end
  | Some T4 => let b := match r with RAgain => true | _ => false end in Some (say (put s i (T5 b)) [ERet b])
  | Some (T5 b) => Some (put (w_wp s false) i (if b then T6 else Idle))
  | Some T6 => Some (put (w_op s true) i T7)
  | Some T7 => let s1 := put (w_sts s Started) i T8 in Some (if existsb late (ag s) then say s1 [EOver] else s1)
  | Some T8 => Some (put (w_wp s true) i (T9 CInst))
  | Some (T9 c) => Some (put s i (match sts s with Canceled => after c | _ => T10 c end))
  | Some (T10 c) =>
      Some (match h with
            | HArm => put (w_armed s true) i (after c)
            | HNow => put s i (R0 c false)
            | HFail => put s i (R0 c true)
            end)
  | Some I1 => Some (match sts s with Started => put (w_inst s (S (inst s))) i Idle | _ => put s i I2 end)
  | Some I2 => Some (put (on_completed s) i Idle)
  | Some (R0 c e) =>
      Some (match sts s with
            | Started => if e then say (put (w_sts s Error) i (R2 c)) [EFail]
                         else say (put (w_nxt (w_sts s Completed) (S (nxt s))) i (R1 c (nxt s))) [EWin (nxt s)]
            | _ => put s i (after c)
            end)
  | Some (R1 c v) => Some (put (w_res s (Some v)) i (R2 c))
  | Some (R2 c) => Some (put (w_op s false) i (R3 c))
  | Some (R3 c) => Some (put (w_inst s 0) i (R4 c (inst s)))
  | Some (R4 c (S n)) => Some (put (on_completed s) i (R4 c n))
  | Some (R4 c O) => Some (put s i (after c))
  | Some K0 => Some (if bit s then put s i K2 else say (put (w_bit s true) i K1) [ECancel (existsb busy (ag s))])
  | Some K1 => Some (put (w_wp s false) i K2)
  | Some K2 => Some (match sts s with Started => put (w_sts s Canceled) i K3 | _ => say (put s i Idle) [EDone] end)
  | Some K3 => Some (put (w_armed s false) i K4)
  | Some K4 => Some (put (w_op s false) i K5)
  | Some K5 => Some (put (w_inst s 0) i (K6 (inst s)))
  | Some (K6 (S n)) => Some (put (on_completed s) i (K6 n))
  | Some (K6 O) => Some (say (put s i Idle) [EDone])
  | _ => None
  end.
Inductive act :=
| Step (i : nat) (h : how) (r : ret)
| Signal                   (* the handle is signalled or the time is over *)
| Take                     (* the runner starts a posted run *)
| Cancel.
Definition exec (s : st) (a : act) : option st :=
  match a with
  | Step i h r => step s i h r
  | Signal => if armed s then Some (w_ag (w_armed s false) (ag s ++ [R0 CEnd false])) else None
  | Take => match q s with S n => Some (w_ag (w_q s n) (ag s ++ [T0])) | O => None end
  | Cancel => match nth_error (ag s) 0 with Some Idle => Some (w_ag s (ag s ++ [K0])) | _ => None end
  end.
Fixpoint run (s : st) (l : list act) : option st :=
  match l with [] => Some s | a :: r => match exec s a with Some s' => run s' r | None => None end end.
