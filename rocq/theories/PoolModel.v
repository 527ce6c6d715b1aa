(** Model of the registrations of timers and waits with the system's thread pool and of the references they
    hold: TaskRunnerDispatchForWindows::SetTimerInternal and SetWaitInternal (src/YY/Base/Threading/
    TaskRunnerDispatchImpl.cpp 55-115, 117-173), Timer::Cancel (TaskRunner.cpp 142-163) and
    WaitAsyncOperation::Cancel (TaskRunner.cpp 575-603).

    One timer (or wait) object.  It is set, fires, is dispatched to a runner which sets it again, and so on;
    [tok] counts its runs that are queued or in progress.  The thread that sets it is [Set] in [ag]; any
    number of threads call Cancel; the system calls the callback of an armed registration in a thread of its
    own.  Every access to hThreadPoolTimer and every system call is one step; memory is sequentially
    consistent.

    The system, as documented: CreateTimerQueueTimer arms the timer and stores the handle when it returns;
    DeleteTimerQueueTimer(NULL, h, NULL) and UnregisterWaitEx(h, NULL) return TRUE if no callback of h is
    running, and h is gone then, else FALSE, and h is gone when the callback has returned; a timer that
    fired once exists until it is deleted.

    Simplifications:
    - Only the references taken for registrations are counted, [pr] (AddRef for a timer, AddWeakRef for a
      wait); what the callback does with the reference it received is not followed.
      The callback of a wait releases its weak reference when it returns; here it does so in [B2].
    - The callback of a wait whose object is already destroyed returns at once (lines 147-149) and leaves the
      registration to the system; here the object lives.
    - The branches that depend on the clock, on cancellation or on the runner are chosen by the schedule.
    - INVALID_HANDLE_VALUE (set by the timer wheel and the wait manager of a thread runner) does not occur. *)
From Coq Require Import List ZArith Bool Arith.
From Verif Require Import Slots.
Import ListNotations.
Local Open Scope Z_scope.

(** A registration: armed; its callback is running (and it was deleted meanwhile); fired; deleted. *)
Inductive reg := Armed | Calling | Dying | Fired | Gone.
Inductive agent :=
| S0                  (* lines 61, 122: ExchangePoint *)
| S1 (h : nat)        (* lines 65, 126: delete *)
| S2 (h : nat)        (* lines 67, 128: Release *)
| S3                  (* lines 74, 133: due? *)
| S4                  (* lines 81, 139: AddRef *)
| S5                  (* lines 83, 141: create *)
| S6 (h : nat)        (* the handle is stored *)
| S7                  (* lines 106-109, 165-168: Release *)
| X0                  (* Cancel, TaskRunner.cpp 146, 582: ExchangePoint *)
| X1 (h : nat)        (* lines 154, 594: delete *)
| X2 (h : nat)        (* lines 156, 596: Release *)
| B0 (k : nat)        (* the callback of k, lines 92, 151: ExchangePoint *)
| B1 (k h : nat)      (* lines 96, 155: delete *)
| B2 (k : nat)        (* lines 100, 159: dispatch, Resolve *)
| B3 (k : nat)        (* the callback returns *)
| Idle.
Inductive event :=
| EAdd                (* a reference for a registration *)
| ERel (k : nat)      (* the reference of registration k is released, or handed to the dispatched task *)
| EUndo               (* the reference is released because the registration failed *)
| EBad (h : nat)      (* a handle that is gone, or is going, is deleted again *)
| EEarly (k : nat)    (* the callback of k ran before its handle was stored *)
| ELate (h : nat).    (* a callback returned after Cancel took its handle and before it was deleted *)
Record st := ST { slot : option nat; regs : list reg; pr : Z; tok : nat; ag : list agent; log : list event }.
Definition init : st := ST None [] 0 1 [] [].
Definition w_slot (s : st) v := ST v (regs s) (pr s) (tok s) (ag s) (log s).
Definition w_regs (s : st) v := ST (slot s) v (pr s) (tok s) (ag s) (log s).
Definition w_pr (s : st) v := ST (slot s) (regs s) v (tok s) (ag s) (log s).
Definition w_tok (s : st) v := ST (slot s) (regs s) (pr s) v (ag s) (log s).
Definition w_ag (s : st) v := ST (slot s) (regs s) (pr s) (tok s) v (log s).
Definition say (s : st) e := ST (slot s) (regs s) (pr s) (tok s) (ag s) (log s ++ e).
Definition put (s : st) i a := w_ag s (set (ag s) i a).
Definition w_reg (s : st) h r := w_regs s (set (regs s) h r).

(** DeleteTimerQueueTimer, UnregisterWaitEx. *)
Definition del (s : st) (h : nat) : st * bool :=
  match nth_error (regs s) h with
  | Some Armed | Some Fired => (w_reg s h Gone, true)
  | Some Calling => (w_reg s h Dying, false)
  | _ => (say s [EBad h], false)
  end.
Definition release (s : st) (k : nat) : st := say (w_pr s (pr s - 1)) [ERel k].
Definition storing (k : nat) (a : agent) : bool := match a with S6 h => Nat.eqb h k | _ => false end.
Definition taken (k : nat) (a : agent) : bool := match a with S1 h | X1 h => Nat.eqb h k | _ => false end.
Definition step (s : st) (i : nat) (b : bool) : option st :=
  match nth_error (ag s) i with
  | Some S0 => Some (put (w_slot s None) i (match slot s with Some h => S1 h | None => S3 end))
  | Some (S1 h) => let (s, r) := del s h in Some (put s i (if r then S2 h else S3))
  | Some (S2 h) => Some (put (release s h) i S3)
  | Some S3 => Some (if b then put s i S4 else put (w_tok s (S (tok s))) i Idle)
  | Some S4 => Some (say (put (w_pr s (pr s + 1)) i S5) [EAdd])
  | Some S5 => Some (if b then put (w_regs s (regs s ++ [Armed])) i (S6 (length (regs s))) else put s i S7)
  | Some (S6 h) => Some (put (w_slot s (Some h)) i Idle)
  | Some S7 => Some (say (put (w_pr s (pr s - 1)) i Idle) [EUndo])
  | Some X0 => Some (put (w_slot s None) i (match slot s with Some h => X1 h | None => Idle end))
  | Some (X1 h) => let (s, r) := del s h in Some (put s i (if r then X2 h else Idle))
  | Some (X2 h) => Some (put (release s h) i Idle)
  | Some (B0 k) =>
      let s1 := put (w_slot s None) i (match slot s with Some h => B1 k h | None => B2 k end) in
      Some (if existsb (storing k) (ag s) then say s1 [EEarly k] else s1)
  | Some (B1 k h) => Some (put (fst (del s h)) i (B2 k))
  | Some (B2 k) =>
      let s := release s k in
      Some (put (if b then w_tok s (S (tok s)) else s) i (B3 k))
  | Some (B3 k) =>
      match nth_error (regs s) k with
      | Some Dying => Some (put (w_reg s k Gone) i Idle)
      | _ =>
          let s1 := put (w_reg s k Fired) i Idle in
          Some (if existsb (taken k) (ag s) then say s1 [ELate k] else s1)
      end
  | _ => None
  end.
Inductive act :=
| Step (i : nat) (b : bool)
| Fire (k : nat)      (* the system calls the callback of k *)
| Set_                (* a run of the task sets the timer again *)
| Cancel
| Drop.               (* the task is not set again *)
Definition exec (s : st) (a : act) : option st :=
  match a with
  | Step i b => step s i b
  | Fire k => match nth_error (regs s) k with Some Armed => Some (w_ag (w_reg s k Calling) (ag s ++ [B0 k])) | _ => None end
  | Set_ => match tok s with S n => Some (w_ag (w_tok s n) (ag s ++ [S0])) | O => None end
  | Cancel => Some (w_ag s (ag s ++ [X0]))
  | Drop => match tok s with S n => Some (w_tok s n) | O => None end
  end.
Fixpoint run (s : st) (l : list act) : option st :=
  match l with [] => Some s | a :: r => match exec s a with Some s' => run s' r | None => None end end.
