(** Model of the waits of a thread task runner: src/YY/Base/Threading/ThreadTaskRunnerWaitManger.h,
    ThreadTaskRunnerImpl.cpp 329-373 (SetWaitInternal, DeleteWaitInternal) and TaskRunner.cpp 575-612
    (WaitAsyncOperation::Cancel, Reset).

    Everything runs on the runner's own thread, except that other threads cancel waits and drop their last
    reference.  Completion handlers may set, cancel and drop waits: in the two loops of ProcessingWaitTasks any
    action may happen between two iterations.

    Simplifications: handles and waits are numbers, 0 is the null handle; [hd t] is the handle of wait [t].
    Cancel from another thread is one step.  A wait is set when it is new or after Reset, as the callers do.
    Ticks are whole milliseconds.  A wait handed to the thread pool is followed no further; nested message loops and
    cancellation tokens are not modelled (WaitForObjectAsync and CreateWait use none). *)
From Coq Require Import List Bool Arith.
Import ListNotations.

(** MAXIMUM_WAIT_OBJECTS - 1, line 22. *)
Definition kMax : nat := 63.
Inductive status := Started | Canceled | Completed.
(** hThreadPoolWait: NULL, INVALID_HANDLE_VALUE (this thread waits), a handle of the pool. *)
Inductive mk := MN | MI | MP.
Inductive res := RObject | RAbandoned | RTimeout (now : nat) | RFailed.
Inductive event :=
| EAsk (t d : nat)              (* SetWaitInternal is called, to expire at [d] *)
| ESet (t : nat)                (* accepted *)
| EPool (t : nat)               (* given to the thread pool *)
| ECancel (t : nat)
| EDrop (t : nat)               (* last reference released *)
| EDone (t h : nat) (r : res).  (* resolved; [h]: the handle the thread was waiting on *)
(** Where the thread is in ProcessingWaitTasks. *)
Inductive loop := LNone | LTime (now i : nat) | LFail (i : nat).

Definition upd {A} (f : nat -> A) (k : nat) (v : A) : nat -> A := fun x => if x =? k then v else f x.
Record st := ST {
  hs : nat -> nat;             (* hWaitHandles *)
  ps : nat -> option nat;      (* pWaitTaskWeakPtrs *)
  c : nat;                     (* cWaitHandle *)
  alive : nat -> bool;         (* the weak pointer can be resolved *)
  stt : nat -> status;         (* eStatus *)
  mark : nat -> mk;            (* hThreadPoolWait *)
  due : nat -> nat;            (* uTimeOut *)
  lp : loop;
  log : list event }.
Definition init : st := ST (fun _ => 0) (fun _ => None) 0 (fun _ => true) (fun _ => Started) (fun _ => MN) (fun _ => 0) LNone [].
Definition w_arr (s : st) h p n := ST h p n (alive s) (stt s) (mark s) (due s) (lp s) (log s).
Definition w_alive (s : st) t v := ST (hs s) (ps s) (c s) (upd (alive s) t v) (stt s) (mark s) (due s) (lp s) (log s).
Definition w_stt (s : st) t v := ST (hs s) (ps s) (c s) (alive s) (upd (stt s) t v) (mark s) (due s) (lp s) (log s).
Definition w_mark (s : st) t v := ST (hs s) (ps s) (c s) (alive s) (stt s) (upd (mark s) t v) (due s) (lp s) (log s).
Definition w_due (s : st) t v := ST (hs s) (ps s) (c s) (alive s) (stt s) (mark s) (upd (due s) t v) (lp s) (log s).
Definition w_lp (s : st) v := ST (hs s) (ps s) (c s) (alive s) (stt s) (mark s) (due s) v (log s).
Definition say (s : st) e := ST (hs s) (ps s) (c s) (alive s) (stt s) (mark s) (due s) (lp s) (log s ++ [e]).
(** WeakPtr::Get. *)
Definition get (s : st) (i : nat) : option nat :=
  match ps s i with Some t => if alive s t then Some t else None | None => None end.

(** RemoveWaitHandleByIndex, lines 36-61. *)
Definition remove (s : st) (i : nat) : st :=
  if c s <=? i then s
  else
    let s := match get s i with Some t => w_mark s t MN | None => s end in
    let n := c s - 1 in
    if i =? n then w_arr s (upd (hs s) i 0) (upd (ps s) i None) n
    else w_arr s (upd (upd (hs s) i (hs s n)) n 0) (upd (upd (ps s) i (ps s n)) n None) n.
(** FindWaitHandle, lines 85-97: the first slot with this handle; [None] is kMaxWaitHandleCount. *)
Fixpoint find_from (f : nat -> nat) (h i n : nat) : option nat :=
  match n with
  | 0 => None
  | S n' => if f i =? h then Some i else find_from f h (S i) n'
  end.
Definition find (s : st) (h : nat) : option nat := if h =? 0 then None else find_from (hs s) h 0 (c s).
(** RemoveWaitHandleByIndex(FindWaitHandle(..)): index 63 is never in use, line 40. *)
Definition remove_found (s : st) (o : option nat) : st := remove s (match o with Some i => i | None => kMax end).

Section Handles.
Variable hd : nat -> nat.
(** WaitAsyncOperation::Cancel on the runner's thread (TaskRunner.cpp 575-605). *)
Definition cancel_here (s : st) (t : nat) : st :=
  match stt s t with
  | Started =>
      let s := w_stt s t Canceled in
      let s := match mark s t with
               | MI => remove_found (w_mark s t MN) (find s (hd t))
               | _ => w_mark s t MN
               end in
      say s (ECancel t)
  | _ => s
  end.
(** On another thread: the runner is only woken (ThreadTaskRunnerImpl.cpp 366-370). *)
Definition cancel_there (s : st) (t : nat) : st :=
  match stt s t with Started => say (w_mark (w_stt s t Canceled) t MN) (ECancel t) | _ => s end.
(** ThreadTaskRunnerImpl::SetWaitInternal on the runner's thread and ThreadTaskRunnerWaitManger::SetWaitInternal, lines 99-136. *)
Definition set_wait (s : st) (t d : nat) : st :=
  if hd t =? 0 then s                                        (* E_INVALIDARG *)
  else match stt s t with
  | Canceled => s                                            (* ERROR_CANCELLED *)
  | _ =>
      let s := say (w_due s t d) (EAsk t d) in
      match find s (hd t) with
      | Some i =>
          let s := w_mark s t MI in
          match get s i with
          | Some o =>
              if o =? t then say s (ESet t)
              else let s := cancel_here s o in say (w_arr s (hs s) (upd (ps s) i (Some t)) (c s)) (ESet t)
          | None => say (w_arr s (hs s) (upd (ps s) i (Some t)) (c s)) (ESet t)
          end
      | None =>
          if kMax <=? c s then say (w_mark s t MP) (EPool t)  (* E_NOTIMPL, ThreadTaskRunnerImpl.cpp 350-353 *)
          else
            let s := w_mark s t MI in
            say (w_arr s (upd (hs s) (c s) (hd t)) (upd (ps s) (c s) (Some t)) (c s + 1)) (ESet t)
      end
  end.
End Handles.
(** ProcessingWaitTask, lines 207-219, with Resolve. *)
Definition process (s : st) (i : nat) (r : res) : st :=
  if c s <=? i then s
  else
    let o := get s i in
    let h := hs s i in
    let s := remove s i in
    match o with
    | Some t => match stt s t with Started => say (w_stt s t Completed) (EDone t h r) | _ => s end
    | None => s
    end.
(** GetMinimumWakeupTickCount, lines 63-83: [n] slots are left to look at; [None] is TickCount::GetMax(). *)
Definition omin (a : option nat) (b : nat) : option nat := match a with Some x => Some (Nat.min x b) | None => Some b end.
Fixpoint sweep (s : st) (n : nat) (m : option nat) : st * option nat :=
  match n with
  | 0 => (s, m)
  | S i =>
      match get s i with
      | Some t => match stt s t with Canceled => sweep (remove s i) i m | _ => sweep s i (omin m (due s t)) end
      | None => sweep (remove s i) i m
      end
  end.

Inductive act :=
| SetW (t d : nat)
| Rearm (t d : nat)           (* Reset and SetWaitInternal, Wait::RunTask *)
| CancelHere (t : nat)
| CancelThere (t : nat)
| Drop (t : nat)
| Sweep
| Signal (i : nat) (a : bool) (* the wait of the thread ended with WAIT_OBJECT_0 + i or WAIT_ABANDONED_0 + i *)
| Expire (now : nat)          (* WAIT_TIMEOUT *)
| Fail                        (* WAIT_FAILED *)
| Iter (r : option res).      (* one iteration; [r]: WaitForSingleObject, [None] is WAIT_TIMEOUT *)
Definition exec (hd : nat -> nat) (s : st) (a : act) : option st :=
  match a with
  | SetW t d => match stt s t, mark s t with Started, MN => if alive s t then Some (set_wait hd s t d) else None | _, _ => None end
  | Rearm t d => match stt s t with Completed => if alive s t then Some (set_wait hd (w_stt s t Started) t d) else None | _ => None end
  | CancelHere t => if alive s t then Some (cancel_here hd s t) else None
  | CancelThere t => if alive s t then Some (cancel_there s t) else None
  | Drop t => if alive s t then Some (say (w_alive s t false) (EDrop t)) else None
  | Sweep => match lp s with LNone => Some (fst (sweep s (c s) None)) | _ => None end
  | Signal i a => match lp s with LNone => if i <? c s then Some (process s i (if a then RAbandoned else RObject)) else None | _ => None end
  | Expire n => match lp s with LNone => Some (w_lp s (LTime n (c s))) | _ => None end
  | Fail => match lp s with LNone => Some (w_lp s (LFail (c s))) | _ => None end
  | Iter r =>
      match lp s with
      | LNone => None
      | LTime _ 0 | LFail 0 => Some (w_lp s LNone)
      | LTime n (S i) =>
          let s := w_lp s (LTime n i) in
          match get s i with
          | None => Some (remove s i)
          | Some t => if n <? due s t then Some s else Some (process s i (RTimeout n))
          end
      | LFail (S i) =>
          let s := w_lp s (LFail i) in
          match r with
          | None => Some s
          | Some (RTimeout _) => None
          | Some r => Some (process s i r)
          end
      end
  end.
Fixpoint run (hd : nat -> nat) (s : st) (l : list act) : option st :=
  match l with [] => Some s | a :: r => match exec hd s a with Some s' => run hd s' r | None => None end end.
