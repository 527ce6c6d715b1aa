(** Model of TaskRunner::SendTask (src/YY/Base/Threading/TaskRunner.cpp 280-308): a task entry on the stack of
    the sender is posted to a runner and waited for.

    The sender and whoever handles the entry for the runner (a worker, or CleanupTaskQueue) take steps in any
    order; every access to the entry is one step.  After the sender has returned, the entry is dead: a later
    access is recorded as [ETouch].  Only [Snd]'s frame and the runner know the entry, so nobody else cancels it.

    Simplifications: the runner is the position of the entry ([wpos]); whether it refuses the entry, runs it
    or cancels it is chosen by the schedule.  The entry's reference count only matters as an access: it is 2
    while the runner owns the entry and 1 afterwards.  Memory is sequentially consistent. *)
From Coq Require Import List Bool Arith.
Import ListNotations.

Inductive code := OK | CA.     (* S_OK, ERROR_CANCELLED; E_PENDING is [None] *)
(** What SendTask returns: the error of PostTaskInternal, or hr as read on line 307. *)
Inductive value := VErr | VHr (h : option code).
Inductive spos :=
| S0                 (* line 301: PostTaskInternal *)
| S2                 (* line 67: WaitOnAddress looks at hr *)
| S3                 (* asleep in WaitOnAddress *)
| S4                 (* line 307: return hr *)
| S5 (v : value)     (* lines 38, 72: the destructor's Cancel sets the bit *)
| S6 (v : value)     (* line 43: its Wakeup *)
| S7 (v : value).    (* returned *)
Inductive wpos :=
| NO                 (* not in the runner *)
| QU                 (* in the queue *)
| CW                 (* CleanupTaskQueue: Wakeup(ERROR_CANCELLED), line 43 *)
| R0                 (* RunTask, line 83: IsCanceled *)
| R1                 (* line 89: the callback *)
| R2 (c : code)      (* lines 97, 43: hr is set *)
| R3                 (* line 45: WakeByAddressAll *)
| R4                 (* _pTask->Release(), SequencedTaskRunnerImpl.cpp 146; ~RefPtr in CleanupTaskQueue *)
| FIN.
Inductive touch := TPop | TStyle | TCall | THr | TRef.
Inductive event :=
| ERun | EEnd (c : code)      (* the callback *)
| ERet (v : value)            (* SendTask returned *)
| ETouch (t : touch).         (* the dead entry was used *)

(** [par]: ParallelTaskRunnerImpl, else SequencedTaskRunnerImpl. *)
Record st := ST { par : bool; sd : spos; wk : wpos; hr : option code; can : bool; log : list event }.
Definition start (p : bool) : st := ST p S0 NO None false [].
Definition say (s : st) e := ST (par s) (sd s) (wk s) (hr s) (can s) (log s ++ [e]).
Definition to_s (s : st) p := ST (par s) p (wk s) (hr s) (can s) (log s).
Definition to_w (s : st) p := ST (par s) (sd s) p (hr s) (can s) (log s).
Definition w_hr (s : st) v := ST (par s) (sd s) (wk s) v (can s) (log s).
Definition w_can (s : st) v := ST (par s) (sd s) (wk s) (hr s) v (log s).
Definition dead (s : st) : bool := match sd s with S7 _ => true | _ => false end.
(** An access of the runner to the entry. *)
Definition use (s : st) (t : touch) : st := if dead s then say s (ETouch t) else s.
(** The CompareExchange of TaskEntry::Wakeup, TaskRunner.cpp 43. *)
Definition cas (s : st) (c : code) : st := match hr s with None => w_hr s (Some c) | Some _ => s end.

(** How PostTaskInternal ends (SequencedTaskRunnerImpl.cpp 62-104, ParallelTaskRunnerImpl.hpp 222-287). *)
Inductive post :=
| Refuse       (* the runner is stopped: Wakeup(ERROR_CANCELLED), an error *)
| Accept       (* pushed, S_OK *)
| Fail.        (* pushed, but the pool takes no more work: an error *)
Definition send (s : st) (x : post) : option st :=
  match sd s with
  | S0 =>
      match x with
      | Refuse => Some (to_s (w_hr s (Some CA)) (S5 VErr))
      | Accept => Some (to_s (to_w (w_hr s None) QU) S2)
      | Fail =>
          if par s then Some (to_s (to_w (w_hr s None) QU) (S5 VErr))    (* lines 271-281: it stays in the queue *)
          else Some (to_s (w_hr s (Some CA)) (S5 VErr))     (* line 99: CleanupTaskQueue, wakes and releases it *)
      end
  | S2 => Some (to_s s (match hr s with None => S3 | Some _ => S4 end))
  | S3 => None
  | S4 => Some (to_s s (S5 (VHr (hr s))))
  | S5 v => if can s then Some (say (to_s s (S7 v)) (ERet v)) else Some (to_s (w_can s true) (S6 v))
  | S6 v => Some (say (to_s (cas s CA) (S7 v)) (ERet v))
  | S7 _ => None
  end.
(** [b]: a worker takes the entry, else CleanupTaskQueue; [c]: how the callback ends. *)
Definition work (s : st) (b : bool) (c : code) : option st :=
  match wk s with
  | NO | FIN => None
  | QU => Some (to_w (use s TPop) (if b then R0 else CW))
  | CW => Some (to_w (cas (use s THr) CA) (match hr s with None => R3 | Some _ => R4 end))
  | R0 => let s := use s TStyle in if can s then Some (to_w s R4) else Some (say (to_w s R1) ERun)
  | R1 => Some (say (to_w (use s TCall) (R2 c)) (EEnd c))   (* pfnTaskCallback lives in the entry *)
  | R2 c' => Some (to_w (cas (use s THr) c') (match hr s with None => R3 | Some _ => R4 end))
  | R3 => Some (to_w (match sd s with S3 => to_s s S4 | _ => s end) R4)
  | R4 => Some (to_w (use s TRef) FIN)
  end.
Inductive act :=
| Snd (x : post)
| Wrk (b : bool) (c : code)
| Spur.        (* WaitOnAddress returns without being woken, which Windows allows *)
Definition exec (s : st) (a : act) : option st :=
  match a with
  | Snd x => send s x
  | Wrk b c => work s b c
  | Spur => match sd s with S3 => Some (to_s s S4) | _ => None end
  end.
Fixpoint run (s : st) (l : list act) : option st :=
  match l with [] => Some s | a :: r => match exec s a with Some s' => run s' r | None => None end end.
