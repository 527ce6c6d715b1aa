(** Model of the life of a task entry (src/YY/Base/Threading/TaskRunner.cpp 36-163, 365-383: TaskEntry and Timer)
    under concurrent Cancel.

    An entry moves through the runner's threads but is handled by one of them at a time: [pos] is where it is
    and what is done to it next.  Any number of other threads call Cancel.  Every access to hr and fStyle is
    one step; memory is sequentially consistent.

    Simplifications: the queue, the timers and the thread pool are only the positions [QU] and [AR]; branches
    that depend on them (expired, stopped, emptied) are chosen by the schedule.  Results other than S_OK and
    ERROR_CANCELLED are not distinguished from S_OK; callbacks throw nothing but OperationCanceledException. *)
From Coq Require Import List Bool Arith.
From Verif Require Import Slots.
Import ListNotations.

(** The result codes; E_PENDING is [None]. *)
Inductive code := OK | CA.
Inductive pos :=
| K0                (* TaskRunner::SetTimerInternal, line 368: hr = E_PENDING *)
| K1                (* line 370: IsCanceled *)
| AR                (* waiting in a timer *)
| D1                (* TaskRunnerDispatch::DispatchTask, TaskRunnerDispatchImpl.h 49: IsCanceled *)
| P0                (* PostTaskInternal, e.g. SequencedTaskRunnerImpl.cpp 64: hr = E_PENDING *)
| P1                (* accepted or refused *)
| QU                (* in the queue *)
| KW (c : code)     (* Wakeup(c), after which the entry is done *)
| R0                (* RunTask, lines 83, 103: IsCanceled *)
| R1                (* the callback runs *)
| R2 (c : code) (g : bool)   (* lines 97, 125: Wakeup; g: the timer is set again *)
| FIN.
Inductive frame := C0 | C1.   (* Cancel, lines 72 and 74 *)
Inductive event :=
| EReset                (* hr = E_PENDING *)
| ESet (c : code)       (* hr written by Wakeup, line 43 *)
| EKept                 (* Wakeup found hr written *)
| EBit                  (* Cancel set the bit *)
| ETrue | EFalse        (* Cancel returned *)
| ERun | EEnd (c : code).

(** [per]: the entry is a periodic timer. *)
Record st := ST { per : bool; can : bool; hr : option code; kar : pos; ag : list (list frame); log : list event }.
Definition task : st := ST false false None P0 [] [].
Definition timer (p : bool) : st := ST p false None K0 [] [].
Definition say (s : st) e := ST (per s) (can s) (hr s) (kar s) (ag s) (log s ++ [e]).
Definition go (s : st) p := ST (per s) (can s) (hr s) p (ag s) (log s).
Definition w_hr (s : st) v := ST (per s) (can s) v (kar s) (ag s) (log s).
Definition put (s : st) i k := ST (per s) (can s) (hr s) (kar s) (set (ag s) i k) (log s).
(** TaskEntry::Wakeup, lines 41-47. *)
Definition wake (s : st) (c : code) : st :=
  match hr s with None => say (w_hr s (Some c)) (ESet c) | Some _ => say s EKept end.
Definition reset (s : st) : st := say (w_hr s None) EReset.

(** [b]: the branch taken where it depends on time, the runner or the callback; [c]: how the callback ends. *)
Definition move (s : st) (b : bool) (c : code) : option st :=
  match kar s with
  | K0 => Some (go (reset s) K1)
  | K1 => Some (go s (if can s then KW CA else if b then P0 else AR))     (* lines 370-381 *)
  | AR => Some (go s (if b then D1 else R0))      (* a thread task runner runs its timers itself *)
  | D1 => Some (go s (if can s then KW CA else P0))
  | P0 => Some (go (reset s) P1)
  | P1 => Some (go s (if b then QU else KW CA))
  | QU => Some (go s (if b then R0 else KW CA))   (* popped by a worker or by CleanupTaskQueue *)
  | KW c => Some (go (wake s c) FIN)
  | R0 => if can s then Some (go s FIN) else Some (say (go s R1) ERun)
  | R1 => Some (say (go s (R2 c (per s && b && match c with OK => true | CA => false end))) (EEnd c))
  | R2 c g => Some (go (wake s c) (if g then K0 else FIN))
  | FIN => None
  end.
Inductive act := Move (b : bool) (c : code) | Cancel | Step (i : nat).
Definition exec (s : st) (a : act) : option st :=
  match a with
  | Move b c => move s b c
  | Cancel => Some (ST (per s) (can s) (hr s) (kar s) (ag s ++ [[C0]]) (log s))
  | Step i =>
      match nth_error (ag s) i with
      | Some (C0 :: k) =>
          if can s then Some (say (put s i k) EFalse)
          else Some (say (ST (per s) true (hr s) (kar s) (set (ag s) i (C1 :: k)) (log s)) EBit)
      | Some (C1 :: k) => Some (say (wake (put s i k) CA) ETrue)
      | _ => None
      end
  end.
Fixpoint run (s : st) (l : list act) : option st :=
  match l with [] => Some s | a :: r => match exec s a with Some s' => run s' r | None => None end end.
