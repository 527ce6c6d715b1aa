(** Model of delays, periodic timers and time-outs: how a TimeSpan given to the task
    runner becomes an expiry time on the performance counter and then the number of
    milliseconds handed to the system.
    src/YY/Base/Threading/TaskRunner.cpp 20-34, 49-68, 101-140, 218-254, 310-382 and
    src/YY/Base/Threading/TaskRunnerDispatchImpl.cpp 56-115, 117-174.

    Simplified: every call of TickCount::GetNow is an argument ([now0], [now1], ...), the
    counter frequency [f] is a parameter, allocation succeeds, the system call made with
    the milliseconds succeeds; reference counting of the timer is in PoolModel, the thread
    runner's timing wheel (which takes uExpire as it is) in TimerModel. *)
From Coq Require Import ZArith Bool List.
From Verif Require Import Word MathModel ValueModel.
Import ListNotations.
Local Open Scope Z_scope.

(** UINT32_MAX; the same number is INFINITE for the Win32 waiting functions. *)
Definition UINT32_MAX : Z := 4294967295.

(** TickCount.h 50-53 *)
Definition TickCount_GetMax : Z := 18446744073709551615.

(** TaskRunner.cpp 20-34, GetTimeout *)
Definition GetTimeout (f now d : Z) : option Z :=
  if d <=? 0 then Some 0
  else bind (TimeSpan_FromMilliseconds UINT32_MAX) (fun most =>
    if TimeSpan_ge d most then Some TickCount_GetMax else TickCount_add f now d).

(** TaskRunner.cpp 49-68, TaskEntry::WaitTask: the milliseconds given to WaitOnAddress. *)
Definition WaitTask_ms (d : Z) : Z :=
  let ms := TimeSpan_GetTotalMilliseconds d in
  if ms <=? 0 then 0 else if UINT32_MAX <? ms then UINT32_MAX else ms.

(** What becomes of a timer. *)
Inductive armed :=
| Refused            (* ERROR_CANCELLED *)
| Posted (when : Z)    (* handed to the task runner at once, found due at this clock reading *)
| Pool (due : Z).    (* CreateTimerQueueTimer with this due time in ms *)

(** TaskRunnerDispatchImpl.cpp 72-83 and 103 *)
Definition dispatch_timer (f expire now : Z) : option armed :=
  bind (TickCount_diff f expire now) (fun span =>
  let due := TimeSpan_GetTotalMilliseconds span in
  Some (if due <=? 0 then Posted now else Pool (Z.min due UINT32_MAX))).

(** TaskRunner.cpp 365-382; [now1] is read in line 375, [now2] by the dispatcher. *)
Definition SetTimerInternal (f : Z) (canceled : bool) (expire now1 now2 : Z) : option armed :=
  if canceled then Some Refused
  else if expire =? 0 then Some (Posted now1)
  else bind (TickCount_diff f expire now1) (fun span =>
    if TimeSpan_GetTotalMilliseconds span <=? 0 then Some (Posted now1)
    else dispatch_timer f expire now2).

(** TaskRunner.cpp 244-254; a new timer is not cancelled. *)
Definition PostDelayTask (f after now0 now1 now2 : Z) : option armed :=
  bind (TickCount_add f now0 after) (fun expire => SetTimerInternal f false expire now1 now2).

(** TaskRunner.cpp 310-328; [Some None] is the null pointer of line 313. *)
Definition CreateTimer (f interval now0 now1 now2 : Z) : option (option armed) :=
  if TimeSpan_GetTotalMilliseconds interval <=? 0 then Some None
  else bind (TickCount_add f now0 interval) (fun expire =>
    bind (SetTimerInternal f false expire now1 now2) (fun a => Some (Some a))).

(** What one run of a timer's task does (TaskRunner.cpp 101-140). *)
Inductive ran :=
| Skipped                 (* line 104 *)
| Once                    (* line 108: an ordinary task *)
| Done                    (* the callback ran and the timer ends *)
| Again (a : armed).      (* the callback ran and the timer was set again *)

(** [now0] is read before the callback (line 114); [again] is what the callback returns,
    [alive] whether the runner still exists, [canceled'] the flag after the callback. *)
Definition RunTask (f interval : Z) (canceled again alive canceled' : bool)
    (now0 now1 now2 : Z) : option ran :=
  if canceled then Some Skipped
  else if TimeSpan_GetTotalMilliseconds interval <=? 0 then Some Once
  else bind (TickCount_add f now0 interval) (fun expire =>
    if again then
      if alive then
        bind (SetTimerInternal f canceled' expire now1 now2) (fun a => Some (Again a))
      else Some Done
    else Some Done).

(** What becomes of a wait for an object (TaskRunnerDispatchImpl.cpp 132-163): polled
    with WaitForSingleObject(h, 0), or registered with a time-out in ms. *)
Inductive waiting := Polled | Registered (ms : Z).

Definition SetWait (f timeout now : Z) : option waiting :=
  bind (TickCount_diff f timeout now) (fun span =>
  let ms := TimeSpan_GetTotalMilliseconds span in
  Some (if ms <=? 0 then Polled else Registered (Z.min ms UINT32_MAX))).

(** TaskRunner.cpp 218-241 outside a task runner's thread, with a valid handle. *)
Definition WaitForObject (f d now0 now1 : Z) : option waiting :=
  bind (GetTimeout f now0 d) (fun t => SetWait f t now1).
