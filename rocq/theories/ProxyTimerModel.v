(** Model of the timers of ThreadTaskRunnerProxyImpl (src/YY/Base/Threading/ThreadTaskRunnerProxyImpl.h, lines
    174-211 and 296-326): the timing wheel of TimerModel.v driven by a timer of the runner's window.

    [wh]: the wheel; [wk]: uTimerWakeupTickCount in milliseconds, [None] is TickCount::GetMax(); [wnd]: the window
    timer kTimerTaskTimerId, when its next WM_TIMER is due (in ticks) and its period in milliseconds; [ck]: the time
    of the last operation.

    Simplifications:
    - WM_TIMER is dispatched when it is due or later; the next one is due one period after that.
    - The task posted by line 187 is run at once (its order is C107 and C108).
    - A callback that sets a timer is a later operation, as in TimerModel.v (so uSetTimerCount is 1 in line 199).
    - The time span of line 313 has the resolution of the tick count. *)
From Coq Require Import ZArith Bool List.
From Verif Require Import TimerModel.
Import ListNotations.
Local Open Scope Z_scope.

Record pst := PS { wh : tm; wk : option Z; wnd : option (Z * Z); ck : Z }.
Definition same_wk (a : option Z) (m : Z) : bool := match a with Some n => n =? m | None => false end.
Inductive pop :=
| POwn (now : Z) (t : timer)      (* SetTimerInternal on the runner's thread *)
| POther (now : Z) (t : timer)    (* SetTimerInternal on another thread *)
| PTick (now : Z)                 (* WM_TIMER *)
| PCancel (i : nat).
Section P.
Variable tpm : Z.
(** TaskRunnerImpl.cpp, lines 23-39: GetWaitTimeSpan; lines 314-315 change nothing. *)
Definition wait_ms (now m : Z) : Z :=
  let d := m * tpm - now in
  if d <=? 0 then 1 else Z.min (2 ^ 32 - 1) (Z.max (d / tpm) 1).
(** Lines 296-326: ExecuteTimerTasks. *)
Definition execute (s : pst) (now : Z) : option (pst * list event) :=
  match Process tpm (wh s) now with
  | None => None
  | Some (w, l) =>
      Some (match MinimumWakeup w with
            | None => match wk s with None => PS w None (wnd s) now | Some _ => PS w None None now end
            | Some m =>
                if same_wk (wk s) m then PS w (wk s) (wnd s) now
                else PS w (Some m) (Some (now + wait_ms now m * tpm, wait_ms now m)) now
            end, stamp w l)
  end.
Definition pstep (s : pst) (o : pop) : option (pst * list event) :=
  match o with
  | POwn now t =>                                    (* lines 178-206 *)
      if now <? ck s then None
      else if canc (wh s) (tid t) then Some (PS (wh s) (wk s) (wnd s) now, [])
      else
        let (w, l) := SetTimer tpm (wh s) t in
        match execute (PS w (wk s) (wnd s) now) now with
        | None => None
        | Some (s', l') => Some (s', stamp w l ++ l')
        end
  | POther now t =>                                  (* lines 178-191 *)
      if now <? ck s then None
      else if canc (wh s) (tid t) then Some (PS (wh s) (wk s) (wnd s) now, [])
      else let (w, l) := SetTimer tpm (wh s) t in Some (PS w (wk s) (wnd s) now, stamp w l)
  | PTick now =>                                     (* lines 351-354 *)
      match wnd s with
      | None => None
      | Some (due, p) => if (now <? ck s) || (now <? due) then None else execute (PS (wh s) (wk s) (Some (now + p * tpm, p)) now) now
      end
  | PCancel i =>
      Some (PS (mktm (last (wh s)) (base (wh s)) (w1 (wh s)) (w2 (wh s)) (w3 (wh s)) (oth (wh s)) (fun j => if Nat.eqb j i then true else canc (wh s) j)) (wk s) (wnd s) (ck s), [])
  end.
Fixpoint pruns (s : pst) (l : list pop) : option (pst * list event) :=
  match l with
  | [] => Some (s, [])
  | o :: r => match pstep s o with None => None | Some (s1, e1) => match pruns s1 r with None => None | Some (s2, e2) => Some (s2, e1 ++ e2) end end
  end.
Definition pinit (now : Z) : pst := PS (tm_init tpm now) None None now.
End P.
