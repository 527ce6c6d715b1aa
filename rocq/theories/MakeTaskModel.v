(** Tasks made on a runner: TaskRunner::CreateTask and CreateDelayTask (include/YY/Base/Threading/TaskRunner.h 248-302),
    SleepAsync (src/YY/Base/Threading/TaskRunner.cpp 183-215), with TaskAsyncOperation::Resume (Task.h 389-418) and
    AsyncOperationImpl::Resolve (Async.h 437-471).

    One operation; its creator, the runner that executes or drops the posted entry, and any number of other threads that
    cancel the token or the operation.

    Simplifications: settling (the exchange of the status and the writes after it, C50 and C80) is one step; IsCanceled is
    one step (the status and the token only go one way); results and exceptions are numbers; allocation of the operation
    succeeds.  How runners refuse and drop entries is the subject of C62, C86 and C91: here they may do so at any time
    before the entry is started. *)
From Coq Require Import List Bool Arith.
Import ListNotations.

Inductive kind := Plain | Delay | Sleep.
Inductive status := Started | Completed (v : nat) | Canceled | Failed (e : nat).
Definition S_OK := 0.
Definition E_UNEXPECTED := 1.
Definition E_FAIL := 2.
(** What the callback does. *)
Inductive outcome := Returns (v : nat) | Throws (e : nat).
(** Where a thread is that works on the operation. *)
Inductive pc :=
| Chk                (* Resume: IsCanceled, Task.h 394 *)
| Can                (* Resume: Cancel, 396 *)
| Call               (* Resume: the callback, 400 *)
| RChk (v : nat)     (* Resolve: IsCanceled, Async.h 457 *)
| RCan               (* Resolve: Cancel, 459 *)
| RCas (v : nat)     (* Resolve: 463-470 *)
| Err                (* Resume: SetErrorCode, Task.h 403 *)
| Exn (e : nat)      (* Resume: SetExceptionPtr, 409 and 414 *)
| End.
(** The creator: test of the token, the cancellation, the search for the runner (SleepAsync 202), the post. *)
Inductive mpc := M0 | MCan | MCur | MPost | MRes (p : pc) | MEnd.
(** The posted entry. *)
Inductive entry := ENone | EQueued | ERun (p : pc) | EGone.

Record st := St {
  sts : status;
  flag : bool;       (* the token is cancelled *)
  maker : mpc;
  ent : entry;
  due : bool;        (* the delay has passed *)
  calls : nat;       (* ghost: calls of the callback *)
  said : option outcome  (* ghost: what it did *)
}.
Inductive act :=
| Make               (* the creator goes on *)
| Current (b : bool) (* GetCurrent; [b]: there is a runner *)
| Post (b : bool)    (* PostTask or PostDelayTask; [b]: accepted *)
| Token              (* somebody cancels the token *)
| Cancel             (* somebody cancels the operation *)
| Time               (* the delay passes *)
| Begin              (* the runner starts the entry *)
| Discard            (* the runner drops the entry *)
| Work               (* the runner goes on *)
| Do (o : outcome).  (* the callback *)

Definition settle (x : status) (s : st) : st :=
  match sts s with Started => St x (flag s) (maker s) (ent s) (due s) (calls s) (said s) | _ => s end.
Definition canceled (tok : bool) (s : st) : bool :=
  match sts s with Completed _ => false | Canceled => true | _ => tok && flag s end.
Definition setm (s : st) (m : mpc) : st := St (sts s) (flag s) m (ent s) (due s) (calls s) (said s).
Definition sete (s : st) (e : entry) : st := St (sts s) (flag s) (maker s) e (due s) (calls s) (said s).

Section Config.
Variable k : kind.
Variable tok : bool.     (* a token was given *)

(** One step inside Resume or Resolve; [None] for the call of the callback.  After a failed Resolve SleepAsync does
    nothing, Resume calls SetErrorCode. *)
Definition inside (s : st) (p : pc) : option (st * pc) :=
  match p with
  | Chk => Some (s, if canceled tok s then Can else Call)
  | Can => Some (settle Canceled s, End)
  | RChk v => Some (s, if canceled tok s then RCan else RCas v)
  | RCan => Some (settle Canceled s, match k with Sleep => End | _ => Err end)
  | RCas v => Some (settle (Completed v) s, match sts s, k with Started, _ => End | _, Sleep => End | _, _ => Err end)
  | Err => Some (settle (Failed E_FAIL) s, End)
  | Exn e => Some (settle (Failed e) s, End)
  | Call | End => None
  end.
Definition step (s : st) (a : act) : option st :=
  match a with
  | Make => match maker s with
      | M0 => Some (setm s (if tok && flag s then MCan else match k with Sleep => MCur | _ => MPost end))
      | MCan => Some (setm (settle Canceled s) MEnd)
      | MRes End => Some (setm s MEnd)
      | MRes p => match inside s p with Some (s, p) => Some (setm s (MRes p)) | None => None end
      | _ => None end
  | Current b => match maker s with MCur => Some (setm s (if b then MPost else MRes (RChk E_UNEXPECTED))) | _ => None end
  | Post b => match maker s with
      | MPost => Some (setm (sete s (if b then EQueued else EGone)) MEnd) | _ => None end
  | Token => Some (St (sts s) true (maker s) (ent s) (due s) (calls s) (said s))
  | Cancel => Some (settle Canceled s)
  | Time => Some (St (sts s) (flag s) (maker s) (ent s) true (calls s) (said s))
  | Begin => match ent s with
      | EQueued => if match k with Plain => true | _ => due s end
                   then Some (sete s (ERun (match k with Sleep => RChk S_OK | _ => Chk end))) else None
      | _ => None end
  | Discard => match ent s with EQueued => Some (sete s EGone) | _ => None end
  | Work => match ent s with
      | ERun p => match inside s p with Some (s, p) => Some (sete s (ERun p)) | None => None end | _ => None end
  | Do o => match ent s with
      | ERun Call => Some (St (sts s) (flag s) (maker s) (ERun (match o with Returns v => RChk v | Throws e => Exn e end)) (due s) (S (calls s)) (Some o))
      | _ => None end
  end.
Fixpoint run (s : st) (l : list act) : option st :=
  match l with [] => Some s | a :: l => match step s a with Some s' => run s' l | None => None end end.
End Config.
Definition init : st := St Started false M0 ENone false 0 None.
