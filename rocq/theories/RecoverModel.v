(** Continuations of a task on a runner: Task::Then and Task::ThenError (include/YY/Base/Threading/Task.h 118-171) with
    TaskContinueAsyncOperation (470-558), the two forms of TaskErrorAsyncOperation (560-724), TaskAsyncOperation::Resume
    (389-418) and AsyncInfo::CreateExceptionPtr (Async.h 64-97).

    The source operation, the continuation, the runner the continuation was made for and, where the callback of ThenError
    returns a task, the operation of that task; the threads that attach, that complete the source, that complete the
    inner operation and the runner's; others that cancel the token or the continuation.

    Simplifications: settling the continuation is one step (C50, C51 and C80 show what its observers can see in between);
    the source and the inner operation are settled in four steps, as their observers here see them half settled; no
    wake-up of WaitOnAddress is spurious (C80); the list of handlers is the flag "registered" (C50); reading the status twice in
    IsCanceled is one step; the inner operation is neither the source nor the continuation itself; allocation succeeds;
    reference counts are not modelled.  How runners refuse and drop entries is the subject of C62, C86 and C91: here they
    may do so at any time before the entry is started. *)
From Coq Require Import List Bool Arith.
From Verif Require Import Slots Threads.
Import ListNotations.

(** Which continuation: Then; ThenError with a callback that returns a value; with one that returns a task. *)
Inductive kind := KThen | KVal | KTask.
(** Error codes are numbers. *)
Definition S_OK := 0.
Definition E_FAIL := 1.
Definition E_PENDING := 2.
Definition E_UNEXPECTED := 3.
Definition CANCELLED := 4.          (* HRESULT_From_LSTATUS(ERROR_CANCELLED) *)
(** SetErrorCode and SetExceptionPtr, Async.h 216-219 and 234-237. *)
Definition norm (c : nat) : nat := if (c =? E_PENDING) || (c =? S_OK) then E_UNEXPECTED else c.
(** Exceptions: of the user, with the code that the handlers of Resume give them; OperationCanceledException; Exception(c). *)
Inductive exn := User (n c : nat) | OpCanceled | Code (c : nat).
Definition code_of (x : exn) : nat := match x with User _ c => c | OpCanceled => CANCELLED | Code c => c end.
(** How an operation ends: with a result, cancelled, by SetExceptionPtr, by SetErrorCode. *)
Inductive ending := EVal (v : nat) | ECan | EExn (x : exn) | ECode (c : nat).
(** The code that is stored in hr. *)
Definition hr_of (e : ending) : nat := match e with EVal _ => S_OK | ECan => CANCELLED | EExn x => norm (code_of x) | ECode c => norm c end.

(** An operation that others settle: decided (the exchange of the status), result or exception written, hr written; a
    handler is registered. *)
Record op := Op { dec : option ending; fill : bool; hrw : bool; reg : bool }.
(** GetExceptionPtr and GetErrorCode, Async.h 54-62. *)
Definition eptr (o : op) : option exn := match dec o with Some (EExn x) => if fill o then Some x else None | _ => None end.
Definition hr (o : op) : nat := match dec o with Some e => if hrw o then hr_of e else E_PENDING | None => E_PENDING end.
(** IsCanceled, Async.h 119-127; [t]: there is a token and it is cancelled. *)
Definition o_canceled (t : bool) (o : op) : bool := match dec o with Some (EVal _) => false | Some ECan => true | _ => t end.

(** The continuation. *)
Inductive status := Started | Completed (v : nat) | Canceled | Failed (p : option exn) (c : nat).
Inductive argument := AVal (v : nat) | AExn (x : exn).
(** What the callback does; a returned task may be empty. *)
Inductive outcome := Returns (v : nat) | Throws (x : exn) | Task (b : bool).
(** Where the callback is called: no runner was named; on the runner; elsewhere because the runner is gone. *)
Inductive place := Free | OnRunner | Elsewhere.
(** TaskRunner::GetCurrent of the thread that asks: none, the named runner, another. *)
Inductive current := CNone | CSame | COther.

Inductive pc :=
| Idle
| Att                        (* AddCompletedHandler, Task.h 127 and 156 *)
| O0                         (* OnCompleted: the status, 488, 580 and 657 *)
| XP                         (* Then: GetExceptionPtr of the source, 490 *)
| XC (p : option exn)        (* Then: GetErrorCode of the source, 490 *)
| XS (p : option exn) (c : nat)   (* SetExceptionPtr, 409, 414, 490, 639, 713 and 718 *)
| SG                         (* ThenError: GetResult of a completed source, Async.h 433 *)
| E0                         (* CreateExceptionPtr: GetExceptionPtr, Async.h 75 *)
| E1                         (* ThrowIfWaitTaskFailed: IsCanceled, 165 *)
| E2                         (* WaitTask: IsCanceled, 141 *)
| E3                         (* WaitTask: WaitOnAddress, 160 *)
| E4                         (* ThrowIfWaitTaskFailed: the status, 175-195 *)
| W (x : option exn)         (* the runner, Task.h 494-511 and 590-601; no exception in Then *)
| AG (l : place)             (* Then: GetResult of the source, 497 and 510 *)
| Chk (a : argument) (l : place)  (* Resume: IsCanceled, 394 and 685 *)
| Can                        (* Resume: Cancel, 396, 687 and 694 *)
| Call (a : argument) (l : place) (* Resume: the callback, 400 and 691 *)
| T0 (b : bool)              (* Resume: IsCanceled after the callback, 692 *)
| T1                         (* Resume: AddCompletedHandler of the inner operation, 706 *)
| B0                         (* BridgeCompletedHandler::OnCompleted: the status, 630 *)
| BG                         (* GetResult of the inner operation, Async.h 433 *)
| BP                         (* GetExceptionPtr of the inner operation, Task.h 639 *)
| BC (p : option exn)        (* GetErrorCode of the inner operation, 639 *)
| RChk (v : nat)             (* Resolve: IsCanceled, Async.h 438 and 457 *)
| RCan                       (* Resolve: Cancel *)
| RCas (v : nat)             (* Resolve: 444-452 and 463-470 *)
| Err (c : nat).             (* SetErrorCode, Task.h 403, 503, 584, 634 and 701 *)

(** The posted entry. *)
Inductive entry := ENone | EQueued (x : option exn) | EGone.

Record st := St {
  src : op; inn : op;
  sts : status;
  flag : bool;               (* the token is cancelled *)
  gone : bool;               (* the runner has expired *)
  ths : list pc;             (* 0: who attaches; 1: who completes the source; 2: the runner; 3: who completes the inner operation *)
  ent : entry;
  calls : nat;               (* ghost: calls of the callback *)
  given : option argument;   (* ghost: its argument *)
  said : option outcome;     (* ghost: what it did *)
  where_ : option place      (* ghost: where it was called *)
}.
Definition set_src (s : st) (o : op) : st := St o (inn s) (sts s) (flag s) (gone s) (ths s) (ent s) (calls s) (given s) (said s) (where_ s).
Definition set_inn (s : st) (o : op) : st := St (src s) o (sts s) (flag s) (gone s) (ths s) (ent s) (calls s) (given s) (said s) (where_ s).
Definition set_ent (s : st) (e : entry) : st := St (src s) (inn s) (sts s) (flag s) (gone s) (ths s) e (calls s) (given s) (said s) (where_ s).
Definition settle (x : status) (s : st) : st :=
  match sts s with Started => St (src s) (inn s) x (flag s) (gone s) (ths s) (ent s) (calls s) (given s) (said s) (where_ s) | _ => s end.
Definition put (s : st) (i : nat) (p : pc) : st :=
  St (src s) (inn s) (sts s) (flag s) (gone s) (set (ths s) i p) (ent s) (calls s) (given s) (said s) (where_ s).

Inductive act :=
| Decide (e : ending) | Fill | WriteHr | Take        (* the source is settled: Async.h 108-117, 199-241, 309-324 *)
| IDecide (e : ending) | IFill | IWriteHr | ITake    (* the inner operation is settled *)
| Go (i : nat)                                       (* thread [i] goes on *)
| Where (i : nat) (c : current) (ok : bool)          (* thread [i] looks for the runner; [ok]: a post is accepted *)
| Do (i : nat) (o : outcome)                         (* thread [i] calls the callback *)
| Begin | Discard                                    (* the runner starts or drops the entry *)
| Token | Cancel                                     (* somebody cancels the token or the continuation *)
| Expire.                                            (* the last reference to the runner is released *)

Section Config.
Variable k : kind.
Variable tok : bool.     (* the source has a token; Then and ThenError pass it on, Task.h 124 and 153 *)
Variable run_ : bool.    (* a runner was named *)

(** IsCanceled of the continuation. *)
Definition canceled (s : st) : bool := match sts s with Completed _ => false | Canceled => true | _ => tok && flag s end.
(** The thread [i] at [p]. *)
Definition inside (s : st) (p : pc) : option (st * pc) :=
  match p with
  | Att => match dec (src s) with
      | None => Some (set_src s (Op None (fill (src s)) (hrw (src s)) true), Idle)
      | Some _ => Some (s, O0) end
  | O0 => match dec (src s) with
      | Some (EVal _) => Some (s, match k with KThen => W None | _ => SG end)
      | Some _ => Some (s, match k with KThen => XP | _ => E0 end)
      | None => None end
  | XP => Some (s, XC (eptr (src s)))
  | XC p => Some (s, XS p (hr (src s)))
  | XS p c => Some (settle (Failed p (norm c)) s, Idle)
  | SG => if hrw (src s) then match dec (src s) with Some (EVal v) => Some (s, RChk v) | _ => None end else None
  | E0 => Some (s, match eptr (src s) with Some x => W (Some x) | None => E1 end)
  | E1 => Some (s, if o_canceled (tok && flag s) (src s) then W (Some OpCanceled) else E2)
  | E2 => Some (s, if o_canceled (tok && flag s) (src s) then W (Some (Code E_FAIL)) else E3)
  | E3 => if hrw (src s) then Some (s, E4) else None
  | E4 => match dec (src s) with
      | Some ECan => Some (s, W (Some OpCanceled))
      | Some (EVal _) | None => Some (s, W (Some (Code E_FAIL)))
      | Some _ => Some (s, W (Some (match eptr (src s) with Some x => x | None => Code (hr (src s)) end))) end
  | AG l => if hrw (src s) then match dec (src s) with Some (EVal v) => Some (s, Chk (AVal v) l) | _ => None end else None
  | Chk a l => Some (s, if canceled s then Can else Call a l)
  | Can => Some (settle Canceled s, Idle)
  | T0 b => Some (s, if canceled s then Can else if b then T1 else Err E_FAIL)
  | T1 => match dec (inn s) with
      | None => Some (set_inn s (Op None (fill (inn s)) (hrw (inn s)) true), Idle)
      | Some _ => Some (s, B0) end
  | B0 => match dec (inn s) with
      | Some (EVal _) => Some (s, BG)
      | Some _ => Some (s, BP)
      | None => None end
  | BG => if hrw (inn s) then match dec (inn s) with Some (EVal v) => Some (s, RChk v) | _ => None end else None
  | BP => Some (s, BC (eptr (inn s)))
  | BC p => Some (s, XS p (hr (inn s)))
  | RChk v => Some (s, if canceled s then RCan else RCas v)
  | RCan => Some (settle Canceled s, Err E_FAIL)
  | RCas v => Some (settle (Completed v) s, match sts s with Started => Idle | _ => Err E_FAIL end)
  | Err c => Some (settle (Failed None (norm c)) s, Idle)
  | Idle | W _ | Call _ _ => None
  end.
(** The choice of the thread, Task.h 494-511 and 590-601: [c] is what GetCurrent answers, [ok] whether a post is accepted. *)
Definition resume (x : option exn) (l : place) : pc := match x with Some e => Chk (AExn e) l | None => AG l end.
Definition place_of (s : st) (x : option exn) (c : current) (ok : bool) : entry * pc :=
  if negb run_ then (ENone, resume x Free)
  else if gone s then
    match x, c with
    | None, CNone => (ENone, resume x Elsewhere)     (* Get() == GetCurrent(): both are null *)
    | None, _ => (ENone, Err CANCELLED)
    | Some _, _ => (ENone, resume x Elsewhere)
    end
  else match c with
    | CSame => (ENone, resume x OnRunner)
    | _ => (if ok then EQueued x else EGone, Idle)
    end.
Definition step (s : st) (a : act) : option st :=
  match a with
  | Decide e => match dec (src s) with None => Some (set_src s (Op (Some e) false false (reg (src s)))) | Some _ => None end
  | Fill => match dec (src s), fill (src s) with Some _, false => Some (set_src s (Op (dec (src s)) true (hrw (src s)) (reg (src s)))) | _, _ => None end
  | WriteHr => if fill (src s) && negb (hrw (src s)) then Some (set_src s (Op (dec (src s)) true true (reg (src s)))) else None
  | Take => if hrw (src s) && reg (src s)
            then Some (put (set_src s (Op (dec (src s)) true true false)) 1 O0) else None
  | IDecide e => match dec (inn s) with None => Some (set_inn s (Op (Some e) false false (reg (inn s)))) | Some _ => None end
  | IFill => match dec (inn s), fill (inn s) with Some _, false => Some (set_inn s (Op (dec (inn s)) true (hrw (inn s)) (reg (inn s)))) | _, _ => None end
  | IWriteHr => if fill (inn s) && negb (hrw (inn s)) then Some (set_inn s (Op (dec (inn s)) true true (reg (inn s)))) else None
  | ITake => if hrw (inn s) && reg (inn s)
             then Some (put (set_inn s (Op (dec (inn s)) true true false)) 3 B0) else None
  | Go i => match nth_error (ths s) i with
      | Some p => match inside s p with Some (s', q) => Some (put s' i q) | None => None end
      | None => None end
  | Where i c ok => match nth_error (ths s) i with
      | Some (W x) => let (e, q) := place_of s x c ok in
          Some (put (match e with ENone => s | _ => set_ent s e end) i q)
      | _ => None end
  | Do i o => match nth_error (ths s) i with
      | Some (Call a l) =>
          match k, o with
          | KTask, Returns _ => None
          | KThen, Task _ | KVal, Task _ => None
          | _, _ =>
            let q := match o with Returns v => RChk v | Throws x => XS (Some x) (code_of x) | Task b => T0 b end in
            Some (put (St (src s) (inn s) (sts s) (flag s) (gone s) (ths s) (ent s) (S (calls s)) (Some a) (Some o) (Some l)) i q)
          end
      | _ => None end
  | Begin => match ent s with EQueued x => Some (put (set_ent s ENone) 2 (resume x OnRunner)) | _ => None end
  | Discard => match ent s with EQueued x => Some (set_ent s EGone) | _ => None end
  | Token => Some (St (src s) (inn s) (sts s) true (gone s) (ths s) (ent s) (calls s) (given s) (said s) (where_ s))
  | Cancel => Some (settle Canceled s)
  | Expire => Some (St (src s) (inn s) (sts s) (flag s) true (ths s) (ent s) (calls s) (given s) (said s) (where_ s))
  end.
Fixpoint run (s : st) (l : list act) : option st :=
  match l with [] => Some s | a :: l => match step s a with Some s' => run s' l | None => None end end.
End Config.
Definition fresh : op := Op None false false false.
(** The continuation has been made and is about to be attached; the source may be in any state already reached. *)
Definition init : st := St fresh fresh Started false false [Att; Idle; Idle; Idle] ENone 0 None None None.
