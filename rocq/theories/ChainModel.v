(** Model of chains of continuations: Then, ThenError and ThenErrorIf one after another
    (include/YY/Base/Threading/Task.h 117-207), what one stage makes of the ending of the
    stage before it (TaskAsyncOperation::Resume 389-418, TaskContinueAsyncOperation 488-512,
    both TaskErrorAsyncOperation 576-602, 618-720) and what a waiter gets in the end
    (Async.h 64-97, 163-197, 199-241).

    Simplified: every stage looks at a source that is settled completely (half settled
    sources: C122, C123), no runner is named, no token is cancelled and nobody cancels a
    stage; results of all stages have one type; an exception is its dynamic type, the code
    that Exception::GetErrorCode gives, and an identity. *)
From Coq Require Import List Bool Arith.
Import ListNotations.

(** Error codes are numbers. *)
Definition S_OK := 0.
Definition E_FAIL := 1.
Definition E_PENDING := 2.
Definition E_UNEXPECTED := 3.
Definition CANCELLED := 4.

(** SetErrorCode and SetExceptionPtr, Async.h 216-219 and 234-237. *)
Definition norm (c : nat) : nat := if (c =? E_PENDING) || (c =? S_OK) then E_UNEXPECTED else c.

(** Types that can be thrown: YY::OperationCanceledException, YY::Exception, and others. *)
Inductive ty := TCanceled | TException | TOther (n : nat).

Record exn := Exn { etype : ty; ecode : nat; eid : nat }.

(** Exception.h 22-34, 51-59: the exceptions that the library throws itself. *)
Definition exn_canceled : exn := Exn TCanceled CANCELLED 0.
Definition exn_code (c : nat) : exn := Exn TException c 0.

(** How a task ends: with a value, cancelled, or with an error, with or without an
    exception. *)
Inductive ending := Val (v : nat) | Canceled | Err (p : option exn) (c : nat).

(** What a callback does: returns, throws, or (the form that returns a task, which only
    ThenError and ThenErrorIf have) returns an empty task or one that ends like this. *)
Inductive did := Returns (v : nat) | Throws (x : exn) | Empty | Inner (e : ending).

Inductive stage :=
| Then (f : nat -> nat + exn)
| ThenError (g : exn -> did)
| ThenErrorIf (t : ty) (g : exn -> did).

(** A call of a callback: the number of the stage and the argument. *)
Inductive call := CVal (i v : nat) | CExn (i : nat) (x : exn).

Section Types.
(** [is_a t u]: an exception of type [t] is caught by [catch (const u&)]. *)
Variable is_a : ty -> ty -> bool.

(** The two handlers of Resume, Task.h 407-416 and 711-720. *)
Definition code_of (x : exn) : nat := if is_a (etype x) TException then ecode x else E_FAIL.

(** GetErrorCode of a settled operation; a cancelled one has ERROR_CANCELLED (108-117). *)
Definition hr_of (e : ending) : nat := match e with Val _ => S_OK | Canceled => CANCELLED | Err _ c => c end.
Definition eptr_of (e : ending) : option exn := match e with Err p _ => p | _ => None end.

(** What the operation of a stage becomes when its callback did this: Resolve (401),
    SetExceptionPtr (409, 414), BridgeCompletedHandler (630-639). *)
Definition settle (d : did) : ending :=
  match d with
  | Returns v => Val v
  | Throws x => Err (Some x) (norm (code_of x))
  | Empty => Err None E_FAIL                                (* Task.h 698-702 *)
  | Inner (Val v) => Val v
  | Inner e => Err (eptr_of e) (norm (hr_of e))
  end.

(** ThrowIfWaitTaskFailed of a settled operation that did not complete, Async.h 163-197. *)
Definition thrown (e : ending) : exn :=
  match e with
  | Val _ => exn_code E_FAIL
  | Canceled => exn_canceled
  | Err (Some x) _ => x
  | Err None c => exn_code c
  end.
(** CreateExceptionPtr, Async.h 64-97: the exception if there is one, else what
    ThrowIfWaitTaskFailed throws. *)
Definition CreateExceptionPtr (e : ending) : exn :=
  match eptr_of e with Some x => x | None => thrown e end.

(** The callback that ThenErrorIf hands to ThenError, Task.h 181-195. *)
Definition filtered (t : ty) (g : exn -> did) (x : exn) : did :=
  if is_a (etype x) t then g x else Throws x.

(** One stage, number [i], after a source that ended with [e]. *)
Definition after (i : nat) (s : stage) (e : ending) : ending * list call :=
  match s, e with
  | Then f, Val v => (settle (match f v with inl r => Returns r | inr x => Throws x end), [CVal i v])
  | Then _, _ => (Err (eptr_of e) (norm (hr_of e)), [])     (* Task.h 490 *)
  | ThenError _, Val v => (Val v, [])                       (* 580-587 *)
  | ThenError g, _ => let x := CreateExceptionPtr e in (settle (g x), [CExn i x])
  | ThenErrorIf _ _, Val v => (Val v, [])
  | ThenErrorIf t g, _ => let x := CreateExceptionPtr e in
      (settle (filtered t g x), if is_a (etype x) t then [CExn i x] else [])
  end.

(** The whole chain, the first stage has number [i]. *)
Fixpoint chain (i : nat) (l : list stage) (e : ending) : ending * list call :=
  match l with
  | [] => (e, [])
  | s :: l => let (e', c) := after i s e in let (r, cs) := chain (S i) l e' in (r, c ++ cs)
  end.

(** GetResult at the end of the chain: the value or an exception, Async.h 426-434. *)
Definition get_result (e : ending) : nat + exn := match e with Val v => inl v | _ => inr (thrown e) end.
End Types.
