(** A coroutine that awaits a task: TaskAwaiter (include/YY/Base/Threading/Task.h 829-911), Promise (726-827),
    Task::operator co_await (112-115), with GetResult, WaitTask and ThrowIfWaitTaskFailed (Async.h 139-196, 425-429).

    One coroutine with one co_await, the operation it awaits, the runner that was current when it awaited; the thread that
    started the coroutine, the one that completes the operation, the runner's; others that cancel the token of the operation or
    the coroutine's own task.  A coroutine with more awaits goes through this once for each (the awaiter is made anew).

    Simplifications: settling the coroutine's own operation is one step (C50); the awaited operation is settled in four steps;
    no wake-up of WaitOnAddress is spurious (C80); the list of handlers is the flag "registered" (C50); what the coroutine
    does between the await and its end is one step; reference counts are not modelled.  The language's rules for
    coroutines: the coroutine counts as suspended before await_suspend is called; "false" from await_suspend resumes it in the
    same thread; at its end its frame is destroyed (final_suspend never suspends).  Resuming a coroutine that is not suspended, and
    any use of a destroyed frame, is undefined behaviour. *)
From Coq Require Import List Bool Arith.
From Verif Require Import Slots Threads RecoverModel.
Import ListNotations.

(** What co_await gives. *)
Inductive result := RVal (v : nat) | RExn (x : exn).
(** How the body goes on to its end. *)
Inductive finish := FReturn (v : nat) | FThrow (x : exn).
(** Where the coroutine goes on: in the thread that awaited, on the runner, in the completing thread. *)
Inductive spot := Same | Runner | Completer.

Inductive cpc :=
| CIdle
| C0                (* await_ready: IsCanceled, Task.h 846 *)
| C1                (* await_ready: the status, 851 *)
| C2                (* await_suspend: IsCanceled, 856 *)
| C3                (* await_suspend: the handle is stored, 861 *)
| C4                (* await_suspend: AddCompletedHandler, 862 *)
| K0                (* OnCompleted, 874-909 *)
| G0 (l : spot)     (* await_resume, GetResult: IsCanceled, Async.h 165 *)
| G1 (l : spot)     (* WaitTask: IsCanceled, 141 *)
| G2 (l : spot)     (* WaitTask: WaitOnAddress, 160 *)
| G3 (l : spot)     (* the status, 175-195 *)
| Body (r : result) (* the coroutine goes on *)
| V0 (v : nat)      (* return_value: IsCanceled, Task.h 750 and 800 *)
| V1 (v : nat)      (* Resolve: IsCanceled, Async.h 457 and 520 *)
| V2 (v : nat)      (* Resolve: 463-470 *)
| X0 (x : exn)      (* unhandled_exception, Task.h 758-772 and 809-826 *)
| End_.             (* the frame is destroyed *)
Inductive centry := QNone | QWait | QGone.

Record cst := CSt {
  aw : op;                  (* the awaited operation *)
  own : status;             (* the coroutine's own operation *)
  cflag : bool;             (* the token of the awaited operation is cancelled *)
  cgone : bool;             (* the runner has expired *)
  cths : list cpc;          (* 0: who runs the coroutine first; 1: who completes the operation; 2: the runner *)
  cent : centry;
  susp : bool;              (* the coroutine is suspended *)
  hset : bool;              (* the awaiter knows the handle *)
  freed : nat;              (* how often the frame was destroyed *)
  ub : bool;
  resumed : nat;            (* ghost: how often it went on after the await *)
  got : option result;      (* ghost: what the await gave *)
  at_ : option spot;        (* ghost: where it went on *)
  fin : option finish       (* ghost: how the body ended *)
}.
Definition w_aw (s : cst) (o : op) := CSt o (own s) (cflag s) (cgone s) (cths s) (cent s) (susp s) (hset s) (freed s) (ub s) (resumed s) (got s) (at_ s) (fin s).
Definition w_own (x : status) (s : cst) :=
  match own s with Started => CSt (aw s) x (cflag s) (cgone s) (cths s) (cent s) (susp s) (hset s) (freed s) (ub s) (resumed s) (got s) (at_ s) (fin s) | _ => s end.
Definition w_th (s : cst) (i : nat) (p : cpc) := CSt (aw s) (own s) (cflag s) (cgone s) (set (cths s) i p) (cent s) (susp s) (hset s) (freed s) (ub s) (resumed s) (got s) (at_ s) (fin s).
Definition w_ent (s : cst) (e : centry) := CSt (aw s) (own s) (cflag s) (cgone s) (cths s) e (susp s) (hset s) (freed s) (ub s) (resumed s) (got s) (at_ s) (fin s).
Definition w_susp (s : cst) (b : bool) := CSt (aw s) (own s) (cflag s) (cgone s) (cths s) (cent s) b (hset s) (freed s) (ub s) (resumed s) (got s) (at_ s) (fin s).
Definition w_h (s : cst) := CSt (aw s) (own s) (cflag s) (cgone s) (cths s) (cent s) (susp s) true (freed s) (ub s) (resumed s) (got s) (at_ s) (fin s).
Definition w_got (s : cst) (r : result) := CSt (aw s) (own s) (cflag s) (cgone s) (cths s) (cent s) (susp s) (hset s) (freed s) (ub s) (resumed s) (Some r) (at_ s) (fin s).
Definition w_fin (s : cst) (f : finish) := CSt (aw s) (own s) (cflag s) (cgone s) (cths s) (cent s) (susp s) (hset s) (freed s) (ub s) (resumed s) (got s) (at_ s) (Some f).
(** Destruction of the frame: undefined if it is not alive. *)
Definition destroy (s : cst) := CSt (aw s) (own s) (cflag s) (cgone s) (cths s) (cent s) (susp s) (hset s) (S (freed s)) (ub s || negb (freed s =? 0)) (resumed s) (got s) (at_ s) (fin s).
(** Use of the frame (awaiter, promise). *)
Definition touch (s : cst) := CSt (aw s) (own s) (cflag s) (cgone s) (cths s) (cent s) (susp s) (hset s) (freed s) (ub s || negb (freed s =? 0)) (resumed s) (got s) (at_ s) (fin s).
(** The coroutine goes on at [l]; by resume() it must be suspended. *)
Definition goes_on (s : cst) (l : spot) := CSt (aw s) (own s) (cflag s) (cgone s) (cths s) (cent s) false (hset s) (freed s) (ub s || negb (freed s =? 0)) (S (resumed s)) (got s) (Some l) (fin s).
Definition resume_ (s : cst) (l : spot) :=
  let s' := goes_on s l in
  CSt (aw s') (own s') (cflag s') (cgone s') (cths s') (cent s') (susp s') (hset s') (freed s') (ub s' || negb (susp s)) (resumed s') (got s') (at_ s') (fin s').

Inductive cact :=
| ADecide (e : ending) | AFill | AHr | ATake         (* the awaited operation is settled *)
| AGo (i : nat)
| AWhere (i : nat) (c : current) (ok : bool)         (* OnCompleted of thread [i]; [ok]: a post is accepted *)
| AEnd (i : nat) (f : finish)                        (* the body of the coroutine ends *)
| ABegin | ADiscard                                  (* the runner starts or drops the entry *)
| AToken | ACancel                                   (* somebody cancels the token or the coroutine's own task *)
| AExpire.

Section Config.
Variable tok : bool.     (* the awaited operation has a token *)
Variable run_ : bool.    (* there was a current runner *)

Definition aw_canceled (s : cst) : bool := o_canceled (tok && cflag s) (aw s).
(** IsCanceled of the coroutine's own operation, which has no token (Task.h 731 and 779). *)
Definition own_canceled (s : cst) : bool := match own s with Canceled => true | _ => false end.
Definition cinside (s : cst) (p : cpc) : option (cst * cpc) :=
  match p with
  | C0 => if aw_canceled s then Some (goes_on (touch s) Same, G0 Same) else Some (touch s, C1)
  | C1 => match dec (aw s) with Some _ => Some (goes_on (touch s) Same, G0 Same) | None => Some (w_susp (touch s) true, C2) end
  | C2 => if aw_canceled s then Some (resume_ (touch s) Same, G0 Same) else Some (touch s, C3)
  | C3 => Some (w_h (touch s), C4)
  | C4 => match dec (aw s) with
      | Some _ => Some (resume_ (touch s) Same, G0 Same)
      | None => Some (w_aw (touch s) (Op None (fill (aw s)) (hrw (aw s)) true), CIdle) end
  | G0 l => if aw_canceled s then Some (w_got (touch s) (RExn OpCanceled), Body (RExn OpCanceled)) else Some (touch s, G1 l)
  | G1 l => if aw_canceled s then Some (w_got (touch s) (RExn (Code E_FAIL)), Body (RExn (Code E_FAIL))) else Some (touch s, G2 l)
  | G2 l => if hrw (aw s) then Some (touch s, G3 l) else None
  | G3 l =>
      let r := match dec (aw s) with
        | Some (EVal v) => RVal v
        | Some ECan => RExn OpCanceled
        | None => RExn (Code E_FAIL)
        | Some _ => RExn (match eptr (aw s) with Some x => x | None => Code (hr (aw s)) end) end in
      Some (w_got (touch s) r, Body r)
  | V0 v => Some (touch s, if own_canceled s then X0 OpCanceled else V1 v)
  | V1 v => Some (touch s, if own_canceled s then End_ else V2 v)
  | V2 v => Some (w_own (Completed v) (touch s), End_)
  | X0 x => Some (w_own (Failed (Some x) (norm (code_of x))) (touch s), End_)
  | End_ => Some (destroy s, CIdle)
  | CIdle | K0 | Body _ => None
  end.
Definition cstep (s : cst) (a : cact) : option cst :=
  match a with
  | ADecide e => match dec (aw s) with None => Some (w_aw s (Op (Some e) false false (reg (aw s)))) | Some _ => None end
  | AFill => match dec (aw s), fill (aw s) with Some _, false => Some (w_aw s (Op (dec (aw s)) true (hrw (aw s)) (reg (aw s)))) | _, _ => None end
  | AHr => if fill (aw s) && negb (hrw (aw s)) then Some (w_aw s (Op (dec (aw s)) true true (reg (aw s)))) else None
  | ATake => if hrw (aw s) && reg (aw s) then Some (w_th (w_aw s (Op (dec (aw s)) true true false)) 1 K0) else None
  | AGo i => match nth_error (cths s) i with
      | Some p => match cinside s p with Some (s', q) => Some (w_th s' i q) | None => None end
      | None => None end
  | AWhere i c ok => match nth_error (cths s) i with
      | Some K0 =>
          let s := touch s in
          if negb run_ then
            Some (if hset s then w_th (resume_ s Completer) i (G0 Completer) else w_th s i CIdle)
          else if cgone s then Some (w_th (destroy s) i CIdle)
          else match c with
            | CSame => Some (if hset s then w_th (resume_ s Runner) i (G0 Runner) else w_th s i CIdle)
            | _ => Some (w_th (w_ent s (if ok then QWait else QGone)) i CIdle)
            end
      | _ => None end
  | AEnd i f => match nth_error (cths s) i with
      | Some (Body _) => Some (w_th (w_fin (touch s) f) i (match f with FReturn v => V0 v | FThrow x => X0 x end))
      | _ => None end
  | ABegin => match cent s with QWait => Some (w_th (resume_ (w_ent s QNone) Runner) 2 (G0 Runner)) | _ => None end
  | ADiscard => match cent s with QWait => Some (w_ent s QGone) | _ => None end
  | AToken => Some (CSt (aw s) (own s) true (cgone s) (cths s) (cent s) (susp s) (hset s) (freed s) (ub s) (resumed s) (got s) (at_ s) (fin s))
  | ACancel => Some (w_own Canceled s)
  | AExpire => Some (CSt (aw s) (own s) (cflag s) true (cths s) (cent s) (susp s) (hset s) (freed s) (ub s) (resumed s) (got s) (at_ s) (fin s))
  end.
Fixpoint crun (s : cst) (l : list cact) : option cst :=
  match l with [] => Some s | a :: l => match cstep s a with Some s' => crun s' l | None => None end end.
End Config.
Definition cinit : cst := CSt fresh Started false false [C0; CIdle; CIdle] QNone false false 0 false 0 None None None.
