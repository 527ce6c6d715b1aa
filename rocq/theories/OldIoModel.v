(** Model of the deprecated forms AsyncFile::AsyncRead, AsyncFile::AsyncWrite and
    AsyncPipe::AsyncConnect (include/YY/Base/IO/File.h 190-218, 234-263, 344-369), which
    start a task, look at its status and either call the callback at once or attach it with
    Then; with what they use of the operation (src/YY/Base/IO/File.cpp 37-47, 56-109, 166-250;
    Async.h 199-207, 278-293, 307-328, 562-578), of Then (Task.h 118-138, 428-457, 478-512)
    and of the completion callback (TaskRunnerDispatchImpl.cpp 33-48).

    One call, three threads: the caller, the pool thread that takes the completion packet, and
    the runner that was current in the caller.  There is no token and nobody else has the
    task, so that nothing is ever cancelled (C101-C105 have the operation with both).

    Simplifications.
    - Sequentially consistent memory; what happens under the operation's lock is one step.
    - The callback returns.  References are not counted (C101).
    - A runner: takes a task or refuses it, runs it later, or ends and drops it. *)
From Coq Require Import List Bool ZArith.
Import ListNotations.
Local Open Scope Z_scope.

(** winerror.h. *)
Definition ERROR_SUCCESS := 0.
Definition ERROR_IO_PENDING := 997.
Definition ERROR_CANCELLED := 1223.

Inductive status := Started | Completed.
Inductive thread := Caller | Pool | Runner.
(** Where the callback was called from: the switch (File.h 203-205), or the continuation. *)
Inductive origin := Switch | Continuation.
Record call := Call { by_ : thread; from : origin; told : Z; bytes : Z }.

Inductive cpc :=
| CIssue                  (* File.cpp 68, 217: the system call *)
| CCas (e : Z)            (* Async.h 564-573 *)
| CWrL (e : Z)            (* 575 *)
| CWrH                    (* 576, 311 *)
| CSwitch                 (* File.h 199, 349: GetStatus *)
| CWait (o : origin)      (* Async.h 170: WaitTask *)
| CGet (o : origin)       (* File.cpp 37-47, 197-201: GetResult *)
| CCall (o : origin) (v : Z)
| CAttach                 (* Task.h 127: AddCompletedHandler *)
| CDone (r : Z).          (* the result of the function *)
Inductive ppc :=
| PIdle | PCas (e : Z) | PWrL (e : Z) | PWrH
| PSwap                   (* Async.h 313-317 *)
| POn                     (* Task.h 486-511: OnCompleted *)
| PGet | PCall (v : Z) | PDone.
Inductive rpc := RIdle | RGet | RCall (v : Z).
Inductive kernel := KIdle | KPend | KPkt (e : Z).

Record st := mk {
  sts : status; lst : Z; hr : bool; ih : Z;          (* the operation; ih is InternalHigh *)
  hand : bool;                                       (* the continuation is in the delegate *)
  kern : kernel; ans : option (Z * Z);               (* what the system answered: status, bytes *)
  cp : cpc; pp : ppc; rp : rpc;
  task : bool; alive : bool;                         (* the runner *)
  lec : Z; lep : Z; ler : Z;                         (* GetLastError of the three threads *)
  calls : list call; lost : nat }.

Inductive choice := Sync (b : Z) | Fail (e : Z) | Pend.

Section Io.
  (** AsyncConnect or a transfer; the handle skips packets on success; a runner is current in
      the caller; WaitOnAddress may return early. *)
  Variable conn skip has_runner early : bool.

  Definition init (c p r : Z) : st :=
    mk Started ERROR_IO_PENDING false 0 false KIdle None CIssue PIdle RIdle false true c p r [] 0.

  Definition upc (s : st) (c : cpc) : st :=
    mk (sts s) (lst s) (hr s) (ih s) (hand s) (kern s) (ans s) c (pp s) (rp s) (task s) (alive s) (lec s) (lep s) (ler s) (calls s) (lost s).
  Definition upp (s : st) (p : ppc) : st :=
    mk (sts s) (lst s) (hr s) (ih s) (hand s) (kern s) (ans s) (cp s) p (rp s) (task s) (alive s) (lec s) (lep s) (ler s) (calls s) (lost s).
  Definition upk (s : st) (k : kernel) (a : option (Z * Z)) (b : Z) : st :=
    mk (sts s) (lst s) (hr s) b (hand s) k a (cp s) (pp s) (rp s) (task s) (alive s) (lec s) (lep s) (ler s) (calls s) (lost s).
  Definition upo (s : st) (x : status) (l : Z) (h : bool) : st :=
    mk x l h (ih s) (hand s) (kern s) (ans s) (cp s) (pp s) (rp s) (task s) (alive s) (lec s) (lep s) (ler s) (calls s) (lost s).
  Definition uph (s : st) (h : bool) : st :=
    mk (sts s) (lst s) (hr s) (ih s) h (kern s) (ans s) (cp s) (pp s) (rp s) (task s) (alive s) (lec s) (lep s) (ler s) (calls s) (lost s).
  Definition upr (s : st) (p : rpc) (t a : bool) : st :=
    mk (sts s) (lst s) (hr s) (ih s) (hand s) (kern s) (ans s) (cp s) (pp s) p t a (lec s) (lep s) (ler s) (calls s) (lost s).
  Definition upe (s : st) (c p r : Z) : st :=
    mk (sts s) (lst s) (hr s) (ih s) (hand s) (kern s) (ans s) (cp s) (pp s) (rp s) (task s) (alive s) c p r (calls s) (lost s).
  Definition tell (s : st) (c : call) : st :=
    mk (sts s) (lst s) (hr s) (ih s) (hand s) (kern s) (ans s) (cp s) (pp s) (rp s) (task s) (alive s) (lec s) (lep s) (ler s) (calls s ++ [c]) (lost s).
  Definition lose (s : st) : st :=
    mk (sts s) (lst s) (hr s) (ih s) (hand s) (kern s) (ans s) (cp s) (pp s) (rp s) (task s) (alive s) (lec s) (lep s) (ler s) (calls s) (S (lost s)).

  (** GetResult of a settled operation, File.cpp 37-47 and 197-201: the number of bytes, and
      the status becomes the thread's last error if it is 0; for a connection the status. *)
  Definition result (s : st) : Z := if conn then lst s else ih s.
  Definition last_error (s : st) (le : Z) : Z := if conn then le else if ih s =? 0 then lst s else le.
  (** The call in the switch, File.h 204, 248, 355. *)
  Definition told_switch (v : Z) : Z := if conn then v else ERROR_SUCCESS.
  (** The continuation, File.h 209-213, 253-257, 360-363. *)
  Definition told_cont (le v : Z) : Z := if conn then v else if v =? 0 then le else ERROR_SUCCESS.
  Definition mkcall (t : thread) (o : origin) (le v : Z) : call :=
    Call t o (match o with Switch => told_switch v | Continuation => told_cont le v end) (if conn then 0 else v).

  Definition caller (s : st) (c : choice) : st :=
    match cp s with
    | CIssue =>
        match c with
        | Sync b => upc (upk s (if skip then KIdle else KPkt ERROR_SUCCESS) (Some (ERROR_SUCCESS, if conn then 0 else b)) (if conn then 0 else b)) (CCas ERROR_SUCCESS)
        | Fail e => upc (upk s KIdle (Some (e, 0)) 0) (CCas e)
        | Pend => upc (upk s KPend None 0) CSwitch
        end
    | CCas e => match sts s with
                | Started => upc (upo s Completed (lst s) (hr s)) (CWrL e)
                | Completed => upc s CSwitch end
    | CWrL e => upc (upo s (sts s) e (hr s)) CWrH
    | CWrH => upc (upo s (sts s) (lst s) true) CSwitch
    | CSwitch => match sts s with Completed => upc s (CWait Switch) | Started => upc s CAttach end
    | CWait o => if hr s || early then upc s (CGet o) else s
    | CGet o => upc (upe s (last_error s (lec s)) (lep s) (ler s)) (CCall o (result s))
    | CCall o v => upc (tell s (mkcall Caller o (lec s) v)) (CDone ERROR_SUCCESS)
    | CAttach => match sts s with
                 | Started => upc (uph s true) (CDone ERROR_SUCCESS)
                 (* Task.h 127-130, 495-499: the current runner is the one to resume on *)
                 | Completed => upc s (CWait Continuation) end
    | CDone _ => s
    end.

  Definition pool (s : st) (accept : bool) : st :=
    match pp s with
    | PIdle => match kern s with KPkt e => upp (upk s KIdle (ans s) (ih s)) (PCas e) | _ => s end
    | PCas e => match sts s with
                | Started => upp (upo s Completed (lst s) (hr s)) (PWrL e)
                | Completed => upp s PDone end
    | PWrL e => upp (upo s (sts s) e (hr s)) PWrH
    | PWrH => upp (upo s (sts s) (lst s) true) PSwap
    | PSwap => if hand s then upp (uph s false) POn else upp s PDone
    | POn => if has_runner
             then if alive s && accept
                  then upp (upr s (rp s) true (alive s)) PDone        (* Task.h 507-511 *)
                  else upp (lose s) PDone                             (* 501-505 *)
             else upp s PGet
    | PGet => upp (upe s (lec s) (last_error s (lep s)) (ler s)) (PCall (result s))
    | PCall v => upp (tell s (mkcall Pool Continuation (lep s) v)) PDone
    | PDone => s
    end.

  Definition runner (s : st) : st :=
    match rp s with
    | RIdle => if task s && alive s then upr s RGet false (alive s) else s
    | RGet => upr (upe s (lec s) (lep s) (last_error s (ler s))) (RCall (result s)) (task s) (alive s)
    | RCall v => upr (tell s (mkcall Runner Continuation (ler s) v)) RIdle (task s) (alive s)
    end.

  Inductive act :=
  | Do (c : choice)            (* the caller goes on; [c] is what the system call does *)
  | Complete (e b : Z)         (* the system ends the pending operation *)
  | Work (accept : bool)       (* the pool thread goes on; [accept]: the runner takes a task *)
  | Task                       (* the runner goes on *)
  | End.                       (* the runner ends and drops what it has *)
  Definition exec (s : st) (x : act) : st :=
    match x with
    | Do c => caller s c
    | Complete e b => match kern s with KPend => upk s (KPkt e) (Some (e, if conn then 0 else b)) (if conn then 0 else b) | _ => s end
    | Work a => pool s a
    | Task => runner s
    | End => match rp s with
             | RIdle => if task s then upr (lose s) RIdle false false else upr s RIdle false false
             | _ => s end
    end.
  Definition run (s : st) (l : list act) : st := fold_left exec l s.
End Io.
