(** Model of asynchronous file operations (src/YY/Base/IO/File.cpp, include/YY/Base/IO/File.h,
    include/YY/Base/Threading/Async.h 546-584, CancellationToken.h 127-200, TaskRunnerDispatchImpl.cpp 28-51).

    One operation, its cancellation token, the kernel, and any number of threads: the caller of ReadAsync,
    WriteAsync or ConnectAsync, threads with copies of the Task, callers of the token's Cancel and the pool
    thread that takes the completion packet.  A thread is the list of the accesses it has still to make; a
    reference to the operation that it holds is the [Rel] or [Own] in that list that gives it back.

    Simplifications.
    - Sequentially consistent memory.  One operation per token.
    - What the token does under its lock is one step, except that OnCanceled runs under the lock.
    - NotifyCompletedHandlers is the store of hr (C50 has the handlers).
    - The kernel: a call succeeds, fails or is pending; a pending call ends at any time with any status; a call
      that succeeds queues a packet unless the handle skips it; CancelIoEx is a request. *)
From Coq Require Import List Bool Arith.
From Verif Require Import Slots.
Import ListNotations.

Inductive status := Started | Completed | Canceled.
Inductive instr :=
| IChk               (* File.cpp 62: IsCancellationRequested *)
| Issue              (* 68: ReadFile with a cloned reference *)
| SetF               (* 87: hFile *)
| S1 | S2 | S3       (* 88: IsCanceled: the status, the status again, the token *)
| Reg                (* 94: Register *)
| R1 (e : nat) | R2 (e : nat) | R3 (e : nat)   (* Async.h 564: IsCanceled *)
| CasC (e : nat)     (* 570: the status becomes Completed *)
| WrL (e : nat)      (* 575: lStatus *)
| WrH                (* 576: hr, Async.h 311 *)
| CasX | WrX         (* AsyncInfo::Cancel, Async.h 104-113 *)
| OnC                (* OnCanceled, File.cpp 29-35 *)
| Rel                (* gives a reference back *)
| Own                (* a Task that the thread holds *)
| Unreg | Free       (* destructor, File.cpp 21-27 *)
| TExch | TLock | TUnlock.                     (* CancellationTokenSource::Cancel, 173-193 *)
Inductive kernel := KIdle | KPend | KPkt.
Record st := mk {
  rc : nat; freed : bool; sts : status; hr : bool; lst : nat; hfile : bool; reg : bool; flag : bool; lock : option nat;
  kern : kernel; res : option (nat * nat); creq : bool; ags : list (list instr);
  (* bookkeeping: the operation's Cancel was called; Register came too late; a reference without owner *)
  forced : bool; missed : bool; leak : nat }.

Section File.
  (** Whether there is a token; whether the handle skips packets on success; whether the AsyncFile says so. *)
  Variable tok skip says : bool.
  Definition init (n : nat) : st := mk 1 false Started false 0 false false false None KIdle None false ([IChk; Own] :: repeat [] n) false false 0.
  Definition sp (s : st) (a : nat) (p : list instr) : st :=
    mk (rc s) (freed s) (sts s) (hr s) (lst s) (hfile s) (reg s) (flag s) (lock s) (kern s) (res s) (creq s) (set (ags s) a p) (forced s) (missed s) (leak s).
  (** Outcome of the call. *)
  Inductive choice := CSync (b : nat) | CPend | CFail (e : nat).
  Inductive act :=
  | Run (a : nat) (c : choice)
  | Complete (e b : nat)   (* the kernel ends the pending call *)
  | Deliver (a : nat)      (* a pool thread takes the packet *)
  | UCancel (a : nat) | UDrop (a : nat) | UCopy (a b : nat)   (* on a Task *)
  | UTok (a : nat).        (* CancellationTokenSource::Cancel *)
  Inductive out := UB | Stay | Go (s : st).
  (** Does the access need the operation? *)
  Definition touch (x : instr) : bool := match x with TExch | TLock | TUnlock => false | _ => true end.
  Definition is_started (x : status) : bool := match x with Started => true | _ => false end.
  Definition free_lock (s : st) : bool := match lock s with None => true | _ => false end.
  Definition step (s : st) (a : nat) (x : instr) (r : list instr) (c : choice) : out :=
    match x with
    | IChk => if tok && flag s then Go (sp (mk (rc s) (freed s) (sts s) (hr s) (lst s) (hfile s) (reg s) (flag s) (lock s) (kern s) (res s) (creq s) (ags s) true (missed s) (leak s)) a (OnC :: CasX :: r))
              else Go (sp s a (Issue :: r))
    | Issue =>
        match c with
        | CSync b =>
            (* 69-81 *)
            Go (sp (mk (S (rc s)) (freed s) (sts s) (hr s) (lst s) (hfile s) (reg s) (flag s) (lock s) (if skip then KIdle else KPkt) (Some (0, b)) (creq s) (ags s) (forced s) (missed s) (if skip && negb says then 1 else 0)) a
                  (R1 0 :: (if says then Rel :: r else r)))
        | CPend => Go (sp (mk (S (rc s)) (freed s) (sts s) (hr s) (lst s) (hfile s) (reg s) (flag s) (lock s) KPend (res s) (creq s) (ags s) (forced s) (missed s) (leak s)) a (SetF :: S1 :: r))
        | CFail e =>
            (* 100-105 *)
            Go (sp (mk (S (rc s)) (freed s) (sts s) (hr s) (lst s) (hfile s) (reg s) (flag s) (lock s) (kern s) (Some (e, 0)) (creq s) (ags s) (forced s) (missed s) (leak s)) a (R1 e :: Rel :: r))
        end
    | SetF => Go (sp (mk (rc s) (freed s) (sts s) (hr s) (lst s) true (reg s) (flag s) (lock s) (kern s) (res s) (creq s) (ags s) (forced s) (missed s) (leak s)) a r)
    | S1 => Go (sp s a (match sts s with Completed => Reg :: r | _ => S2 :: r end))
    | S2 => match sts s with
            | Canceled => Go (sp (mk (rc s) (freed s) (sts s) (hr s) (lst s) (hfile s) (reg s) (flag s) (lock s) (kern s) (res s) (creq s) (ags s) true (missed s) (leak s)) a (OnC :: CasX :: r))
            | _ => Go (sp s a (S3 :: r)) end
    | S3 => if tok && flag s then Go (sp (mk (rc s) (freed s) (sts s) (hr s) (lst s) (hfile s) (reg s) (flag s) (lock s) (kern s) (res s) (creq s) (ags s) true (missed s) (leak s)) a (OnC :: CasX :: r))
            else Go (sp s a (Reg :: r))
    | Reg =>
        (* CancellationToken.h 149-163: false when the token is cancelled; the result is not looked at *)
        if negb tok then Go (sp s a r)
        else if negb (free_lock s) then Stay
        else Go (sp (mk (rc s) (freed s) (sts s) (hr s) (lst s) (hfile s) (negb (flag s)) (flag s) (lock s) (kern s) (res s) (creq s) (ags s) (forced s) (flag s) (leak s)) a r)
    | R1 e => Go (sp s a (match sts s with Completed => CasC e :: r | _ => R2 e :: r end))
    | R2 e => Go (sp s a (match sts s with Canceled => CasX :: r | _ => R3 e :: r end))
    | R3 e => Go (sp s a (if tok && flag s then CasX :: r else CasC e :: r))
    | CasC e => if is_started (sts s) then Go (sp (mk (rc s) (freed s) Completed (hr s) (lst s) (hfile s) (reg s) (flag s) (lock s) (kern s) (res s) (creq s) (ags s) (forced s) (missed s) (leak s)) a (WrL e :: r))
                else Go (sp s a r)
    | WrL e => Go (sp (mk (rc s) (freed s) (sts s) (hr s) e (hfile s) (reg s) (flag s) (lock s) (kern s) (res s) (creq s) (ags s) (forced s) (missed s) (leak s)) a (WrH :: r))
    | WrH | WrX => Go (sp (mk (rc s) (freed s) (sts s) true (lst s) (hfile s) (reg s) (flag s) (lock s) (kern s) (res s) (creq s) (ags s) (forced s) (missed s) (leak s)) a r)
    | CasX => if is_started (sts s) then Go (sp (mk (rc s) (freed s) Canceled (hr s) (lst s) (hfile s) (reg s) (flag s) (lock s) (kern s) (res s) (creq s) (ags s) (forced s) (missed s) (leak s)) a (WrX :: r))
              else Go (sp s a r)
    | OnC =>
        (* CancelIoEx *)
        Go (sp (mk (rc s) (freed s) (sts s) (hr s) (lst s) (hfile s) (reg s) (flag s) (lock s) (kern s) (res s) (creq s || (hfile s && match kern s with KPend => true | _ => false end)) (ags s) (forced s) (missed s) (leak s)) a r)
    | Rel =>
        match rc s with
        | 0 => UB
        | S k => Go (sp (mk k (freed s) (sts s) (hr s) (lst s) (hfile s) (reg s) (flag s) (lock s) (kern s) (res s) (creq s) (ags s) (forced s) (missed s) (leak s)) a (match k with 0 => (if tok then Unreg :: Free :: r else Free :: r) | _ => r end))
        end
    | Own => Stay
    | Unreg => if free_lock s then Go (sp (mk (rc s) (freed s) (sts s) (hr s) (lst s) (hfile s) false (flag s) (lock s) (kern s) (res s) (creq s) (ags s) (forced s) (missed s) (leak s)) a r) else Stay
    | Free => Go (sp (mk (rc s) true (sts s) (hr s) (lst s) (hfile s) (reg s) (flag s) (lock s) (kern s) (res s) (creq s) (ags s) (forced s) (missed s) (leak s)) a r)
    | TExch => Go (sp (mk (rc s) (freed s) (sts s) (hr s) (lst s) (hfile s) (reg s) true (lock s) (kern s) (res s) (creq s) (ags s) (forced s) (missed s) (leak s)) a (if flag s then r else TLock :: r))
    | TLock => if free_lock s then Go (sp (mk (rc s) (freed s) (sts s) (hr s) (lst s) (hfile s) false (flag s) (Some a) (kern s) (res s) (creq s) (ags s) (forced s) (missed s) (leak s)) a (if reg s then OnC :: TUnlock :: r else TUnlock :: r)) else Stay
    | TUnlock => Go (sp (mk (rc s) (freed s) (sts s) (hr s) (lst s) (hfile s) (reg s) (flag s) None (kern s) (res s) (creq s) (ags s) (forced s) (missed s) (leak s)) a r)
    end.
  Definition exec (s : st) (x : act) : out :=
    match x with
    | Run a c =>
        match nth_error (ags s) a with
        | Some (i :: r) => if touch i && freed s then UB else step s a i r c
        | _ => Stay
        end
    | Complete e b =>
        match kern s with
        | KPend => if freed s then UB else Go (mk (rc s) (freed s) (sts s) (hr s) (lst s) (hfile s) (reg s) (flag s) (lock s) KPkt (Some (e, b)) (creq s) (ags s) (forced s) (missed s) (leak s))
        | _ => Stay
        end
    | Deliver a =>
        (* TaskRunnerDispatchImpl.cpp 38-46 *)
        match kern s, res s, nth_error (ags s) a with
        | KPkt, Some (e, _), Some [] => Go (sp (mk (rc s) (freed s) (sts s) (hr s) (lst s) (hfile s) (reg s) (flag s) (lock s) KIdle (res s) (creq s) (ags s) (forced s) (missed s) (leak s)) a [R1 e; Rel])
        | _, _, _ => Stay
        end
    | UCancel a =>
        (* File.cpp 49-53 *)
        match nth_error (ags s) a with
        | Some [Own] => Go (sp (mk (rc s) (freed s) (sts s) (hr s) (lst s) (hfile s) (reg s) (flag s) (lock s) (kern s) (res s) (creq s) (ags s) true (missed s) (leak s)) a [OnC; CasX; Own])
        | _ => Stay end
    | UDrop a => match nth_error (ags s) a with Some [Own] => Go (sp s a [Rel]) | _ => Stay end
    | UCopy a b =>
        match nth_error (ags s) a, nth_error (ags s) b with
        | Some [Own], Some [] => if freed s then UB else Go (sp (mk (S (rc s)) (freed s) (sts s) (hr s) (lst s) (hfile s) (reg s) (flag s) (lock s) (kern s) (res s) (creq s) (ags s) (forced s) (missed s) (leak s)) b [Own])
        | _, _ => Stay end
    | UTok a => if tok then match nth_error (ags s) a with Some [] => Go (sp s a [TExch]) | _ => Stay end else Stay
    end.
  Fixpoint run (s : st) (l : list act) : option st :=
    match l with [] => Some s | x :: r => match exec s x with UB => None | Stay => run s r | Go s' => run s' r end end.
End File.

(** ** AsyncFile objects, File.h 42-141. *)
(** A handle and what the object says about it. *)
Record file := mkf { hnd : option nat; flg : bool }.
(** Open handles with their mode, the objects, the handles closed. *)
Definition fst_ := (list (option bool) * list (option file) * list nat)%type.
Inductive fop :=
| FOpen (i : nat) (ok mode : bool)  (* AsyncFile(CreateFileW(...)), 44-51; the mode is set or not *)
| FEmpty (i : nat)                  (* AsyncFile() *)
| FMove (i j : nat)                 (* move constructor, 56-60: the flag is not copied *)
| FAssign (i j : nat)               (* move assignment, 70-82 *)
| FClose (i : nat) (ok : bool)      (* 123-136 *)
| FDrop (i : nat).                  (* destructor; CloseHandle succeeds *)
Definition fget (s : fst_) (i : nat) : option file := match nth_error (snd (fst s)) i with Some (Some f) => Some f | _ => None end.
Definition feq (a b : option nat) : bool := match a, b with Some x, Some y => x =? y | None, None => true | _, _ => false end.
Definition close (hs : list (option bool)) (h : option nat) : list (option bool) := match h with Some x => set hs x None | None => hs end.
Definition closed (c : list nat) (h : option nat) : list nat := match h with Some x => x :: c | None => c end.
Definition fexec (s : fst_) (o : fop) : option fst_ :=
  let '(hs, fs, c) := s in
  match o with
  | FOpen i ok mode =>
      match nth_error fs i with
      | Some None => if ok then Some (hs ++ [Some mode], set fs i (Some (mkf (Some (length hs)) mode)), c) else Some (hs, set fs i (Some (mkf None false)), c)
      | _ => None end
  | FEmpty i => match nth_error fs i with Some None => Some (hs, set fs i (Some (mkf None false)), c) | _ => None end
  | FMove i j =>
      match nth_error fs i, fget s j with
      | Some None, Some f => Some (hs, set (set fs i (Some (mkf (hnd f) false))) j (Some (mkf None (flg f))), c)
      | _, _ => None end
  | FAssign i j =>
      match fget s i, fget s j with
      | Some f, Some g =>
          if feq (hnd f) (hnd g) then Some s
          else Some (close hs (hnd f), set (set fs i (Some (mkf (hnd g) (flg g)))) j (Some (mkf None (flg g))), closed c (hnd f))
      | _, _ => None end
  | FClose i ok =>
      match fget s i with
      | Some f => if ok then Some (close hs (hnd f), set fs i (Some (mkf None (flg f))), closed c (hnd f)) else Some s
      | None => None end
  | FDrop i => match fget s i with Some f => Some (close hs (hnd f), set fs i None, closed c (hnd f)) | None => None end
  end.
Fixpoint frun (s : fst_) (l : list fop) : fst_ := match l with [] => s | o :: r => match fexec s o with Some s' => frun s' r | None => frun s r end end.
