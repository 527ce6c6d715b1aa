(** Model of ThreadTaskRunnerImpl (src/YY/Base/Threading/ThreadTaskRunnerImpl.cpp and .h): posting, the two
    message loops with nested loops, Join, Interrupt and CleanupTaskQueue.

    [rs] is the stack of the runner's thread: loops and what they have called.  [ag] are other threads (or
    calls on the runner's thread) in Post or Join.  Every access to the shared word, the reference count
    and the message queue is one step; memory is sequentially consistent.

    Simplifications:
    - oTaskQueue is a list; Push and Pop are one step (C47; C87_exclusive shows one pusher at a time).
    - Line 294: the reentry count is read after the Add (C++ leaves the order open).
    - Of the thread's messages only their number [mq] and WM_QUIT [qt] are kept; MsgWaitForMultipleObjectsEx
      returns when there is one.  Timers, waited handles and APCs are choices of the schedule: [Timer] at
      lines 130 and 179, [Spur] at lines 134 and 199.
    - The destructor (CleanupTaskQueue once more) is not modelled, nor is EnableWakeup, which has no caller. *)
From Coq Require Import List ZArith Bool Arith.
From Verif Require Import Slots.
Import ListNotations.
Local Open Scope Z_scope.

(** Header 39-50: uWakeupCountAndPushLock as bPushLock, bStopWakeup, bInterrupt, bBackgroundLoop, uWakeupCount. *)
Record flags := FL { lk : bool; sp : bool; it : bool; bg : bool; cn : Z }.
Definition W32 : Z := 2 ^ 32.
Definition CW : Z := 2 ^ 28.
Definition bit (b : bool) : Z := if b then 1 else 0.
Definition enc (f : flags) : Z := bit (lk f) + 2 * bit (sp f) + 4 * bit (it f) + 8 * bit (bg f) + 16 * cn f.
Definition dec (z : Z) : flags := FL (Z.testbit z 0) (Z.testbit z 1) (Z.testbit z 2) (Z.testbit z 3) (z / 16).
(** Line 294: Add(UnlockQueuePushLockBitAndWakeupOnceRaw) on the whole word. *)
Definition unlock (f : flags) : flags := dec ((enc f + 15) mod W32).
Definition w_lk (f : flags) v := FL v (sp f) (it f) (bg f) (cn f).
Definition w_sp (f : flags) := FL (lk f) true (it f) (bg f) (cn f).
Definition w_it (f : flags) := FL (lk f) (sp f) true (bg f) (cn f).
Definition w_cn (f : flags) v := FL (lk f) (sp f) (it f) (bg f) v.

Inductive pc :=
| M0          (* lines 81, 204: IsShared *)
| MI          (* line 204: bInterrupt *)
| M1          (* lines 86, 209: PeekMessage *)
| N0          (* lines 102, 172 *)
| K0          (* lines 105, 239: IsShared *)
| K1          (* lines 105, 239: bInterrupt *)
| Q0          (* lines 111, 176 *)
| S0          (* lines 113-127, 180-194 *)
| T0          (* lines 130, 179: ProcessingTimerTasks *)
| Z0          (* lines 134, 199: MsgWaitForMultipleObjectsEx *)
| G0.         (* lines 150, 244: Pop *)
Inductive frame :=
| Lp (b : bool) (x : pc)   (* RunBackgroundLoop or RunUIMessageLoop *)
| Run (t : nat)            (* lines 155, 249: a task *)
| Cb (tm : bool)           (* a callback: window procedure, waited handle or (tm) timer *)
| L0 | L1 | L2 | L3        (* lines 423-425 *)
| C0                       (* line 437 *)
| C1.                      (* line 444 *)
Inductive agent :=
| P0 (t : nat)     (* line 275 *)
| P1 (t : nat)     (* line 283 *)
| P2 (t : nat)     (* line 285 *)
| P3 (t : nat)     (* line 294: Add *)
| P4 (n : Z)       (* line 294: the comparison *)
| P5               (* line 298: Wakeup *)
| J0               (* line 41 *)
| J1               (* line 49 *)
| Idle.
Inductive event :=
| EPush (t : nat)    (* pushed *)
| EAcc (t : nat)     (* counted, line 294: the post succeeds *)
| ERej (t : nat)     (* refused with ERROR_CANCELLED *)
| EStart (t : nat) | EEnd (t : nat)
| ECan (t : nat)     (* taken from the queue and cancelled *)
| ENull              (* the loop found the queue empty *)
| EClr | ECln        (* CleanupTaskQueue: the queue is empty; the flags are set *)
| EInt               (* Interrupt *)
| EFull              (* uWakeupCount (nearly) overflowed *)
| EJoin              (* Join returned S_OK *)
| ENest              (* a loop is entered by a callback that is not a task of the queue *)
| EEat.              (* a timer's callback removed a message *)
(** uThreadId: 0, the thread, UINT32_MAX. *)
Inductive tid := Zero | Alive | Dead.
(** [pool]: made by Create, else by BindCurrentThread; [us]: references of the user; [re], [pn], [pd]:
    uTaskRunnerReentryCount, uPendingTaskCount, uProcessedTaskCount. *)
Record st := ST {
  pool : bool; fl : flags; q : list nat; id : tid; re : Z; pn : Z; pd : Z; mq : nat; qt : bool; us : nat;
  rs : list frame; ag : list agent; log : list event }.
Definition init (p b : bool) : st :=
  ST p (FL false false false b 0) [] (if p then Zero else Alive) 0 0 0 0 false 1 [] [] [].

Definition w_fl (s : st) v := ST (pool s) v (q s) (id s) (re s) (pn s) (pd s) (mq s) (qt s) (us s) (rs s) (ag s) (log s).
Definition w_q (s : st) v := ST (pool s) (fl s) v (id s) (re s) (pn s) (pd s) (mq s) (qt s) (us s) (rs s) (ag s) (log s).
Definition w_id (s : st) v := ST (pool s) (fl s) (q s) v (re s) (pn s) (pd s) (mq s) (qt s) (us s) (rs s) (ag s) (log s).
Definition w_re (s : st) v := ST (pool s) (fl s) (q s) (id s) v (pn s) (pd s) (mq s) (qt s) (us s) (rs s) (ag s) (log s).
Definition w_pn (s : st) v := ST (pool s) (fl s) (q s) (id s) (re s) v (pd s) (mq s) (qt s) (us s) (rs s) (ag s) (log s).
Definition w_pd (s : st) v := ST (pool s) (fl s) (q s) (id s) (re s) (pn s) v (mq s) (qt s) (us s) (rs s) (ag s) (log s).
Definition w_mq (s : st) v := ST (pool s) (fl s) (q s) (id s) (re s) (pn s) (pd s) v (qt s) (us s) (rs s) (ag s) (log s).
Definition w_qt (s : st) v := ST (pool s) (fl s) (q s) (id s) (re s) (pn s) (pd s) (mq s) v (us s) (rs s) (ag s) (log s).
Definition w_us (s : st) v := ST (pool s) (fl s) (q s) (id s) (re s) (pn s) (pd s) (mq s) (qt s) v (rs s) (ag s) (log s).
Definition w_rs (s : st) v := ST (pool s) (fl s) (q s) (id s) (re s) (pn s) (pd s) (mq s) (qt s) (us s) v (ag s) (log s).
Definition w_ag (s : st) v := ST (pool s) (fl s) (q s) (id s) (re s) (pn s) (pd s) (mq s) (qt s) (us s) (rs s) v (log s).
Definition say (s : st) e := ST (pool s) (fl s) (q s) (id s) (re s) (pn s) (pd s) (mq s) (qt s) (us s) (rs s) (ag s) (log s ++ e).

(** References: the user's, the thread pool's until the loop starts, and one for each call of a loop
    (TaskRunner.cpp 456-467; operator() runs under the pool's reference). *)
Definition isl (f : frame) : nat := match f with Run _ | Cb _ => 0%nat | _ => 1%nat end.
Fixpoint loops (l : list frame) : nat := match l with [] => 0%nat | f :: r => (isl f + loops r)%nat end.
Definition refs (s : st) : nat := (us s + (match id s with Zero => 1 | _ => 0 end) + loops (rs s))%nat.
Definition shared (s : st) : bool := Nat.ltb 1 (refs s).

(** Lines 422-423: a loop returns. *)
Definition leave (s : st) (k : list frame) : st := w_rs (w_re s ((re s - 1) mod W32)) (L0 :: k).
(** RunTaskRunnerLoop returns, line 430; line 399. *)
Definition back (s : st) (k : list frame) : st :=
  let s := w_rs s k in match k with [] => if pool s then w_id s Dead else s | _ => s end.

(** One step of the runner's thread outside callbacks. *)
Definition move (s : st) : option st :=
  match rs s with
  | Lp b x :: k =>
      let go s y := Some (w_rs s (Lp b y :: k)) in
      match x with
      | M0 => if shared s then go s (if b then MI else M1) else Some (leave s k)
      | MI => if it (fl s) then Some (leave s k) else go s M1
      | M1 =>
          match mq s with
          | S n => Some (w_rs (w_mq s n) (Cb false :: Lp b M0 :: k))
          | O => if qt s then Some (leave (w_qt s false) k) else go s N0
          end
      | N0 => go (w_pn s ((cn (fl s) - pd s) mod W32)) (if b then Q0 else K0)
      | K0 => if shared s then go s K1 else Some (leave s k)
      | K1 => if it (fl s) then Some (leave s k) else go s (if b then G0 else Q0)
      | Q0 =>
          if pn s =? (re s - 1) mod W32 then go s (if b then T0 else S0) else go s (if b then K0 else G0)
      | S0 =>
          if pd s =? 0 then go s (if b then Z0 else T0)
          else
            let c := (cn (fl s) - pd s) mod CW in
            let s := w_pn (w_pd (w_fl s (w_cn (fl s) c)) 0) c in
            if c =? 0 then go s (if b then Z0 else T0)
            else if re s <=? c then go s (if b then Q0 else M0)
            else go s (if b then Z0 else T0)
      | T0 => go s (if b then S0 else Z0)
      | Z0 => if Nat.ltb 0 (mq s) || qt s then go s M0 else None
      | G0 =>
          match q s with
          | [] => Some (say (w_rs s (Lp b (if b then Q0 else K0) :: k)) [ENull])
          | t :: r => Some (say (w_rs (w_q s r) (Run t :: Lp b (if b then Q0 else K0) :: k)) [EStart t])
          end
      end
  | L0 :: k => Some (w_rs s ((if shared s then L1 else C0) :: k))
  | L1 :: k => Some (w_rs s ((if it (fl s) then C0 else L2) :: k))
  | L2 :: k => Some (if sp (fl s) then w_rs s (L3 :: k) else back s k)
  | L3 :: k => Some (if cn (fl s) =? 0 then w_rs s (C0 :: k) else back s k)
  | C0 :: k =>
      match q s with
      | [] => Some (say (w_rs s (C1 :: k)) [EClr])
      | t :: r => Some (say (w_q s r) [ECan t])
      end
  | C1 :: k => Some (say (back (w_fl s (FL false true true false 0)) k) [ECln])
  | _ => None
  end.
(** A callback returns. *)
Definition ret (s : st) : option st :=
  match rs s with
  | Run t :: k => Some (say (w_rs (w_pn (w_pd s ((pd s + 1) mod W32)) ((pn s - 1) mod W32)) k) [EEnd t])   (* lines 156-157 *)
  | Cb _ :: k => Some (w_rs s k)
  | _ => None
  end.
(** operator() and RunTaskRunnerLoop, lines 388, 410-420. *)
Definition enter (s : st) : option st :=
  let go s := Some (w_rs (w_re s ((re s + 1) mod W32)) (Lp (bg (fl s)) (if bg (fl s) then N0 else M0) :: rs s)) in
  match rs s with
  | [] => match id s with Zero => go (w_id s Alive) | Alive => if Nat.eqb (us s) 0 then None else go s | Dead => None end
  | Run _ :: _ => go s
  | Cb _ :: _ => go (say s [ENest])
  | _ => None
  end.
Definition put (s : st) i a := w_ag s (set (ag s) i a).
Definition step (s : st) (i : nat) : option st :=
  match nth_error (ag s) i with
  | Some (P0 t) => if sp (fl s) then Some (say (put s i Idle) [ERej t]) else Some (put s i (P1 t))
  | Some (P1 t) => if lk (fl s) then Some s else Some (put (w_fl s (w_lk (fl s) true)) i (P2 t))
  | Some (P2 t) => Some (say (put (w_q s (q s ++ [t])) i (P3 t)) [EPush t])
  | Some (P3 t) =>
      let f := unlock (fl s) in
      Some (say (put (w_fl s f) i (P4 (enc f))) (EAcc t :: if CW - 4 <=? cn (fl s) then [EFull] else []))
  | Some (P4 n) => Some (put s i (if n <? (16 * (2 + re s)) mod W32 then P5 else Idle))
  | Some P5 => Some (put (match id s with Alive => w_mq s (S (mq s)) | _ => s end) i Idle)      (* lines 449-457 *)
  | Some J0 =>
      let s1 := w_fl s (w_sp (fl s)) in
      if enc (fl s) <? 16 then Some (say (put s1 i Idle) [EJoin]) else Some (put s1 i J1)
  | Some J1 => if enc (fl s) =? 6 then Some (say (put s i Idle) [EJoin]) else None
  | _ => None
  end.
Inductive act :=
| Move | Ret | Enter
| Timer                (* a timer's callback is called *)
| Spur (b : bool)      (* the wait ends for another reason than a message; b: a callback is called *)
| Eat                  (* a callback runs a message loop of its own, which removes a message *)
| Input | Quit         (* a message, WM_QUIT *)
| Step (i : nat) | Post (t : nat) | Join | Interrupt | Drop.
Definition busy (a : agent) : bool := match a with Idle => false | _ => true end.
Definition exec (s : st) (a : act) : option st :=
  match a with
  | Move => move s
  | Ret => ret s
  | Enter => enter s
  | Timer => match rs s with Lp b T0 :: _ => Some (w_rs s (Cb true :: rs s)) | _ => None end
  | Spur c =>
      match rs s with
      | Lp b Z0 :: k => let k := Lp b (if b then N0 else M0) :: k in Some (w_rs s (if c then Cb false :: k else k))
      | _ => None
      end
  | Eat =>
      match rs s, mq s with
      | Run _ :: _, S n | Cb false :: _, S n => Some (w_mq s n)
      | Cb true :: _, S n => Some (say (w_mq s n) [EEat])
      | _, _ => None
      end
  | Input => match id s with Alive => Some (w_mq s (S (mq s))) | _ => None end
  | Quit => match id s with Alive => Some (w_qt s true) | _ => None end
  | Step i => step s i
  | Post t => if Nat.eqb (us s) 0 then None else Some (w_ag s (ag s ++ [P0 t]))
  | Join => if Nat.eqb (us s) 0 then None else Some (w_ag s (ag s ++ [J0]))
  | Interrupt => if Nat.eqb (us s) 0 then None else Some (say (w_fl s (w_it (w_sp (fl s)))) [EInt])      (* line 59 *)
  | Drop => if Nat.eqb (us s) 0 || existsb busy (ag s) then None else Some (w_us s (us s - 1)%nat)
  end.
Fixpoint run (s : st) (l : list act) : option st :=
  match l with [] => Some s | a :: r => match exec s a with Some s' => run s' r | None => None end end.
