(** Model of ThreadTaskRunnerProxyImpl (src/YY/Base/Threading/ThreadTaskRunnerProxyImpl.h): a task runner on a
    thread that has its own message loop and is driven by messages to a window.

    [rs] is the stack of the runner's thread: calls of TaskRunnerProc and the tasks they run; a task can run a
    message loop of its own (a modal dialog), which dispatches further messages.  [ag] are other threads in
    PostTask or Join.  Every access to the shared word, the reference count and the message queue is one step;
    memory is sequentially consistent.  The flags are those of ThreadModel.v (the enumerations are the same).

    Lines 31-35: the bit-fields bPushLock, bStopWakeup, bInterrupt, bBackgroundLoop and uWakeupCount have
    1 + 1 + 1 + 1 + 29 = 33 bits, so uWakeupCount does not fit into the first word and is a word of its own
    [w2], zero after RefPtr::Create() (value-initialisation) and written nowhere.

    Simplifications:
    - oTaskQueue is a list; Push and Pop are one step (C47).
    - Line 167: the reentry count is read after the Add (C++ leaves the order open).
    - Of the messages only the number [mq] of kExecuteTaskRunnerMsg is kept; PostMessageW succeeds; messages
      are dispatched by the loop of the thread or of a task, when the schedule says so.
    - The destructor runs when nobody else has a reference and is one step.
    - Timers are the subject of ProxyTimerModel.v.  Tasks do not throw. *)
From Coq Require Import List ZArith Bool Arith.
From Verif Require Import Slots ThreadModel.
Import ListNotations.
Local Open Scope Z_scope.

Inductive pc :=
| E0          (* lines 245-253 *)
| W0          (* lines 234, 257: bStopWakeup *)
| W1          (* line 237: PostMessageW *)
| D0          (* line 261: IsShared *)
| D1          (* line 266: bInterrupt *)
| D2          (* line 271: Pop *)
| D3          (* line 285 *)
| F0          (* lines 287-293 *)
| H0          (* line 346: IsShared *)
| H1          (* line 347: bInterrupt *)
| H2          (* line 348: bStopWakeup, uWakeupCount *)
| C0          (* line 221 *)
| C1          (* lines 228-229 *)
| X0.         (* line 357: the reference of line 330 is released *)
Inductive frame := Pr (x : pc) | Run (t : nat).
Inductive agent :=
| P0 (t : nat)     (* line 149 *)
| P1 (t : nat)     (* line 156 *)
| P2 (t : nat)     (* line 158 *)
| P3 (t : nat)     (* line 167: Add *)
| P4 (n : Z)       (* line 167: the comparison *)
| P5               (* lines 171, 234 *)
| P6               (* line 237 *)
| J0               (* line 115 *)
| J1               (* line 123 *)
| Idle.
Inductive event :=
| EPush (t : nat)    (* pushed *)
| EAcc (t : nat)     (* counted, line 167: the post succeeds *)
| ERej (t : nat)     (* refused with ERROR_CANCELLED *)
| EStart (t : nat) | EEnd (t : nat)
| ECan (t : nat)     (* taken from the queue and cancelled *)
| ENull              (* ExecuteTaskRunner found the queue empty *)
| ECln (b : bool)    (* CleanupTaskQueue set the flags; b: a post was under way, or over since the queue was empty *)
| EStop              (* Join or Interrupt is called *)
| EFull              (* uWakeupCount (nearly) overflowed *)
| EJoin              (* Join returned S_OK *)
| ENest              (* a message is dispatched by a loop within a task *)
| EDead.             (* the runner is destroyed *)
(** [us]: references of the user; [re], [pn], [pd]: uTaskRunnerReentryCount, uPendingTaskCount,
    uProcessedTaskCount; [w2]: uWakeupCount; [dd]: destroyed. *)
Record st := ST {
  fl : flags; w2 : Z; q : list nat; re : Z; pn : Z; pd : Z; mq : nat; us : nat; dd : bool;
  rs : list frame; ag : list agent; log : list event }.
Definition init : st := ST (FL false false false false 0) 0 [] 0 0 0 0 1 false [] [] [].

Definition w_fl (s : st) v := ST v (w2 s) (q s) (re s) (pn s) (pd s) (mq s) (us s) (dd s) (rs s) (ag s) (log s).
Definition w_q (s : st) v := ST (fl s) (w2 s) v (re s) (pn s) (pd s) (mq s) (us s) (dd s) (rs s) (ag s) (log s).
Definition w_re (s : st) v := ST (fl s) (w2 s) (q s) v (pn s) (pd s) (mq s) (us s) (dd s) (rs s) (ag s) (log s).
Definition w_pn (s : st) v := ST (fl s) (w2 s) (q s) (re s) v (pd s) (mq s) (us s) (dd s) (rs s) (ag s) (log s).
Definition w_pd (s : st) v := ST (fl s) (w2 s) (q s) (re s) (pn s) v (mq s) (us s) (dd s) (rs s) (ag s) (log s).
Definition w_mq (s : st) v := ST (fl s) (w2 s) (q s) (re s) (pn s) (pd s) v (us s) (dd s) (rs s) (ag s) (log s).
Definition w_us (s : st) v := ST (fl s) (w2 s) (q s) (re s) (pn s) (pd s) (mq s) v (dd s) (rs s) (ag s) (log s).
Definition w_dd (s : st) v := ST (fl s) (w2 s) (q s) (re s) (pn s) (pd s) (mq s) (us s) v (rs s) (ag s) (log s).
Definition w_rs (s : st) v := ST (fl s) (w2 s) (q s) (re s) (pn s) (pd s) (mq s) (us s) (dd s) v (ag s) (log s).
Definition w_ag (s : st) v := ST (fl s) (w2 s) (q s) (re s) (pn s) (pd s) (mq s) (us s) (dd s) (rs s) v (log s).
Definition say (s : st) e := ST (fl s) (w2 s) (q s) (re s) (pn s) (pd s) (mq s) (us s) (dd s) (rs s) (ag s) (log s ++ e).

(** References: the user's and one for each call of TaskRunnerProc (line 330). *)
Fixpoint procs (l : list frame) : nat := match l with [] => 0%nat | Pr _ :: r => S (procs r) | Run _ :: r => procs r end.
Definition refs (s : st) : nat := (us s + procs (rs s))%nat.
Definition shared (s : st) : bool := Nat.ltb 1 (refs s).
(** TerminateTaskRunnerRaw. *)
Definition term : flags := FL false true true false 0.
Definition pushing (a : agent) : bool := match a with P1 _ | P2 _ | P3 _ => true | _ => false end.
(** Lines 65-68: the destructor, if there is no reference left. *)
Definition gone (s : st) : st :=
  if Nat.eqb (refs s) 0 then say (w_dd (w_fl (w_q s []) term) true) (map ECan (q s) ++ [ECln false; EDead]) else s.

(** One step of the runner's thread in the runner's code. *)
Definition move (s : st) : option st :=
  match rs s with
  | Pr x :: k =>
      let go s y := Some (w_rs s (Pr y :: k)) in
      match x with
      | E0 =>
          let p := if pn s =? re s then (pn s + (cn (fl s) - pd s - re s)) mod W32 else pn s in
          let s1 := w_pn s p in
          if p =? re s then go s1 H0 else go (w_re s1 ((re s + 1) mod W32)) W0
      | W0 => go s (if sp (fl s) then D0 else W1)
      | W1 => go (w_mq s (S (mq s))) D0
      | D0 => go s (if shared s then D1 else F0)
      | D1 => go s (if it (fl s) then F0 else D2)
      | D2 =>
          match q s with
          | [] => go (say s [ENull]) F0
          | t :: r => Some (say (w_rs (w_q s r) (Run t :: Pr D3 :: k)) [EStart t])
          end
      | D3 => go s (if pn s =? (re s - 1) mod W32 then F0 else D0)
      | F0 =>
          let s1 := if pd s =? 0 then s else w_pd (w_fl s (dec ((enc (fl s) - 16 * pd s) mod W32))) 0 in
          go (w_re s1 ((re s - 1) mod W32)) H0
      | H0 => go s (if shared s then H1 else C0)
      | H1 => go s (if it (fl s) then C0 else H2)
      | H2 => go s (if sp (fl s) && (w2 s =? 0) then C0 else X0)
      | C0 =>
          match q s with
          | [] => go s C1
          | t :: r => Some (say (w_q s r) [ECan t])
          end
      | C1 => go (say (w_fl s term) [ECln (existsb pushing (ag s) || negb (match q s with [] => true | _ => false end))]) X0
      | X0 => Some (gone (w_rs s k))
      end
  | _ => None
  end.
(** A task returns, lines 277-278. *)
Definition ret (s : st) : option st :=
  match rs s with
  | Run t :: k => Some (say (w_rs (w_pn (w_pd s ((pd s + 1) mod W32)) ((pn s - 1) mod W32)) k) [EEnd t])
  | _ => None
  end.
(** A message is dispatched to TaskRunnerProc, lines 328-342. *)
Definition dispatch (s : st) : option st :=
  match mq s with
  | O => None
  | S n =>
      let s1 := w_mq s n in
      match rs s with
      | Pr _ :: _ => None
      | k => Some (if dd s then s1 else say (w_rs s1 (Pr E0 :: k)) (match k with [] => [] | _ => [ENest] end))
      end
  end.
Definition put (s : st) i a := w_ag s (set (ag s) i a).
Definition step (s : st) (i : nat) : option st :=
  match nth_error (ag s) i with
  | Some (P0 t) => if sp (fl s) then Some (say (put s i Idle) [ERej t]) else Some (put s i (P1 t))
  | Some (P1 t) => if lk (fl s) then Some s else Some (put (w_fl s (w_lk (fl s) true)) i (P2 t))
  | Some (P2 t) => Some (say (put (w_q s (q s ++ [t])) i (P3 t)) [EPush t])
  | Some (P3 t) =>
      let f := unlock (fl s) in
      Some (say (put (w_fl s f) i (P4 (enc f))) (EAcc t :: if CW - 4 <=? cn (fl s) then [EFull] else []))
  | Some (P4 n) => Some (put s i (if n <? (16 * (2 + re s)) mod W32 then P5 else Idle))
  | Some P5 => Some (put s i (if sp (fl s) then Idle else P6))
  | Some P6 => Some (put (w_mq s (S (mq s))) i Idle)
  | Some J0 =>
      let s1 := say (w_fl s (w_sp (fl s))) [EStop] in
      if enc (fl s) <? 16 then Some (say (put s1 i Idle) [EJoin]) else Some (put s1 i J1)
  | Some J1 => if enc (fl s) =? 6 then Some (say (put s i Idle) [EJoin]) else None
  | _ => None
  end.
Inductive act := Move | Ret | Dispatch | Step (i : nat) | Post (t : nat) | Join | Interrupt | Drop.
Definition busy (a : agent) : bool := match a with Idle => false | _ => true end.
Definition exec (s : st) (a : act) : option st :=
  match a with
  | Move => move s
  | Ret => ret s
  | Dispatch => dispatch s
  | Step i => step s i
  | Post t => if Nat.eqb (us s) 0 then None else Some (w_ag s (ag s ++ [P0 t]))
  | Join => if Nat.eqb (us s) 0 then None else Some (w_ag s (ag s ++ [J0]))
  | Interrupt => if Nat.eqb (us s) 0 then None else Some (say (w_fl s (w_it (w_sp (fl s)))) [EStop])      (* line 133 *)
  | Drop => if Nat.eqb (us s) 0 || existsb busy (ag s) then None else Some (gone (w_us s (us s - 1)%nat))
  end.
Fixpoint run (s : st) (l : list act) : option st :=
  match l with [] => Some s | a :: r => match exec s a with Some s' => run s' r | None => None end end.
