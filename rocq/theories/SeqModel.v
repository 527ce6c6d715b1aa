(** Model of SequencedTaskRunnerImpl (src/YY/Base/Threading/SequencedTaskRunnerImpl.h 17-45 and
    SequencedTaskRunnerImpl.cpp 22-170): posting, the workers, clean-up, Join, Interrupt and release.

    Threads are the elements of [ag]; each action makes one access to shared memory.  Memory is
    sequentially consistent.

    Simplifications:
    - The queue is a list; Push and Pop take effect at once (proved of InterlockedQueue for one popping
      thread, C46/C47).  Entering Pop is a step of its own so that overlapping calls are visible.
    - A task runs from [EStart] to [EEnd]; what it does is not modelled (C62).  Posting and joining threads
      hold a reference to the runner, so the user's last reference is released only when none is active.
    - Join waits without a timeout.  The thread pool starts each accepted worker (any time later). *)
From Coq Require Import List ZArith Bool Arith.
From Verif Require Import Slots Threads.
Import ListNotations.
Local Open Scope Z_scope.

(** Header 19-28: uWakeupCountAndPushLock as bPushLock, bStopWakeup, bInterrupt, uWakeupCount (29 bits). *)
Record flags := FL { lk : bool; sp : bool; it : bool; cn : Z }.
Definition feq (a b : flags) : bool := Bool.eqb (lk a) (lk b) && Bool.eqb (sp a) (sp b) && Bool.eqb (it a) (it b) && (cn a =? cn b).
Definition CW : Z := 2 ^ 29.

Inductive frame :=
(* PostTaskInternal *)
| P1 (t : nat)                (* lines 66, 77: read the flags *)
| P3 (t : nat) (f : flags)    (* line 81: compare-exchange *)
| P4 (t : nat) (b : bool)     (* line 84: Push; b: there was no worker *)
| P5 (b : bool)               (* line 85: unlock *)
| P6 (b : bool)               (* lines 92-94 *)
| P7                          (* line 98: stop *)
(* operator() and ExecuteTaskRunner *)
| W0                          (* scheduled on the thread pool *)
| W1                          (* line 137 *)
| W2                          (* line 140: calling Pop *)
| W3                          (* line 140: in Pop *)
| W4 (t : nat)                (* line 143: the task is running *)
| W5                          (* lines 146-151 *)
| T0 | T1 | T2 | T3           (* lines 115-117 *)
| TR                          (* the thread pool releases its reference *)
(* CleanupTaskQueue *)
| C0                          (* line 161: calling Pop *)
| C1                          (* line 161: in Pop *)
| C2                          (* line 167 *)
| DT                          (* end of the destructor, lines 22-25 *)
(* Join *)
| J0                          (* line 40 *)
| J1.                         (* line 48 *)

Inductive event :=
| EAcc (t : nat)    (* accepted: compare-exchange done *)
| ERej (t : nat)    (* refused with ERROR_CANCELLED *)
| EStart (t : nat) | EEnd (t : nat)
| ECan (t : nat)    (* taken from the queue and cancelled *)
| ENull             (* a worker found the queue empty *)
| EInt              (* Interrupt *)
| EFail             (* the thread pool refused the worker *)
| EFull             (* uWakeupCount overflowed *)
| EJoin.            (* Join returned S_OK *)

Record st := ST { fl : flags; q : list nat; usr : bool; fre : bool; ag : list (list frame); log : list event }.
Definition init : st := ST (FL false false false 0) [] true false [] [].

Definition put (s : st) i k := ST (fl s) (q s) (usr s) (fre s) (set (ag s) i k) (log s).
Definition add (s : st) k := ST (fl s) (q s) (usr s) (fre s) (ag s ++ [k]) (log s).
Definition say (s : st) e := ST (fl s) (q s) (usr s) (fre s) (ag s) (log s ++ e).
Definition w_fl (s : st) v := ST v (q s) (usr s) (fre s) (ag s) (log s).
Definition w_q (s : st) v := ST (fl s) v (usr s) (fre s) (ag s) (log s).

(** References: the user's and one for each worker. *)
Definition isw (f : frame) : nat := match f with TR => 1 | _ => 0 end.
Definition workers (s : st) : nat := suml (suml isw) (ag s).
Definition refs (s : st) : nat := (if usr s then 1 else 0) + workers s.
Definition shared (s : st) : bool := Nat.ltb 1 (refs s).

(** Lines 69-80: what the value read leads to. *)
Definition look (s : st) (i t : nat) (f : flags) (k : list frame) : st :=
  if sp f then say (put s i k) [ERej t] else if lk f then put s i (P1 t :: k) else put s i (P3 t f :: k).

Definition step (s : st) (i : nat) (f : frame) (k : list frame) : option st :=
  match f with
  | P1 t => Some (look s i t (fl s) k)
  | P3 t f =>
      if feq (fl s) f then
        let c := (cn f + 1) mod CW in
        Some (say (put (w_fl s (FL true (sp f) (it f) c)) i (P4 t (cn f =? 0) :: k)) (EAcc t :: if c =? 0 then [EFull] else []))
      else Some (look s i t (fl s) k)
  | P4 t b => Some (put (w_q s (q s ++ [t])) i (P5 b :: k))
  | P5 b => Some (put (w_fl s (FL false (sp (fl s)) (it (fl s)) (cn (fl s)))) i (P6 b :: k))
  | P6 b => if b then Some (add (put s i k) [W0; TR]) else Some (put s i k)
  | P7 => Some (put (w_fl s (FL (lk (fl s)) true (it (fl s)) (cn (fl s)))) i (C0 :: k))
  | W0 => Some (put s i (W1 :: k))
  | W1 => if shared s then Some (put s i (W2 :: k)) else Some (put s i (T0 :: k))
  | W2 => Some (put s i (W3 :: k))
  | W3 =>
      match q s with
      | [] => Some (say (put s i (T0 :: k)) [ENull])
      | t :: r => Some (say (put (w_q s r) i (W4 t :: k)) [EStart t])
      end
  | W4 t => Some (say (put s i (W5 :: k)) [EEnd t])
  | W5 =>
      let c := (cn (fl s) - 1) mod CW in
      let s1 := w_fl s (FL (lk (fl s)) (sp (fl s)) (it (fl s)) c) in
      if it (fl s) then Some (put s1 i (T0 :: k)) else if c =? 0 then Some (put s1 i (T0 :: k)) else Some (put s1 i (W1 :: k))
  | T0 => if shared s then Some (put s i (T1 :: k)) else Some (put s i (C0 :: k))
  | T1 => if it (fl s) then Some (put s i (C0 :: k)) else Some (put s i (T2 :: k))
  | T2 => if sp (fl s) then Some (put s i (T3 :: k)) else Some (put s i k)
  | T3 => if cn (fl s) =? 0 then Some (put s i (C0 :: k)) else Some (put s i k)
  | TR => if Nat.eqb (refs s) 1 then Some (put s i (C0 :: DT :: k)) else Some (put s i k)
  | C0 => Some (put s i (C1 :: k))
  | C1 =>
      match q s with
      | [] => Some (put s i (C2 :: k))
      | t :: r => Some (say (put (w_q s r) i (C0 :: k)) [ECan t])
      end
  | C2 => Some (put (w_fl s (FL false true true 0)) i k)
  | DT => Some (ST (fl s) (q s) (usr s) true (set (ag s) i k) (log s))
  | J0 =>
      let s1 := w_fl s (FL (lk (fl s)) true (it (fl s)) (cn (fl s))) in
      if cn (fl s) =? 0 then Some (say (put s1 i k) [EJoin]) else Some (put s1 i (J1 :: k))
  | J1 => if feq (fl s) (FL false true true 0) then Some (say (put s i k) [EJoin]) else None
  end.

Inductive act := Step (i : nat) | Post (t : nat) | Join | Interrupt | Fail (i : nat) | Drop.
Definition ext (f : frame) : bool := match f with P1 _ | P3 _ _ | P4 _ _ | P5 _ | P6 _ | P7 | C0 | C1 | C2 | J0 | J1 => true | _ => false end.
(** A thread using the user's reference. *)
Definition user (k : list frame) : bool := match k with [f] => ext f | _ => false end.
Definition exec (s : st) (a : act) : option st :=
  match a with
  | Step i => match nth_error (ag s) i with Some (f :: k) => step s i f k | _ => None end
  | Post t => if usr s then Some (add s [P1 t]) else None
  | Join => if usr s then Some (add s [J0]) else None
  | Interrupt => if usr s then Some (say (w_fl s (FL (lk (fl s)) true true (cn (fl s)))) [EInt]) else None      (* line 58 *)
  | Fail i => match nth_error (ag s) i with Some (P6 true :: k) => Some (say (put s i (P7 :: k)) [EFail]) | _ => None end   (* lines 94-100 *)
  | Drop =>
      if usr s && negb (existsb user (ag s)) then
        let s1 := ST (fl s) (q s) false (fre s) (ag s) (log s) in
        if Nat.eqb (workers s) 0 then Some (add s1 [C0; DT]) else Some s1
      else None
  end.
Fixpoint run (s : st) (l : list act) : option st :=
  match l with [] => Some s | a :: r => match exec s a with Some s' => run s' r | None => None end end.
