(** The thread pool of the Linux build: src/YY/Base/Threading/ThreadPool.Linux.cc, ThreadPool.Linux.h.

    Any number of threads call [ThreadPool::ExecuteTask]; the pool creates its own threads, which run
    [TaskExecuteRoutine].  Every access to shared memory that matters is one step.  Both containers are modelled at
    the level of their own fields, because the pool uses them with several consumers (and the queue with several
    producers) although both are written for one:
    - [oIdleThreadQueue], InterlockedSingleLinkedList.h 25-108, is [hd] (pHead) and the [nx] of every thread (pNext);
    - [oPendingTaskQueue], InterlockedQueue.h 17-87, is [buf], [ri] (uLastReadIndex) and [wi] (uLastWriteIndex) of one
      block.

    Simplifications.  One block of the queue is never full (the chain of blocks of InterlockedQueue.h 56-64 and 76-82 is
    the subject of C47).  [x += 1] on an index is one atomic step, which is kinder than the code.  [pNext = head] and the
    compare-exchange of Push are one step.  pthread_create stores hThread before the new thread runs (as glibc does).
    sigwait on the set that holds SIGUSR1 only returns 0 and SIGUSR1 (so lines 110-120, which leave the loop, are not
    reached).  Nobody else blocks, unblocks or sends SIGUSR1.  A callback runs for any length of time and ends. *)
From Coq Require Import List Bool Arith.
From Verif Require Import Slots Threads.
Import ListNotations.

(** Where a thread of the pool is in TaskExecuteRoutine, ThreadPool.Linux.cc 76-124. *)
Inductive tpc :=
| T0                    (* 85: if (_pThread->pfnCallback) *)
| T1 (k : nat)          (* 87: running the callback of task [k] that was handed over *)
| T2                    (* 94: oPendingTaskQueue.Pop(), about to compare the indices and read the slot *)
| T3 (k : nat)          (* InterlockedQueue.h 51-52: the slot was read, uLastReadIndex += 1 follows *)
| T4 (k : nat)          (* 98: running the callback of a task of the queue *)
| T5                    (* 104: oIdleThreadQueue.Push, about to read pHead *)
| T6 (h : option nat)   (* InterlockedSingleLinkedList.h 59-61: pNext = h, compare-exchange *)
| T8                    (* 106: pthread_sigmask *)
| T9.                   (* 107: sigwait *)

(** ThreadInfoEntry, ThreadPool.Linux.h 22-29, with the state the kernel keeps for the thread: is SIGUSR1 blocked, is it
    pending.  [job] is pfnCallback and pUserData together. *)
Record thr := TH { pc : tpc; job : option nat; nx : option nat; msk : bool; sg : bool }.

(** Where a caller of ExecuteTask is, ThreadPool.Linux.cc 15-74; [k] is the task it brings. *)
Inductive cpc :=
| CI                                        (* not in ExecuteTask *)
| C0 (k : nat)                              (* 17: Pop, about to read pHead *)
| C1 (k t : nat)                            (* Pop: about to read pNext of [t] *)
| C2 (k t : nat) (n : option nat)           (* Pop: compare-exchange of pHead from [t] to [n] *)
| C3 (k t : nat)                            (* 20-21: store the callback in the popped thread *)
| C4 (k t : nat)                            (* 23: pthread_kill *)
| C5 (k : nat)                              (* 27: read uThreadCount *)
| C6 (k c : nat)                            (* 29, 40: at the limit?, compare-exchange *)
| C7 (k : nat)                              (* 32: New<ThreadPoolTaskEntry> *)
| C8 (k : nat)                              (* 36: Push: store in the slot of uLastWriteIndex *)
| C9 (k : nat)                              (* Push: uLastWriteIndex += 1 *)
| C10 (k : nat)                             (* 49: New<ThreadInfoEntry> *)
| C11 (k : nat)                             (* 60: pthread_create *)
| C12 (k : nat).                            (* 52, 72: Decrement after a failure *)

Inductive ev :=
| EStart (k : nat)      (* the callback of the task is called *)
| EAcc (k : nat)        (* ExecuteTask returned S_OK *)
| ERej (k : nat)        (* ExecuteTask returned E_OUTOFMEMORY or E_FAIL *)
| EQueue (k : nat)      (* the task was pushed on oPendingTaskQueue *)
| EDead (t : nat)       (* SIGUSR1 was delivered to a thread that does not block it: the process is terminated *)
| EWild.                (* a slot of the queue that holds no task was read *)

(** [dead]: the process is gone.  [ov] is no field of the program: it records that at some moment two threads were
    inside the same end of a container that is written for one thread at that end. *)
Record st := ST { hd : option nat; buf : list (option nat); ri : nat; wi : nat; cnt : nat; th : list thr; ca : list cpc;
  nt : nat; dead : bool; ov : bool; log : list ev }.

Definition init (n : nat) : st := ST None [] 0 0 0 [] (repeat CI n) 0 false false [].

Definition setca (s : st) (i : nat) (c : cpc) : st :=
  ST (hd s) (buf s) (ri s) (wi s) (cnt s) (th s) (set (ca s) i c) (nt s) (dead s) (ov s) (log s).
Definition setth (s : st) (t : nat) (x : thr) : st :=
  ST (hd s) (buf s) (ri s) (wi s) (cnt s) (set (th s) t x) (ca s) (nt s) (dead s) (ov s) (log s).
Definition sethd (s : st) (h : option nat) : st :=
  ST h (buf s) (ri s) (wi s) (cnt s) (th s) (ca s) (nt s) (dead s) (ov s) (log s).
Definition setcnt (s : st) (c : nat) : st :=
  ST (hd s) (buf s) (ri s) (wi s) c (th s) (ca s) (nt s) (dead s) (ov s) (log s).
Definition setq (s : st) (b : list (option nat)) (r w : nat) : st :=
  ST (hd s) b r w (cnt s) (th s) (ca s) (nt s) (dead s) (ov s) (log s).
Definition addth (s : st) (x : thr) : st :=
  ST (hd s) (buf s) (ri s) (wi s) (cnt s) (th s ++ [x]) (ca s) (nt s) (dead s) (ov s) (log s).
Definition addlog (s : st) (e : ev) : st :=
  ST (hd s) (buf s) (ri s) (wi s) (cnt s) (th s) (ca s) (nt s) (dead s) (ov s) (e :: log s).
Definition kill (s : st) (e : ev) : st :=
  ST (hd s) (buf s) (ri s) (wi s) (cnt s) (th s) (ca s) (nt s) true (ov s) (e :: log s).

Definition wpc (x : thr) (p : tpc) : thr := TH p (job x) (nx x) (msk x) (sg x).
Definition wjob (x : thr) (j : option nat) : thr := TH (pc x) j (nx x) (msk x) (sg x).
Definition wnx (x : thr) (n : option nat) : thr := TH (pc x) (job x) n (msk x) (sg x).
Definition wsg (x : thr) : thr := TH (pc x) (job x) (nx x) (msk x) true.

(** Store [k] in slot [i] of the buffer. *)
Fixpoint put (b : list (option nat)) (i : nat) (k : nat) : list (option nat) :=
  match b, i with
  | [], 0 => [Some k]
  | [], S i => None :: put [] i k
  | _ :: b, 0 => Some k :: b
  | x :: b, S i => x :: put b i k
  end.

(** The loop of Pop looks at the head it got: InterlockedSingleLinkedList.h 90-91 and 94; an empty list makes
    ExecuteTask go on at line 27. *)
Definition look (k : nat) (h : option nat) : cpc := match h with Some t => C1 k t | None => C5 k end.

(** One step of caller [i]; [M] is MaxThreadsCount (line 13), [inh] says that the threads of the pool inherit a mask that
    blocks SIGUSR1, [o] answers the allocator or pthread_create. *)
Definition cstep (M : nat) (inh : bool) (s : st) (i : nat) (c : cpc) (o : bool) : option st :=
  match c with
  | CI =>
      Some (setca (ST (hd s) (buf s) (ri s) (wi s) (cnt s) (th s) (ca s) (S (nt s)) (dead s) (ov s) (log s)) i (C0 (nt s)))
  | C0 k => Some (setca s i (look k (hd s)))
  | C1 k t => match nth_error (th s) t with Some x => Some (setca s i (C2 k t (nx x))) | None => None end
  | C2 k t n =>
      if eqp (hd s) (Some t) then
        match nth_error (th s) t with
        | Some x => Some (setca (setth (sethd s n) t (wnx x None)) i (C3 k t))
        | None => None
        end
      else Some (setca s i (look k (hd s)))
  | C3 k t => match nth_error (th s) t with Some x => Some (setca (setth s t (wjob x (Some k))) i (C4 k t)) | None => None end
  | C4 k t =>
      match nth_error (th s) t with
      | Some x =>
          if msk x then Some (setca (addlog (setth s t (wsg x)) (EAcc k)) i CI)
          else Some (kill s (EDead t))
      | None => None
      end
  | C5 k => Some (setca s i (C6 k (cnt s)))
  | C6 k c =>
      if Nat.leb M c then Some (setca s i (C7 k))
      else if Nat.eqb (cnt s) c then Some (setca (setcnt s (S c)) i (C10 k))
      else Some (setca s i (C6 k (cnt s)))
  | C7 k => if o then Some (setca s i (C8 k)) else Some (setca (addlog s (ERej k)) i CI)
  | C8 k => Some (setca (setq s (put (buf s) (wi s) k) (ri s) (wi s)) i (C9 k))
  | C9 k => Some (setca (addlog (addlog (setq s (buf s) (ri s) (S (wi s))) (EQueue k)) (EAcc k)) i CI)
  | C10 k => Some (setca s i (if o then C11 k else C12 k))
  | C11 k =>
      if o then Some (setca (addlog (addth s (TH T0 (Some k) None inh false)) (EAcc k)) i CI)
      else Some (setca s i (C12 k))
  | C12 k => Some (setca (addlog (setcnt s (cnt s - 1)) (ERej k)) i CI)
  end.

(** One step of thread [t] of the pool. *)
Definition tstep (s : st) (t : nat) (x : thr) : option st :=
  match pc x with
  | T0 =>
      match job x with
      | Some k => Some (addlog (setth s t (wpc x (T1 k))) (EStart k))
      | None => Some (setth s t (wpc x T2))
      end
  | T1 _ => Some (setth s t (wpc (wjob x None) T2))
  | T2 =>
      if Nat.eqb (ri s) (wi s) then Some (setth s t (wpc x T5))
      else match nth_error (buf s) (ri s) with
           | Some (Some k) => Some (setth s t (wpc x (T3 k)))
           | _ => Some (kill s EWild)
           end
  | T3 k => Some (addlog (setq (setth s t (wpc x (T4 k))) (buf s) (S (ri s)) (wi s)) (EStart k))
  | T4 _ => Some (setth s t (wpc x T2))
  | T5 => Some (setth s t (wpc x (T6 (hd s))))
  | T6 h =>
      if eqp (hd s) h then Some (setth (sethd s (Some t)) t (wpc (wnx x h) T8))
      else Some (setth s t (wpc x (T6 (hd s))))
  | T8 => Some (setth s t (TH T9 (job x) (nx x) true (sg x)))
  | T9 => if sg x then Some (setth s t (TH T0 (job x) (nx x) (msk x) false)) else None
  end.

(** How many threads are inside Pop of the idle list, Pop of the queue, Push of the queue. *)
Definition popping (c : cpc) : nat := match c with C1 _ _ | C2 _ _ _ => 1 | _ => 0 end.
Definition taking (x : thr) : nat := match pc x with T3 _ => 1 | _ => 0 end.
Definition pushing (c : cpc) : nat := match c with C9 _ => 1 | _ => 0 end.
Definition clash (s : st) : bool :=
  Nat.ltb 1 (suml popping (ca s)) || Nat.ltb 1 (suml taking (th s)) || Nat.ltb 1 (suml pushing (ca s)).
Definition watch (s : st) : st :=
  ST (hd s) (buf s) (ri s) (wi s) (cnt s) (th s) (ca s) (nt s) (dead s) (ov s || clash s) (log s).

Inductive act := Call (i : nat) (o : bool) | Run (t : nat).

Definition step (M : nat) (inh : bool) (s : st) (a : act) : option st :=
  if dead s then None else
  match a with
  | Call i o => match nth_error (ca s) i with Some c => cstep M inh s i c o | None => None end
  | Run t => match nth_error (th s) t with Some x => tstep s t x | None => None end
  end.
Definition exec (M : nat) (inh : bool) (s : st) (a : act) : option st := option_map watch (step M inh s a).
Fixpoint run (M : nat) (inh : bool) (s : st) (l : list act) : option st :=
  match l with
  | [] => Some s
  | a :: l => match exec M inh s a with Some s' => run M inh s' l | None => None end
  end.
