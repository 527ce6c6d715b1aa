(** Model of runners that wait for each other: tasks that SendTask to other runners
    (src/YY/Base/Threading/TaskRunner.cpp 280-306), PostTask (256-264), and the threads of
    the pool on which all runners run (ThreadTaskRunner::Create 398-411,
    SequencedTaskRunnerImpl.cpp 75-155, ThreadPool.Linux.cc 12-38: at most MaxThreadsCount
    threads; a job beyond that stays in oPendingTaskQueue until a thread is free).

    Simplified: a task is the list of what it sends and posts; sequenced and thread runners
    only; everything is accepted, nothing is cancelled; which waiting job a free thread takes
    is the schedule's choice; a thread runner is held by its user to the end. The inner
    workings of SendTask are in C63 and C86, of the runners in C59 and C60, of the pool in
    C114 to C116. *)
From Coq Require Import List Bool Arith.
From Verif Require Import Slots Threads.
Import ListNotations.

(** What a callback does, in order: SendTask or PostTask of another task to a runner. *)
Inductive task := Tk (l : list act)
with act := Send (r : nat) (t : task) | Post (r : nat) (t : task).

(** A queued task and the runner whose task waits for it, if it came by SendTask. *)
Definition item : Type := (task * option nat)%type.

(** A runner has no thread, is between two tasks, is in a task with this left to do, or is
    in a task that waits in SendTask. *)
Inductive mode := Off | Idle | Run (rest : list act) (w : option nat) | Wait (rest : list act) (w : option nat).
Record runner := Rn { fixd : bool; queue : list item; now : mode }.

Definition on (x : runner) : nat := match now x with Off => 0 | _ => 1 end.
Definition threads (s : list runner) : nat := suml on s.

(** SendTask's WaitTask ends. *)
Definition wake (s : list runner) (w : option nat) : list runner :=
  match w with
  | Some r => match nth_error s r with
              | Some x => match now x with Wait rest w' => set s r (Rn (fixd x) (queue x) (Run rest w')) | _ => s end
              | None => s
              end
  | None => s
  end.
Definition enqueue (s : list runner) (r : nat) (i : item) : list runner :=
  match nth_error s r with Some x => set s r (Rn (fixd x) (queue x ++ [i]) (now x)) | None => s end.

(** One step of runner [r] and the number of callbacks that it calls; [M] is the limit of
    the pool. *)
Definition step (M : nat) (s : list runner) (r : nat) : option (list runner * nat) :=
  match nth_error s r with
  | None => None
  | Some x =>
      match now x, queue x with
      | Off, [] => if fixd x && (threads s <? M) then Some (set s r (Rn (fixd x) (queue x) Idle), 0) else None
      | Off, _ => if threads s <? M then Some (set s r (Rn (fixd x) (queue x) Idle), 0) else None
      | Idle, [] => if fixd x then None else Some (set s r (Rn (fixd x) [] Off), 0)
      | Idle, (Tk l, w) :: q => Some (set s r (Rn (fixd x) q (Run l w)), 1)
      | Run (Send r' (Tk l) :: rest) w, _ =>
          if r' =? r then Some (set s r (Rn (fixd x) (queue x) (Run (l ++ rest) w)), 1)   (* 283-288 *)
          else match nth_error s r' with
               | Some _ => Some (enqueue (set s r (Rn (fixd x) (queue x) (Wait rest w))) r' (Tk l, Some r), 0) (* 296-304 *)
               | None => None
               end
      | Run (Post r' t :: rest) w, _ =>
          match nth_error s r' with
          | Some _ => Some (enqueue (set s r (Rn (fixd x) (queue x) (Run rest w))) r' (t, None), 0)
          | None => None
          end
      | Run [] w, _ => Some (wake (set s r (Rn (fixd x) (queue x) Idle)) w, 0)
      | Wait _ _, _ => None
      end
  end.

(** Steps in this order, and the number of callbacks called. *)
Fixpoint run (M : nat) (s : list runner) (l : list nat) : option (list runner * nat) :=
  match l with
  | [] => Some (s, 0)
  | r :: l => match step M s r with
              | Some (s', k) => match run M s' l with Some (s2, k2) => Some (s2, k + k2) | None => None end
              | None => None
              end
  end.
