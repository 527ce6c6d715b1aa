(** Model of the current task runner of a thread: the thread-local weak pointer
    g_pTaskRunnerWeak (src/YY/Base/Threading/TaskRunnerImpl.cpp 15), who sets and resets it
    (SequencedTaskRunnerImpl.cpp 103-155, ParallelTaskRunnerImpl.hpp 305-362,
    ThreadTaskRunnerImpl.cpp 379-431, TaskRunner.cpp 425-452) and who reads it (GetCurrent
    168-171, 266-273, 414-423, 495-502, SendTask 280-292, RunUIMessageLoop 454-476,
    ThreadTaskRunnerProxyImpl.h 322-362).

    Simplified: the queues and counters of the runners are left out (when a task starts is
    the schedule's choice; the queues are C59 to C62), a thread that waits in SendTask is
    not stopped, callbacks do not throw; a runner lives as long as users hold references or
    a frame on some stack does. *)
From Coq Require Import List Bool Arith.
From Verif Require Import Slots.
Import ListNotations.

Inductive kind := Par | Seq | Thr | Proxy.

(** GetStyle: ParallelTaskRunnerImpl.hpp 187-190, SequencedTaskRunnerImpl.cpp 27-30,
    ThreadTaskRunnerImpl.cpp 28-31, ThreadTaskRunnerProxyImpl.h 95-98; Sequenced is 1 and
    FixedThread 2 (TaskRunner.h 26-33). *)
Definition GetStyle (k : kind) : nat := match k with Par => 0 | Seq => 1 | Thr | Proxy => 3 end.
Definition has_sequenced (st : nat) : bool := Nat.odd st.
Definition has_fixed (st : nat) : bool := Nat.odd (st / 2).

(** What a thread is doing, innermost first: operator() of a pool job of a runner, a
    message loop or the window procedure of the proxy, the callback of a task (also one
    called by SendTask directly), callbacks called while CleanupTaskQueue drops tasks: of
    the thread runners inside RunTaskRunnerLoop or TaskRunnerProc ([Drop]), of the others
    after ExecuteTaskRunner has reset the pointer ([Late]). *)
Inductive frame := Job (r : nat) | Loop (r : nat) | Task (r : nat) | Drop (r : nat) | Late (r : nat).
Record thread := Th { pool : bool; weak : option nat; stack : list frame }.
(** [jobs]: pool jobs of runners that no thread has taken yet. *)
Record state := St { kinds : list kind; users : list nat; jobs : list nat; ths : list thread }.

Definition holds (r : nat) (f : frame) : bool :=
  match f with Job q | Loop q | Drop q | Late q => q =? r | Task _ => false end.
Definition alive (s : state) (r : nat) : bool :=
  (0 <? nth r (users s) 0) || existsb (Nat.eqb r) (jobs s) || existsb (fun th => existsb (holds r) (stack th)) (ths s).

(** WeakPtr::Get. *)
Definition Get (s : state) (th : thread) : option nat :=
  match weak th with Some r => if alive s r then Some r else None | None => None end.
Definition kind_of (s : state) (r : nat) : kind := nth r (kinds s) Par.

(** Which GetCurrent is called. *)
Inductive which := Any | Sequenced | Thread | Parallel.
(** TaskRunner.cpp 168-171, 266-273, 414-423, 495-502. *)
Definition GetCurrent (s : state) (th : thread) (w : which) : option nat :=
  match Get s th with
  | None => None
  | Some r =>
      let st := GetStyle (kind_of s r) in
      if match w with Any => true | Sequenced => has_sequenced st | Thread => has_fixed st | Parallel => st =? 0 end
      then Some r else None
  end.

(** User code runs in callbacks, and on threads that are not of the pool at the bottom. *)
Definition user_code (th : thread) : bool :=
  match stack th with Task _ :: _ | Drop _ :: _ | Late _ :: _ => true | [] => negb (pool th) | _ => false end.

Inductive event :=
| ECreate (k : kind)          (* Create of a sequenced, parallel or thread task runner *)
| EAddRef (r : nat) | ERelease (r : nat)
| EPost (r : nat)             (* a pool job for a sequenced or parallel runner *)
| EBind (t : nat) (k : kind)  (* BindCurrentThread, BindCurrentThreadForProxyMode *)
| ERun (t : nat)              (* RunUIMessageLoop *)
| EMsg (t : nat)              (* TaskRunnerProc of the proxy's window *)
| ESend (t r : nat)           (* SendTask *)
| EJob (t r : nat)            (* a pool thread takes the job *)
| EBegin (t : nat) | EEnd (t : nat)   (* a task from the queue *)
| EDrop (t : nat) | EEndDrop (t : nat) (* CleanupTaskQueue of the thread runners *)
| EEndLoop (t : nat) | EEndJob (t : nat).

(** What a call answers: a runner or null; the callback was called at once or the task was
    posted; nothing, or an exception. *)
Inductive answer := Gives (o : option nat) | Inline | Posted | Done | Throws.

Definition with_th (s : state) (t : nat) (th : thread) : state := St (kinds s) (users s) (jobs s) (set (ths s) t th).
Definition push (s : state) (t : nat) (th : thread) (f : frame) : state := with_th s t (Th (pool th) (weak th) (f :: stack th)).
Fixpoint remove1 (r : nat) (l : list nat) : list nat :=
  match l with [] => [] | q :: l => if q =? r then l else q :: remove1 r l end.

Definition step (s : state) (e : event) : option (state * answer) :=
  match e with
  | ECreate k =>
      match k with
      | Proxy => None
      | Thr => Some (St (kinds s ++ [k]) (users s ++ [1]) (length (kinds s) :: jobs s) (ths s), Gives (Some (length (kinds s))))
      | _ => Some (St (kinds s ++ [k]) (users s ++ [1]) (jobs s) (ths s), Gives (Some (length (kinds s))))
      end
  | EAddRef r => if alive s r then Some (St (kinds s) (set (users s) r (S (nth r (users s) 0))) (jobs s) (ths s), Done) else None
  | ERelease r =>
      match nth r (users s) 0 with
      | O => None
      | S n => Some (St (kinds s) (set (users s) r n) (jobs s) (ths s), Done)
      end
  | EPost r =>
      if alive s r && negb (has_fixed (GetStyle (kind_of s r)))
      then Some (St (kinds s) (users s) (r :: jobs s) (ths s), Done) else None
  | EBind t k =>
      match nth_error (ths s) t with
      | Some th =>
          if user_code th && match k with Thr | Proxy => true | _ => false end then
            match Get s th with
            | Some _ => Some (s, Gives None)
            | None => Some (St (kinds s ++ [k]) (users s ++ [1]) (jobs s)
                               (set (ths s) t (Th (pool th) (Some (length (kinds s))) (stack th))),
                            Gives (Some (length (kinds s))))
            end
          else None
      | None => None
      end
  | ERun t =>
      match nth_error (ths s) t with
      | Some th =>
          if user_code th then
            match Get s th with
            | None => Some (s, Throws)
            | Some r => if has_fixed (GetStyle (kind_of s r))
                        then match kind_of s r with Proxy => Some (s, Throws) | _ => Some (push s t th (Loop r), Done) end
                        else Some (s, Throws)
            end
          else None
      | None => None
      end
  | EMsg t =>
      match nth_error (ths s) t with
      | Some th =>
          if user_code th then
            match Get s th with
            | None => Some (s, Done)
            | Some r => match kind_of s r with Proxy => Some (push s t th (Loop r), Done) | _ => Some (s, Done) end
            end
          else None
      | None => None
      end
  | ESend t r =>
      match nth_error (ths s) t with
      | Some th =>
          if user_code th && alive s r then
            if match Get s th with Some q => q =? r | None => false end
            then Some (push s t th (Task r), Inline) else Some (s, Posted)
          else None
      | None => None
      end
  | EJob t r =>
      match nth_error (ths s) t with
      | Some th =>
          match stack th with
          | [] => if pool th && existsb (Nat.eqb r) (jobs s)
                  then Some (St (kinds s) (users s) (remove1 r (jobs s)) (set (ths s) t (Th (pool th) (Some r) [Job r])), Done)
                  else None
          | _ => None
          end
      | None => None
      end
  | EBegin t =>
      match nth_error (ths s) t with
      | Some th => match stack th with Job r :: _ | Loop r :: _ => Some (push s t th (Task r), Done) | _ => None end
      | None => None
      end
  | EEnd t =>
      match nth_error (ths s) t with
      | Some th => match stack th with Task r :: l => Some (with_th s t (Th (pool th) (weak th) l), Done) | _ => None end
      | None => None
      end
  | EDrop t =>
      match nth_error (ths s) t with
      | Some th =>
          match stack th with
          | Job r :: _ | Loop r :: _ => if has_fixed (GetStyle (kind_of s r)) then Some (push s t th (Drop r), Done) else None
          | _ => None
          end
      | None => None
      end
  | EEndDrop t =>
      match nth_error (ths s) t with
      | Some th => match stack th with Drop r :: l | Late r :: l => Some (with_th s t (Th (pool th) (weak th) l), Done) | _ => None end
      | None => None
      end
  | EEndLoop t =>
      match nth_error (ths s) t with
      | Some th => match stack th with Loop r :: l => Some (with_th s t (Th (pool th) (weak th) l), Done) | _ => None end
      | None => None
      end
  | EEndJob t =>
      match nth_error (ths s) t with
      | Some th =>
          match stack th with
          | [Job r] =>
              Some (with_th s t (Th (pool th) None (if has_fixed (GetStyle (kind_of s r)) then [] else [Late r])), Done)
          | _ => None
          end
      | None => None
      end
  end.

(** Threads at the start: of the pool or not, with nothing to do. *)
Definition init (l : list bool) : state := St [] [] [] (map (fun b => Th b None []) l).

Inductive reach (s : state) : state -> Prop :=
| reach_here : reach s s
| reach_step : forall s1 e s2 a, reach s s1 -> step s1 e = Some (s2, a) -> reach s s2.
