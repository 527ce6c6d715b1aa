(** Model of GetLogicalProcessorCount (src/YY/Base/Threading/ParallelTaskRunnerImpl.hpp 55-127):
    how many processors the parallel runner takes for its default limit (232, and C43), on
    Windows and elsewhere, with several threads that ask at the same time.

    Simplified: a GROUP_AFFINITY is its mask; what the system answers may differ from call to
    call; the popcnt instruction that replaces BitsCount64 on x64 counts bits as it does. *)
From Coq Require Import List ZArith Bool.
From Verif Require Import Word MathModel Slots.
Import ListNotations.
Local Open Scope Z_scope.

(** What the system answers to one call: the packages (sockets) with the masks of their
    groups; whether the three steps succeed: the first call asks for more memory, Alloc, the
    second call; the number of GetNativeSystemInfo. *)
Record seen := Seen { packages : list (list Z); sized : bool; mem : bool; filled : bool; native : Z }.

(** 82-85: the groups of the record at the start of the buffer. *)
Fixpoint groups (c : Z) (l : list Z) : Z :=
  match l with [] => c | m :: l => groups (u32 (c + BitsCount64 m)) l end.
(** 63-101. *)
Definition count (m : seen) : Z :=
  let c := if sized m && mem m && filled m
           then match packages m with p :: _ => groups 0 p | [] => 0 end else 0 in
  let c := if c =? 0 then native m else c in
  if c =? 0 then 1 else c.
(** 117-125, with the answer of get_nprocs. *)
Definition count_linux (n : Z) : Z := if n =? 0 then 1 else n.

(** A call: not begun; the variable was 0, the count is known; (elsewhere) it has been stored;
    returned. *)
Inductive pc := P0 | P1 (v : Z) | P2 | Ret (v : Z).
Record state := St { cache : Z; calls : list pc }.
Definition init (n : nat) : state := St 0 (repeat P0 n).

(** Windows, 56-105: the test (59-62) and the question; CompareExchange and return (104-105). *)
Definition step_win (s : state) (e : nat * seen) : option state :=
  match nth_error (calls s) (fst e) with
  | Some P0 => Some (St (cache s) (set (calls s) (fst e) (if cache s =? 0 then P1 (count (snd e)) else Ret (cache s))))
  | Some (P1 v) => if cache s =? 0 then Some (St v (set (calls s) (fst e) (Ret v)))
                   else Some (St (cache s) (set (calls s) (fst e) (Ret (cache s))))
  | _ => None
  end.
(** Elsewhere, 108-126: the test and the question; the store; the variable is read again. *)
Definition step_linux (s : state) (e : nat * Z) : option state :=
  match nth_error (calls s) (fst e) with
  | Some P0 => Some (St (cache s) (set (calls s) (fst e) (if cache s =? 0 then P1 (count_linux (snd e)) else Ret (cache s))))
  | Some (P1 v) => Some (St v (set (calls s) (fst e) P2))
  | Some P2 => Some (St (cache s) (set (calls s) (fst e) (Ret (cache s))))
  | _ => None
  end.
Fixpoint run {A} (step : state -> A -> option state) (s : state) (l : list A) : option state :=
  match l with [] => Some s | e :: l => match step s e with Some s => run step s l | None => None end end.
