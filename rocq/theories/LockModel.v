(** Model of CriticalSection (include/YY/Base/Sync/CriticalSection.h:18-42,
    src/YY/Base/Sync/CriticalSection.cpp:11-52): any number of threads, interleaved at every
    access to the three fields.

    Simplifications: the memory is sequentially consistent; [--uLockRef] and [++uLockRef] are
    one step each; a thread identifier is a positive number; the slim reader/writer lock of the
    operating system is a flag (a thread that waits for it takes no step while it is set). *)
From Coq Require Import ZArith Lia Bool List.
Import ListNotations.
Local Open Scope Z_scope.

(** Where a thread stands.
    [L1] owner test succeeded, [++uLockRef] follows (CriticalSection.cpp:16 and 30);
    [L2] about to acquire the lock (20); [T2] about to try it (34);
    [L3] acquired, [uOwnerThreadId = id] follows (21, 36); [L4] [uLockRef = 0] follows (22, 37);
    [U1] counter decremented, test follows (47); [U2] [uOwnerThreadId = 0] follows (49);
    [U3] release follows (50). *)
Inductive pc := Idle | L1 | L2 | T2 | L3 | L4 | U1 | U2 | U3.

(** The three fields; for each thread its position and (ghost) how many of its Lock/TryLock
    calls succeeded and are not yet matched by a call of Unlock. *)
Record st := ST { srw : bool; owner : nat; ref : Z; at_ : nat -> pc; depth : nat -> nat }.
Definition init : st := ST false 0 0 (fun _ => Idle) (fun _ => 0%nat).

Definition upd {A} (f : nat -> A) (t : nat) (v : A) : nat -> A := fun u => if Nat.eqb u t then v else f u.
Definition go (s : st) (t : nat) (p : pc) : st := ST (srw s) (owner s) (ref s) (upd (at_ s) t p) (depth s).
Definition u32 (z : Z) : Z := z mod 2 ^ 32.

Inductive act := CallLock | CallTryLock | CallUnlock | Go.

(** One step of thread [t]; [None] when it cannot take this step now. *)
Definition step (s : st) (t : nat) (a : act) : option st :=
  match a, at_ s t with
  | CallLock, Idle => Some (go s t (if Nat.eqb (owner s) t then L1 else L2))
  | CallTryLock, Idle => Some (go s t (if Nat.eqb (owner s) t then L1 else T2))
  | CallUnlock, Idle =>
      Some (ST (srw s) (owner s) (u32 (ref s - 1)) (upd (at_ s) t U1) (upd (depth s) t (pred (depth s t))))
  | Go, L1 => Some (ST (srw s) (owner s) (u32 (ref s + 1)) (upd (at_ s) t Idle) (upd (depth s) t (S (depth s t))))
  | Go, L2 => if srw s then None else Some (ST true (owner s) (ref s) (upd (at_ s) t L3) (depth s))
  | Go, T2 => if srw s then Some (go s t Idle) else Some (ST true (owner s) (ref s) (upd (at_ s) t L3) (depth s))
  | Go, L3 => Some (ST (srw s) t (ref s) (upd (at_ s) t L4) (depth s))
  | Go, L4 => Some (ST (srw s) (owner s) 0 (upd (at_ s) t Idle) (upd (depth s) t (S (depth s t))))
  | Go, U1 => Some (go s t (if ref s =? 0 then U2 else Idle))
  | Go, U2 => Some (ST (srw s) 0 (ref s) (upd (at_ s) t U3) (depth s))
  | Go, U3 => Some (ST false (owner s) (ref s) (upd (at_ s) t Idle) (depth s))
  | _, _ => None
  end.

(** A schedule that keeps the rules of use: threads have positive identifiers and call Unlock
    only while they hold the lock. *)
Definition fair_call (s : st) (t : nat) (a : act) : Prop :=
  t <> 0%nat /\ (a = CallUnlock -> (0 < depth s t)%nat).
Inductive steps : st -> list (nat * act) -> st -> Prop :=
| steps_nil : forall s, steps s [] s
| steps_cons : forall s t a s' l s'', fair_call s t a -> step s t a = Some s' -> steps s' l s'' -> steps s ((t, a) :: l) s''.
