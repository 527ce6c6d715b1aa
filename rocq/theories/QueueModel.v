(** Model of [InterlockedQueue<Entry, uMaxBlockSize, Single, Single>]
    (include/YY/Base/Sync/InterlockedQueue.h 16-87): one pushing and one popping thread, one access
    to shared memory per step, sequentially consistent memory.

    Simplifications:
    - Block indices are unbounded numbers (in the code size_t; 2^64 pushes into one block).
    - New<Block>() does not fail.
    - Reads by a thread of a variable that only this thread writes are part of the step that needs
      them; a read-modify-write of such a variable is one step.
    - [pushed] and [popped] record the completed Push calls and the entries that Pop returned,
      [begun] the number of pushes completed before the current Pop call started, [nulls] for each
      Pop that returned null the number of entries popped by then and [begun]. *)
From Coq Require Import List Arith Bool.
From Verif Require Import Slots.
Import ListNotations.

Section Queue.
  Variable V : Type.
  Variable B : nat.   (* uMaxBlockSize *)

  (** Block, lines 20-36. *)
  Record block := BK { rd : nat; wr : nat; nb : option nat; buf : nat -> option V }.
  Inductive ppc :=
  | PIdle
  | P1 (v : V)                 (* line 71: pLastWriteBlock is null? *)
  | P2 (v : V) (b : nat)       (* line 73: pLastWriteBlock = New *)
  | P3 (v : V) (b : nat)       (* line 73: pFirstReadBlock = *)
  | P4 (v : V)                 (* line 77: IsFull *)
  | P5 (v : V)                 (* line 79: New *)
  | P6 (v : V) (b : nat)       (* line 80: pNextBlock = *)
  | P7 (v : V) (b : nat)       (* line 81: pLastWriteBlock = *)
  | P8 (v : V)                 (* line 84: store the entry *)
  | P9 (v : V).                (* line 85: uLastWriteIndex += 1 *)
  Inductive cpc :=
  | CIdle
  | C1                         (* line 44: pFirstReadBlock is null? *)
  | C2                         (* line 50: IsEmpty *)
  | C3                         (* line 52: load the entry *)
  | C4 (v : V)                 (* line 53: uLastReadIndex += 1, return *)
  | C5                         (* line 58: pNextBlock is null? *)
  | C6                         (* lines 61-62: pFirstReadBlock = pNextBlock *)
  | C7 (old : nat).            (* line 63: Delete *)
  Record st := ST { hp : nat -> option block; fresh : nat; first : option nat; last : option nat; pc : ppc; cc : cpc;
                    pushed : list V; popped : list V; begun : nat; nulls : list (nat * nat) }.
  Definition init : st := ST (fun _ => None) 0 None None PIdle CIdle [] [] 0 [].
  Definition new_block : block := BK 0 0 None (fun _ => None).

  Definition upd {A} (f : nat -> A) (x : nat) (v : A) : nat -> A := fun k => if k =? x then v else f k.
  Definition set_hp s h := ST h (fresh s) (first s) (last s) (pc s) (cc s) (pushed s) (popped s) (begun s) (nulls s).
  Definition set_first s f := ST (hp s) (fresh s) f (last s) (pc s) (cc s) (pushed s) (popped s) (begun s) (nulls s).
  Definition set_last s l := ST (hp s) (fresh s) (first s) l (pc s) (cc s) (pushed s) (popped s) (begun s) (nulls s).
  Definition set_pc s p := ST (hp s) (fresh s) (first s) (last s) p (cc s) (pushed s) (popped s) (begun s) (nulls s).
  Definition set_cc s c := ST (hp s) (fresh s) (first s) (last s) (pc s) c (pushed s) (popped s) (begun s) (nulls s).
  Definition alloc s (p : nat -> ppc) := ST (upd (hp s) (fresh s) (Some new_block)) (S (fresh s)) (first s) (last s) (p (fresh s)) (cc s) (pushed s) (popped s) (begun s) (nulls s).

  (** A use of the block behind a pointer: [None] when it is null or deleted. *)
  Definition at_ (s : st) (p : option nat) (f : nat -> block -> option st) : option st :=
    match p with Some a => match hp s a with Some b => f a b | None => None end | None => None end.
  Definition write (s : st) (a : nat) (b : block) : st := set_hp s (upd (hp s) a (Some b)).

  Inductive act := Push (v : V) | Pop | P | C.
  (** [None]: not enabled (a call in progress, or none), [Some None]: undefined behaviour. *)
  Definition prod (s : st) : option (option st) :=
    match pc s with
    | PIdle => None
    | P1 v => Some (Some (match last s with None => alloc s (P2 v) | Some _ => set_pc s (P4 v) end))
    | P2 v b => Some (Some (set_pc (set_last s (Some b)) (P3 v b)))
    | P3 v b => Some (Some (set_pc (set_first s (Some b)) (P4 v)))
    | P4 v => Some (at_ s (last s) (fun _ b => Some (set_pc s (if rd b + B =? wr b then P5 v else P8 v))))
    | P5 v => Some (Some (alloc s (P6 v)))
    | P6 v n => Some (at_ s (last s) (fun a b => Some (set_pc (write s a (BK (rd b) (wr b) (Some n) (buf b))) (P7 v n))))
    | P7 v n => Some (Some (set_pc (set_last s (Some n)) (P8 v)))
    | P8 v => Some (at_ s (last s) (fun a b => Some (set_pc (write s a (BK (rd b) (wr b) (nb b) (upd (buf b) (wr b mod B) (Some v)))) (P9 v))))
    | P9 v => Some (at_ s (last s) (fun a b =>
        let s1 := set_pc (write s a (BK (rd b) (S (wr b)) (nb b) (buf b))) PIdle in
        Some (ST (hp s1) (fresh s1) (first s1) (last s1) (pc s1) (cc s1) (pushed s1 ++ [v]) (popped s1) (begun s1) (nulls s1))))
    end.
  (** Pop returns null. *)
  Definition null (s : st) : st := ST (hp s) (fresh s) (first s) (last s) (pc s) CIdle (pushed s) (popped s) (begun s) (nulls s ++ [(length (popped s), begun s)]).
  Definition cons (s : st) : option (option st) :=
    match cc s with
    | CIdle => None
    | C1 => Some (Some (match first s with None => null s | Some _ => set_cc s C2 end))
    | C2 => Some (at_ s (first s) (fun _ b => Some (set_cc s (if rd b =? wr b then C5 else C3))))
    | C3 => Some (at_ s (first s) (fun _ b => match buf b (rd b mod B) with Some v => Some (set_cc s (C4 v)) | None => None end))
    | C4 v => Some (at_ s (first s) (fun a b =>
        let s1 := set_cc (write s a (BK (S (rd b)) (wr b) (nb b) (buf b))) CIdle in
        Some (ST (hp s1) (fresh s1) (first s1) (last s1) (pc s1) (cc s1) (pushed s1) (popped s1 ++ [v]) (begun s1) (nulls s1))))
    | C5 => Some (at_ s (first s) (fun _ b => Some (match nb b with None => null s | Some _ => set_cc s C6 end)))
    | C6 => Some (at_ s (first s) (fun a b => Some (set_cc (set_first s (nb b)) (C7 a))))
    | C7 old => Some (match hp s old with Some _ => Some (set_cc (set_hp s (upd (hp s) old None)) C2) | None => None end)
    end.
  Definition step (s : st) (a : act) : option (option st) :=
    match a with
    | Push v => match pc s with PIdle => Some (Some (set_pc s (P1 v))) | _ => None end
    | Pop => match cc s with
             | CIdle => Some (Some (ST (hp s) (fresh s) (first s) (last s) (pc s) C1 (pushed s) (popped s) (length (pushed s)) (nulls s)))
             | _ => None end
    | P => prod s
    | C => cons s
    end.
  Inductive result := Ok (s : st) | Stuck | UB.
  Fixpoint run (s : st) (l : list act) : result :=
    match l with
    | [] => Ok s
    | a :: r => match step s a with Some (Some s') => run s' r | Some None => UB | None => Stuck end
    end.
End Queue.
