(** Model of [InterlockedSingleLinkedList<Entry, Multi, Single>]
    (include/YY/Base/Sync/InterlockedSingleLinkedList.h 13-125).

    Entries are numbers, [nxt] their pNext members.  A thread is at one place in the code; a step
    performs one access to shared memory.  Memory is sequentially consistent.

    Simplifications:
    - The caller's linking of the segment given to Push(begin, end) happens when the call starts.
    - An entry may be pushed again after it was delivered; [av] records which entries are nobody's.
      Delivering means: Pop returned it, or the thread that called Flush has read its pNext, as the
      destructor (lines 34-42) does.
    - The log records the linearization points. *)
From Coq Require Import List Arith Bool.
From Verif Require Import Slots.
Import ListNotations.

Inductive event := EPush (seg : list nat) | EPop (e : nat) | EEmpty | EFlush | ETake (e : nat) | EEnd.
Inductive agent :=
| Idle
| PRead (seg : list nat)                         (* line 58 *)
| PLink (seg : list nat) (exp : option nat)      (* line 61 *)
| PCas (seg : list nat) (exp : option nat)       (* lines 63-70 *)
| QRead                                          (* line 94 *)
| QNext (e : nat)                                (* line 101, reading _pEntry->pNext *)
| QCas (e : nat) (n : option nat)                (* lines 101-109 *)
| QClear (e : nat)                               (* line 104 *)
| FXchg                                          (* line 122 *)
| Walk (p : option nat).                         (* lines 36-41 *)
Record st := ST { hd : option nat; nxt : nat -> option nat; av : nat -> bool; ag : list agent; log : list event }.
Definition init (n : nat) : st := ST None (fun _ => None) (fun _ => true) (repeat Idle n) [].

Definition upd {A} (f : nat -> A) (x : nat) (v : A) : nat -> A := fun k => if k =? x then v else f k.
Definition fills {A} (f : nat -> A) (l : list nat) (v : A) : nat -> A := fun k => if existsb (Nat.eqb k) l then v else f k.
(** The caller's segment: each entry points to the following one. *)
Fixpoint link (f : nat -> option nat) (seg : list nat) : nat -> option nat :=
  match seg with
  | a :: (b :: _) as r => upd (link f r) a (Some b)
  | _ => f
  end.
Fixpoint nodup (l : list nat) : bool := match l with [] => true | x :: r => negb (existsb (Nat.eqb x) r) && nodup r end.

Inductive call := OPush (seg : list nat) | OPop | OFlush.
Inductive act := Start (i : nat) (c : call) | Step (i : nat).
Definition put (s : st) (i : nat) (a : agent) : st := ST (hd s) (nxt s) (av s) (set (ag s) i a) (log s).
Definition say (s : st) (e : event) : st := ST (hd s) (nxt s) (av s) (ag s) (log s ++ [e]).
Definition set_hd (s : st) (h : option nat) : st := ST h (nxt s) (av s) (ag s) (log s).
Definition set_nxt (s : st) (f : nat -> option nat) : st := ST (hd s) f (av s) (ag s) (log s).
Definition set_av (s : st) (f : nat -> bool) : st := ST (hd s) (nxt s) f (ag s) (log s).

(** The only thing a caller must respect: a thread is in one call at a time, and pushes a
    non-empty segment of different entries that are nobody's. *)
Definition start (s : st) (i : nat) (c : call) : option st :=
  match nth_error (ag s) i with
  | Some Idle =>
      match c with
      | OPush [] => None
      | OPush seg =>
          if nodup seg && forallb (av s) seg then Some (put (set_av (set_nxt s (link (nxt s) seg)) (fills (av s) seg false)) i (PRead seg)) else None
      | OPop => Some (put s i QRead)
      | OFlush => Some (put s i FXchg)
      end
  | _ => None
  end.
Definition step (s : st) (i : nat) : option st :=
  match nth_error (ag s) i with
  | Some (PRead seg) => Some (put s i (PLink seg (hd s)))
  | Some (PLink seg x) => Some (put (set_nxt s (upd (nxt s) (last seg 0) x)) i (PCas seg x))
  | Some (PCas seg x) =>
      if eqp (hd s) x then Some (say (put (set_hd s (hd_error seg)) i Idle) (EPush seg))
      else Some (put s i (PLink seg (hd s)))
  | Some QRead => match hd s with None => Some (say (put s i Idle) EEmpty) | Some e => Some (put s i (QNext e)) end
  | Some (QNext e) => Some (put s i (QCas e (nxt s e)))
  | Some (QCas e n) =>
      if eqp (hd s) (Some e) then Some (say (put (set_hd s n) i (QClear e)) (EPop e))
      else match hd s with None => Some (say (put s i Idle) EEmpty) | Some e' => Some (put s i (QNext e')) end
  | Some (QClear e) => Some (put (set_av (set_nxt s (upd (nxt s) e None)) (upd (av s) e true)) i Idle)
  | Some FXchg => Some (say (put (set_hd s None) i (Walk (hd s))) EFlush)
  | Some (Walk None) => Some (say (put s i Idle) EEnd)
  | Some (Walk (Some e)) => Some (say (put (set_av s (upd (av s) e true)) i (Walk (nxt s e))) (ETake e))
  | _ => None
  end.
Definition exec (s : st) (a : act) : option st := match a with Start i c => start s i c | Step i => step s i end.
Fixpoint run (s : st) (l : list act) : option st :=
  match l with [] => Some s | a :: r => match exec s a with Some s' => run s' r | None => None end end.
