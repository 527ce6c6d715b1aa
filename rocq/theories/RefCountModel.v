(** Model of the two counters of RefValue and of WeakPtr::Get under concurrency
    (include/YY/Base/Memory/RefPtr.h:28-113, WeakPtr.h:25-170).

    One object; every holder of a reference is an agent that a thread runs.  A step is one atomic
    access of the code (Interlocked calls and volatile loads are sequentially consistent), chosen
    by the schedule.  A thread that holds several references is several agents: this allows more
    interleavings than the code has.
    Simplifications: counters do not overflow (fewer than 2^32 references); the destructor of the
    object does not itself take references to the object. *)
From Coq Require Import Lia Bool List Arith.
From Verif Require Import Slots.
Import ListNotations.

(** Where an agent stands. *)
Inductive agent :=
| Strong                (* owns one strong reference *)
| Weak                  (* owns one weak reference *)
| Trying (cur : nat)    (* owns a weak reference, in the loop of TryAddRef (RefPtr.h:92-100) with this [_uCurrentRef] *)
| Dtor                  (* saw the strong count reach 0, about to run ~RefValue (RefPtr.h:57) *)
| DropWeak              (* about to call ReleaseWeak (RefPtr.h:59) *)
| Freeing               (* saw the weak count reach 0, about to call Free (RefPtr.h:83) *)
| Gone.
(** What an agent that is not inside a function does next. *)
Inductive act :=
| CopyStrong   (* RefPtr copy: AddRef *)
| MakeWeak     (* WeakPtr from this pointer: AddWeakRef *)
| Use          (* access to the object *)
| Drop         (* Release, or ReleaseWeak for a weak holder *)
| TryGet.      (* WeakPtr::Get *)

(** [dtors], [frees]: how often the destructor and Free ran; [bad]: memory was accessed after it
    was freed or the object used after its destructor started; [gets]: results of the finished
    WeakPtr::Get calls with the number of destructor runs at that moment. *)
Record st := ST { ref : nat; weak : nat; agents : list agent; dtors : nat; frees : nat; bad : bool; gets : list (bool * nat) }.
(** RefPtr.h:35-39. *)
Definition init : st := ST 1 1 [Strong] 0 0 false [].

Definition at_ (s : st) (i : nat) : agent := nth i (agents s) Gone.
Definition upd (s : st) (i : nat) (a : agent) (new : list agent) : list agent := set (agents s) i a ++ new.
(** Every access to the counters of freed memory is an error. *)
Definition touched (s : st) : bool := bad s || Nat.ltb 0 (frees s).

Definition step (i : nat) (x : act) (s : st) : st :=
  match at_ s i, x with
  | Strong, CopyStrong =>                                   (* AddRef, RefPtr.h:45-49 *)
      ST (S (ref s)) (weak s) (upd s i Strong [Strong]) (dtors s) (frees s) (touched s) (gets s)
  | Strong, MakeWeak =>                                     (* AddWeakRef, RefPtr.h:70-74, WeakPtr.h:32-37 *)
      ST (ref s) (S (weak s)) (upd s i Strong [Weak]) (dtors s) (frees s) (touched s) (gets s)
  | Strong, Use =>
      ST (ref s) (weak s) (agents s) (dtors s) (frees s) (touched s || Nat.ltb 0 (dtors s)) (gets s)
  | Strong, Drop =>                                         (* Release, RefPtr.h:51-63 *)
      ST (ref s - 1) (weak s) (upd s i (if Nat.eqb (ref s - 1) 0 then Dtor else Gone) []) (dtors s) (frees s) (touched s) (gets s)
  | Dtor, _ =>                                              (* RefPtr.h:57 *)
      ST (ref s) (weak s) (upd s i DropWeak []) (S (dtors s)) (frees s) (touched s) (gets s)
  | Weak, (CopyStrong | MakeWeak) =>                        (* copy of a WeakPtr, WeakPtr.h:44-47 *)
      ST (ref s) (S (weak s)) (upd s i Weak [Weak]) (dtors s) (frees s) (touched s) (gets s)
  | Weak, Drop | DropWeak, _ =>                             (* ReleaseWeak, RefPtr.h:76-87 *)
      ST (ref s) (weak s - 1) (upd s i (if Nat.eqb (weak s - 1) 0 then Freeing else Gone) []) (dtors s) (frees s) (touched s) (gets s)
  | Freeing, _ =>                                           (* Free, RefPtr.h:83 *)
      ST (ref s) (weak s) (upd s i Gone []) (dtors s) (S (frees s)) (touched s) (gets s)
  | Weak, TryGet =>                                         (* the load and first test, RefPtr.h:92-93 *)
      if Nat.eqb (ref s) 0 then ST (ref s) (weak s) (agents s) (dtors s) (frees s) (touched s) ((false, dtors s) :: gets s)
      else ST (ref s) (weak s) (upd s i (Trying (ref s)) []) (dtors s) (frees s) (touched s) (gets s)
  | Trying c, _ =>                                          (* one turn of the loop, RefPtr.h:95-99 *)
      if Nat.eqb (ref s) c then
        ST (S (ref s)) (weak s) (upd s i Weak [Strong]) (dtors s) (frees s) (touched s) ((true, dtors s) :: gets s)
      else if Nat.eqb (ref s) 0 then
        ST (ref s) (weak s) (upd s i Weak []) (dtors s) (frees s) (touched s) ((false, dtors s) :: gets s)
      else ST (ref s) (weak s) (upd s i (Trying (ref s)) []) (dtors s) (frees s) (touched s) (gets s)
  | Weak, Use | Strong, TryGet | Gone, _ => s
  end.
Definition run (l : list (nat * act)) (s : st) : st := fold_left (fun s p => step (fst p) (snd p) s) l s.
