(** Model of ObserverPtr (include/YY/Base/Memory/ObserverPtr.h).

    Variables of pointer type are slots of a list; a null pointer is [None]; objects are
    numbered in the order of their creation.  An access to a dead object is the outcome [None]
    (undefined behaviour).  Constructors build into a slot whose old content is destroyed
    first.  An operation that names a slot or raw pointer that does not exist is skipped.
    Simplifications: fewer than 2^32 references; memory suffices; destructors of the objects do
    not touch the pointers. *)
From Coq Require Import Lia Bool List Arith.
From Verif Require Import Slots.
Import ListNotations.

(** An object: alive or not, and its observer data, if any (ObserverPtr.h:71, 91-99).  The
    observer data are counted by RefPtr (C41); here they exist for ever. *)
Record obj := OBJ { alive : bool; odata : option nat }.
(** An observer: the pointer and the observer data (ObserverPtr.h:106-107). *)
Record ob := OB { ptr : option nat; data : option nat }.
(** [gone]: the flag [bDestroyed] of each observer data (ObserverPtr.h:43). *)
Record st := ST { objs : list obj; obs : list ob; gone : list bool }.
Definition init (n : nat) : st := ST [] (repeat (OB None None) n) [].

(** ObserverPtr.h:91-99. *)
Definition GetObserverData (o : nat) (s : st) : option nat * st :=
  match nth_error (objs s) o with
  | Some x =>
      match odata x with
      | Some d => (Some d, s)
      | None => (Some (length (gone s)),
                 ST (set (objs s) o (OBJ (alive x) (Some (length (gone s))))) (obs s) (gone s ++ [false]))
      end
  | None => (None, s)
  end.
Definition geto (s : st) (v : nat) : ob := nth v (obs s) (OB None None).
Definition seto (s : st) (v : nat) (b : ob) : st := ST (objs s) (set (obs s) v b) (gone s).
Definition destroyed (s : st) (d : nat) : bool := nth d (gone s) true.
Definition living (s : st) (o : nat) : bool := match nth_error (objs s) o with Some x => alive x | None => false end.

(** ObserverPtr.h:135-143. *)
Definition Get (s : st) (v : nat) : option nat :=
  match data (geto s v) with
  | None => None
  | Some d => if destroyed s d then None else ptr (geto s v)
  end.

Inductive op :=
| NewObj                   (* a new object                       74 *)
| CopyObj (o : nat)        (* copy construction of an object     76 *)
| AssignObj (o p : nat)    (* assignment between objects         86-89 *)
| KillObj (o : nat)        (* destructor                         78-84 *)
| FromObj (v o : nat)      (* ObserverPtr v(&o), v = &o          112-115, 150-157, 204-208 *)
| CopyCtor (v w : nat)     (* ObserverPtr v(w)                   117-121 *)
| MoveCtor (v w : nat)     (* ObserverPtr v(std::move(w))        123-128 *)
| Reset (v : nat)          (* Reset(), = nullptr, destructor     145-148, 198-202, 130-133 *)
| ResetNull (v : nat)      (* Reset(null pointer)                158-162 *)
| Assign (v w : nat)       (* v = w                              210-214 *)
| Move (v w : nat).        (* v = std::move(w)                   216-220 *)

Definition step (x : op) (s : st) : st :=
  let ok v := Nat.ltb v (length (obs s)) in
  match x with
  | NewObj => ST (objs s ++ [OBJ true None]) (obs s) (gone s)
  | CopyObj o => if living s o then ST (objs s ++ [OBJ true (match nth_error (objs s) o with Some y => odata y | None => None end)]) (obs s) (gone s) else s
  | AssignObj o p => s
  | KillObj o =>
      match nth_error (objs s) o with
      | Some (OBJ true d) => ST (set (objs s) o (OBJ false d)) (obs s) (match d with Some d => set (gone s) d true | None => gone s end)
      | _ => s
      end
  | FromObj v o =>
      if ok v && living s o then
        let (d, s1) := GetObserverData o s in seto s1 v (OB (Some o) d)
      else s
  | CopyCtor v w => if ok v && ok w && negb (Nat.eqb v w) then seto s v (geto s w) else s
  | MoveCtor v w =>
      if ok v && ok w && negb (Nat.eqb v w) then seto (seto s w (OB None None)) v (geto s w) else s
  | Reset v => if ok v then seto s v (OB (ptr (geto s v)) None) else s
  | ResetNull v => if ok v then seto s v (OB None None) else s
  | Assign v w => if ok v && ok w then seto s v (OB (ptr (geto s v)) (data (geto s w))) else s
  | Move v w =>
      if ok v && ok w then
        let d := data (geto s w) in
        let s1 := seto s w (OB (ptr (geto s w)) None) in
        seto s1 v (OB (ptr (geto s1 v)) d)
      else s
  end.
Definition run (l : list op) (s : st) : st := fold_left (fun s x => step x s) l s.
