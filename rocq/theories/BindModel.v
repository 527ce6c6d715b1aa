(** Methods bound to an object: the overloads of Bind in include/YY/Base/Functional/Bind.h (82-246).

    One object, one method bound to it, any number of threads that call the bound function, while others share the object,
    give it up, copy the bound function and destroy copies of it.

    Simplifications: the bound arguments and the result are left out; a call is three steps (obtain the pointer, enter the
    method, leave it); taking a strong reference through WeakPtr::Get or std::weak_ptr::lock is one step (WeakPtr.h,
    C17 and C18), so is ObserverPtr::Get (ObserverPtr.h, C19); an object whose last owner goes is destroyed at that moment.
    The caller keeps a bound function alive while it is being called: a copy is destroyed only if another one is left or no
    call is in progress. *)
From Coq Require Import List Bool Arith.
From Verif Require Import Slots Threads.
Import ListNotations.

(** What the object is bound by: UniquePtr, unique_ptr (82-113), RefPtr (148-157) and shared_ptr (192-201) own it; WeakPtr
    (167-182) and weak_ptr (211-226); ObserverPtr (123-138); UnsafeBindPtr (236-245). *)
Inductive kind := Owner | Weak | Observer | Unsafe.
(** A thread: not calling; has the pointer (for a weak pointer: a strong reference); inside the method; back; has got an
    OperationCanceledException; has called a method on a null pointer or on an object that is gone. *)
Inductive pc := Idle | Got | In | Back | Threw | Bad.

Record st := St {
  ext : nat;        (* owners elsewhere *)
  caps : nat;       (* copies of the bound function *)
  dead : bool;      (* the object has been destroyed *)
  kills : nat;      (* ghost: how often *)
  ths : list pc;
  calls : nat       (* ghost: calls of the method *)
}.
Inductive act :=
| Share             (* an owner elsewhere makes another *)
| Give              (* an owner elsewhere gives the object up *)
| Copy              (* the bound function is copied *)
| Drop              (* a copy is destroyed *)
| Call (t : nat)    (* obtain the pointer *)
| Enter (t : nat)   (* call the method *)
| Leave (t : nat).  (* the method returns *)

Definition busy (p : pc) : nat := match p with Got | In => 1 | _ => 0 end.

Section Config.
Variable k : kind.
Variable null : bool.   (* the pointer bound was null *)

(** How many owners the object has. *)
Definition owners (s : st) : nat :=
  ext s + (match k with Owner => caps s | _ => 0 end) + (match k with Weak => suml busy (ths s) | _ => 0 end).
(** The last owner is gone: the object is destroyed. *)
Definition settle (s : st) : st :=
  if negb null && negb (dead s) && (owners s =? 0) then St (ext s) (caps s) true (S (kills s)) (ths s) (calls s) else s.
(** Is there an object behind the pointer? *)
Definition there (s : st) : bool := negb null && negb (dead s).

Definition put (s : st) (t : nat) (p : pc) : st := St (ext s) (caps s) (dead s) (kills s) (set (ths s) t p) (calls s).

Definition step (s : st) (a : act) : option st :=
  match a with
  | Share => match ext s with 0 => None | _ => Some (St (S (ext s)) (caps s) (dead s) (kills s) (ths s) (calls s)) end
  | Give => match ext s with 0 => None | S n => Some (settle (St n (caps s) (dead s) (kills s) (ths s) (calls s))) end
  | Copy => match caps s with 0 => None | S n => Some (St (ext s) (S (caps s)) (dead s) (kills s) (ths s) (calls s)) end
  | Drop => match caps s with
      | 0 => None
      | S n => if (n =? 0) && negb (suml busy (ths s) =? 0) then None
               else Some (settle (St (ext s) n (dead s) (kills s) (ths s) (calls s))) end
  | Call t => match nth_error (ths s) t, caps s with
      | Some Idle, S _ => Some (put s t (match k with
          | Owner | Unsafe => Got                       (* 91, 110, 154, 198, 242: the pointer is used as it is *)
          | Weak | Observer => if there s then Got else Threw  (* 129-133, 173-177, 217-221 *)
          end))
      | _, _ => None end
  | Enter t => match nth_error (ths s) t with
      | Some Got => Some (if there s then St (ext s) (caps s) (dead s) (kills s) (set (ths s) t In) (S (calls s)) else put s t Bad)
      | _ => None end
  | Leave t => match nth_error (ths s) t with
      | Some In => Some (settle (put s t Back))
      | _ => None end
  end.
Fixpoint run (s : st) (l : list act) : option st :=
  match l with [] => Some s | a :: l => match step s a with Some s' => run s' l | None => None end end.

(** [n] threads, one bound function, [e] owners elsewhere; nobody owns a null pointer. *)
Definition init (n e : nat) : st := St (if null then 0 else e) 1 false 0 (repeat Idle n) 0.
(** A UniquePtr is given to the bound function and is the only owner; other pointers that do not own are made from an
    object that has an owner. *)
Definition fits (e : nat) : Prop := null = true \/ k = Owner \/ 0 < e.
End Config.
