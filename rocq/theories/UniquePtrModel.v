(** Model of UniquePtr (include/YY/Base/Memory/UniquePtr.h), single object and array form.

    Variables of pointer type are slots of a list; a null pointer is [None]; objects are
    numbered in the order of their creation.  An access to a dead object is the outcome [None]
    (undefined behaviour).  Constructors build into a slot whose old content is destroyed
    first.  An operation that names a slot or raw pointer that does not exist is skipped.
    Simplifications: fewer than 2^32 references; memory suffices; destructors of the objects do
    not touch the pointers. *)
From Coq Require Import Lia Bool List Arith.
From Verif Require Import Slots.
Import ListNotations.

(** [live]: for each object ever created whether it still exists; [deleted]: the delete
    calls so far. *)
Record st := ST { vars : list (option nat); raws : list nat; live : list bool; deleted : list nat }.
Definition init (n : nat) : st := ST (repeat None n) [] [] [].

Definition setv (v : nat) (p : option nat) (s : st) : st := ST (set (vars s) v p) (raws s) (live s) (deleted s).
Definition delete (o : nat) (s : st) : option st :=
  match nth_error (live s) o with
  | Some true => Some (ST (vars s) (raws s) (set (live s) o false) (o :: deleted s))
  | _ => None
  end.
(** UniquePtr.h:66-72 (176-182 for arrays). *)
Definition Reset (v : nat) (p : option nat) (s : st) : option st :=
  match get (vars s) v with
  | Some o => match delete o s with Some s' => Some (setv v p s') | None => None end
  | None => Some (setv v p s)
  end.
(** UniquePtr.h:79-84. *)
Definition Detach (v : nat) (s : st) : option nat * st := (get (vars s) v, setv v None s).
Definition New (s : st) : nat * st := (length (live s), ST (vars s) (raws s) (live s ++ [true]) (deleted s)).

Inductive op :=
| Create (v : nat)       (* v = UniquePtr::Create()        55-59, 122-130 *)
| RawCtor (v k : nat)    (* UniquePtr v(raw k)             40-43 *)
| MoveCtor (v w : nat)   (* UniquePtr v(std::move(w))      45-48 *)
| Dtor (v : nat)         (* ~UniquePtr                     50-53 *)
| ResetNull (v : nat)    (* v.Reset(), v = nullptr         66-72, 116-120 *)
| AttachRaw (v k : nat)  (* v.Attach(raw k)                74-77 *)
| DetachRaw (v : nat)    (* raw = v.Detach()               79-84 *)
| Move (v w : nat).      (* v = std::move(w)               122-130 *)

Definition step (x : op) (s : st) : option st :=
  let ok v := Nat.ltb v (length (vars s)) in
  match x with
  | Create v => if ok v then let (o, s1) := New s in Reset v (Some o) s1 else Some s
  | RawCtor v k =>
      if ok v then
        match nth_error (raws s) k with
        | Some o => match Reset v None s with
                    | Some s1 => Some (setv v (Some o) (ST (vars s1) (del (raws s1) k) (live s1) (deleted s1)))
                    | None => None
                    end
        | None => Some s
        end
      else Some s
  | MoveCtor v w =>
      if ok v && ok w && negb (Nat.eqb v w) then
        match Reset v None s with
        | Some s1 => let (p, s2) := Detach w s1 in Some (setv v p s2)
        | None => None
        end
      else Some s
  | Dtor v => if ok v then Reset v None s else Some s
  | ResetNull v => if ok v then Reset v None s else Some s
  | AttachRaw v k =>
      if ok v then
        match nth_error (raws s) k with
        | Some o => Reset v (Some o) (ST (vars s) (del (raws s) k) (live s) (deleted s))
        | None => Some s
        end
      else Some s
  | DetachRaw v =>
      if ok v then
        let (p, s1) := Detach v s in
        Some (match p with Some o => ST (vars s1) (o :: raws s1) (live s1) (deleted s1) | None => s1 end)
      else Some s
  | Move v w =>
      if ok v && ok w then
        if eqp (get (vars s) v) (get (vars s) w) then Some s
        else let (p, s1) := Detach w s in Reset v p s1
      else Some s
  end.
Fixpoint run (l : list op) (s : st) : option st :=
  match l with [] => Some s | x :: r => match step x s with Some s' => run r s' | None => None end end.
