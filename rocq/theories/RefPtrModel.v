(** Model of RefPtr (include/YY/Base/Memory/RefPtr.h) used by one thread; for competing
    threads see RefCountModel.v.

    Variables of pointer type are slots of a list; a null pointer is [None]; objects are
    numbered in the order of their creation.  An access to a dead object is the outcome [None]
    (undefined behaviour).  Constructors build into a slot whose old content is destroyed
    first.  An operation that names a slot or raw pointer that does not exist is skipped.
    Simplifications: fewer than 2^32 references; memory suffices; destructors of the objects do
    not touch the pointers. *)
From Coq Require Import Lia Bool List Arith.
From Verif Require Import Slots.
Import ListNotations.

(** [objs]: strong count of each object, [None] once its destructor ran; [dtors]: the
    destructor calls so far; [raws]: references that were detached into raw pointers. *)
Record st := ST { vars : list (option nat); raws : list nat; objs : list (option nat); dtors : list nat }.
Definition init (n : nat) : st := ST (repeat None n) [] [] [].

(** RefPtr.h:45-49. *)
Definition AddRef (o : nat) (s : st) : option st :=
  match nth_error (objs s) o with
  | Some (Some n) => Some (ST (vars s) (raws s) (set (objs s) o (Some (S n))) (dtors s))
  | _ => None
  end.
(** RefPtr.h:51-63 (without weak references). *)
Definition Release (o : nat) (s : st) : option st :=
  match nth_error (objs s) o with
  | Some (Some (S n)) =>
      if Nat.eqb n 0 then Some (ST (vars s) (raws s) (set (objs s) o None) (o :: dtors s))
      else Some (ST (vars s) (raws s) (set (objs s) o (Some n)) (dtors s))
  | _ => None
  end.
Definition setv (v : nat) (p : option nat) (s : st) : st := ST (set (vars s) v p) (raws s) (objs s) (dtors s).
Definition opt_ref (f : nat -> st -> option st) (p : option nat) (s : st) : option st :=
  match p with Some o => f o s | None => Some s end.

(** RefPtr.h:181-186: release the old pointer, then store the new one. *)
Definition Attach (v : nat) (p : option nat) (s : st) : option st :=
  match opt_ref Release (get (vars s) v) s with
  | Some s' => Some (setv v p s')
  | None => None
  end.
(** RefPtr.h:188-193. *)
Definition Detach (v : nat) (s : st) : option nat * st := (get (vars s) v, setv v None s).
(** RefPtr.h:195-200. *)
Definition Clone (v : nat) (s : st) : option (option nat * st) :=
  match opt_ref AddRef (get (vars s) v) s with
  | Some s' => Some (get (vars s) v, s')
  | None => None
  end.
(** [New]: the count starts at 1 (RefPtr.h:35-39). *)
Definition New (s : st) : nat * st :=
  (length (objs s), ST (vars s) (raws s) (objs s ++ [Some 1]) (dtors s)).

Inductive op :=
| Create (v : nat)            (* v = RefPtr::Create()                 265-269, 244-248 *)
| CopyCtor (v w : nat)        (* RefPtr v(w)                          148-151 *)
| RawCtor (v w : nat)         (* RefPtr v(w.Get())                    141-146 *)
| MoveCtor (v w : nat)        (* RefPtr v(std::move(w))               159-162 *)
| Dtor (v : nat)              (* ~RefPtr                              170-174 *)
| Assign (v w : nat)          (* v = w                                238-242 *)
| AssignRaw (v w : nat)       (* v = w.Get()                          228-236 *)
| AssignNull (v : nat)        (* v = nullptr                          222-226 *)
| Move (v w : nat)            (* v = std::move(w)                     244-248 *)
| AttachRaw (v k : nat)       (* v.Attach(raw k), v.Reset(raw k)      181-186, 208-211 *)
| Reset (v : nat)             (* v.Reset()                            208-211 *)
| DetachRaw (v : nat)         (* raw = v.Detach()                     188-193 *)
| ReleaseRaw (k : nat).       (* raw k->Release()                     51-63 *)

Definition dtor (v : nat) (s : st) : option st :=
  match opt_ref Release (get (vars s) v) s with
  | Some s' => Some (setv v None s')
  | None => None
  end.

Definition step (x : op) (s : st) : option st :=
  let ok v := Nat.ltb v (length (vars s)) in
  match x with
  | Create v => if ok v then let (o, s1) := New s in Attach v (Some o) s1 else Some s
  | CopyCtor v w =>
      if ok v && ok w && negb (Nat.eqb v w) then
        match dtor v s with
        | Some s1 => match Clone w s1 with Some (p, s2) => Some (setv v p s2) | None => None end
        | None => None
        end
      else Some s
  | RawCtor v w =>
      if ok v && ok w && negb (Nat.eqb v w) then
        match dtor v s with
        | Some s1 => opt_ref AddRef (get (vars s1) w) (setv v (get (vars s1) w) s1)
        | None => None
        end
      else Some s
  | MoveCtor v w =>
      if ok v && ok w && negb (Nat.eqb v w) then
        match dtor v s with
        | Some s1 => let (p, s2) := Detach w s1 in Some (setv v p s2)
        | None => None
        end
      else Some s
  | Dtor v => if ok v then dtor v s else Some s
  | Assign v w =>
      if ok v && ok w then match Clone w s with Some (p, s1) => Attach v p s1 | None => None end else Some s
  | AssignRaw v w =>
      if ok v && ok w then
        match opt_ref AddRef (get (vars s) w) s with
        | Some s1 => Attach v (get (vars s) w) s1
        | None => None
        end
      else Some s
  | AssignNull v => if ok v then Attach v None s else Some s
  | Move v w => if ok v && ok w then let (p, s1) := Detach w s in Attach v p s1 else Some s
  | AttachRaw v k =>
      if ok v then
        match nth_error (raws s) k with
        | Some o => Attach v (Some o) (ST (vars s) (del (raws s) k) (objs s) (dtors s))
        | None => Some s
        end
      else Some s
  | Reset v => if ok v then Attach v None s else Some s
  | DetachRaw v =>
      if ok v then
        let (p, s1) := Detach v s in
        Some (match p with Some o => ST (vars s1) (o :: raws s1) (objs s1) (dtors s1) | None => s1 end)
      else Some s
  | ReleaseRaw k =>
      match nth_error (raws s) k with
      | Some o => Release o (ST (vars s) (del (raws s) k) (objs s) (dtors s))
      | None => Some s
      end
  end.
Fixpoint run (l : list op) (s : st) : option st :=
  match l with [] => Some s | x :: r => match step x s with Some s' => run r s' | None => None end end.
