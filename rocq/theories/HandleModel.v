(** Model of Handle (include/YY/Base/Utils/Handle.h).
    Handles are numbers that the operating system gives out; it may give out a number again
    after it was closed.  [None] is [khInvalidHandle].  Closing a handle that is not open is
    the outcome [None].

    Variables of pointer type are slots of a list; a null pointer is [None]; objects are
    numbered in the order of their creation.  An access to a dead object is the outcome [None]
    (undefined behaviour).  Constructors build into a slot whose old content is destroyed
    first.  An operation that names a slot or raw pointer that does not exist is skipped.
    Simplifications: fewer than 2^32 references; memory suffices; destructors of the objects do
    not touch the pointers. *)
From Coq Require Import Lia Bool List Arith.
From Verif Require Import Slots.
Import ListNotations.

(** [opened]: the open handles; [closed]: the close calls so far; [raws]: handles owned by
    plain variables. *)
Record st := ST { vars : list (option nat); raws : list nat; opened : list nat; closed : list nat }.
Definition init (n : nat) : st := ST (repeat None n) [] [] [].
Definition setv (v : nat) (p : option nat) (s : st) : st := ST (set (vars s) v p) (raws s) (opened s) (closed s).
Definition mem (h : nat) (l : list nat) : bool := existsb (Nat.eqb h) l.
Definition CloseHandle (h : nat) (s : st) : option st :=
  if mem h (opened s) then Some (ST (vars s) (raws s) (remove Nat.eq_dec h (opened s)) (h :: closed s)) else None.
(** Handle.h:316-323 (182-189). *)
Definition Release (v : nat) (s : st) : option st :=
  match get (vars s) v with
  | None => Some s
  | Some h => match CloseHandle h s with Some s' => Some (setv v None s') | None => None end
  end.
(** Handle.h:288-295 (166-173). *)
Definition Attach (v : nat) (p : option nat) (s : st) : option st :=
  if eqp (get (vars s) v) p then Some s
  else match Release v s with Some s' => Some (setv v p s') | None => None end.
(** Handle.h:297-302. *)
Definition Detach (v : nat) (s : st) : option nat * st := (get (vars s) v, setv v None s).
(** Handle.h:304-314; [new] is what DuplicateHandle (29-35, 53-59) yields: a handle that was
    not open, or nothing when the call fails. *)
Definition Clone (v : nat) (new : option nat) (s : st) : option nat * st :=
  match get (vars s) v with
  | None => (None, s)
  | Some _ => match new with
              | Some h => if mem h (opened s) then (None, s) else (Some h, ST (vars s) (raws s) (h :: opened s) (closed s))
              | None => (None, s)
              end
  end.
Inductive op :=
| Open (h : nat)                              (* raw = CreateSomething(); *)
| RawCtor (v k : nat)                         (* Handle v(raw k)               242-245 *)
| CopyCtor (v w : nat) (new : option nat)     (* Handle v(w)                   247-250 *)
| MoveCtor (v w : nat)                        (* Handle v(std::move(w))        252-255 *)
| Dtor (v : nat)                              (* ~Handle                       257-260 *)
| Assign (v w : nat) (new : option nat)       (* v = w                         325-329 *)
| AssignRaw (v k : nat)                       (* v = raw k, v.Attach(raw k)    331-335, 288-295 *)
| Move (v w : nat)                            (* v = std::move(w)              337-341 *)
| DetachRaw (v : nat)                         (* raw = v.Detach()              297-302 *)
| CloseRaw (k : nat).                         (* CloseHandle(raw k) *)
Definition step (x : op) (s : st) : option st :=
  let ok v := Nat.ltb v (length (vars s)) in
  match x with
  | Open h => if mem h (opened s) then Some s else Some (ST (vars s) (h :: raws s) (h :: opened s) (closed s))
  | RawCtor v k =>
      if ok v then
        match nth_error (raws s) k with
        | Some h => match Release v s with
                    | Some s1 => Some (setv v (Some h) (ST (vars s1) (del (raws s1) k) (opened s1) (closed s1)))
                    | None => None
                    end
        | None => Some s
        end
      else Some s
  | CopyCtor v w new =>
      if ok v && ok w && negb (Nat.eqb v w) then
        match Release v s with
        | Some s1 => let (p, s2) := Clone w new s1 in Some (setv v p s2)
        | None => None
        end
      else Some s
  | MoveCtor v w =>
      if ok v && ok w && negb (Nat.eqb v w) then
        match Release v s with
        | Some s1 => let (p, s2) := Detach w s1 in Some (setv v p s2)
        | None => None
        end
      else Some s
  | Dtor v => if ok v then Release v s else Some s
  | Assign v w new => if ok v && ok w then let (p, s1) := Clone w new s in Attach v p s1 else Some s
  | AssignRaw v k =>
      if ok v then
        match nth_error (raws s) k with
        | Some h => Attach v (Some h) (ST (vars s) (del (raws s) k) (opened s) (closed s))
        | None => Some s
        end
      else Some s
  | Move v w => if ok v && ok w then let (p, s1) := Detach w s in Attach v p s1 else Some s
  | DetachRaw v =>
      if ok v then
        let (p, s1) := Detach v s in
        Some (match p with Some h => ST (vars s1) (h :: raws s1) (opened s1) (closed s1) | None => s1 end)
      else Some s
  | CloseRaw k =>
      match nth_error (raws s) k with
      | Some h => CloseHandle h (ST (vars s) (del (raws s) k) (opened s) (closed s))
      | None => Some s
      end
  end.
Fixpoint run (l : list op) (s : st) : option st :=
  match l with [] => Some s | x :: r => match step x s with Some s' => run r s' | None => None end end.
