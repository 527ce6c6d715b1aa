(** ComObjectImpl: include/YY/Base/Utils/ComObjectImpl.h.

    Interfaces are numbers, 0 is IUnknown; [parent] is their single inheritance.  The object has one part for each declared base,
    in the order of declaration, and a pointer into it is the number of the part (a pointer to an interface and to the
    interfaces it inherits from are the same).  Every part that inherits from IUnknown has the one QueryInterface of the object
    in its table; a call through a part that does not is undefined behaviour. *)
From Coq Require Import List Bool Arith ZArith.
Import ListNotations.

Definition IUNKNOWN := 0.
(** A base of the object: an interface, or ComObjectInheritChain<Derived, others...> (lines 49-87). *)
Inductive base := Plain (i : nat) | Chain (i : nat) (js : list nat).
Definition itf (b : base) : nat := match b with Plain i => i | Chain i _ => i end.
Inductive answer := INVALIDARG | NOINTERFACE (out : option nat) | OK (out : nat).

(** QueryChainImpl::CastImpl, lines 55-75. *)
Fixpoint chain_cast (k : nat) (js : list nat) (r : nat) : option nat :=
  match js with [] => None | j :: js => if r =? j then Some k else chain_cast k js r end.
(** Cast of one base, lines 33-36, 79-85 and 95-98. *)
Definition base_cast (k : nat) (b : base) (r : nat) : option nat :=
  match b with
  | Plain i => if r =? i then Some k else None
  | Chain i js => if r =? i then Some k else chain_cast k js r
  end.
(** ComObjectQuery::Cast, lines 18-41 and 89-103: part [k] is the first of [bs]. *)
Fixpoint cast (k : nat) (bs : list base) (r : nat) : option nat :=
  match bs with
  | [] => None
  | b :: bs => match base_cast k b r with Some p => Some p | None => cast (S k) bs r end
  end.
(** QueryInterface and QueryInterfaceImpl, lines 135-144 and 163-184; [null]: no place for the result is given. *)
Definition query (bs : list base) (null : bool) (r : nat) : answer :=
  if null then INVALIDARG
  else match cast 0 bs r with
    | Some p => OK p
    | None => if r =? IUNKNOWN then OK 0 else NOINTERFACE None
    end.

Section Tree.
Variable parent : nat -> option nat.
Inductive derives : nat -> nat -> Prop :=
| d_refl i : derives i i
| d_step i j k : parent i = Some j -> derives j k -> derives i k.
(** What the compiler accepts: the casts of a chain go up or down the inheritance, and some base inherits from IUnknown (line 173). *)
Definition compiles (bs : list base) : Prop :=
  (exists b, In b bs /\ derives (itf b) IUNKNOWN) /\
  forall i js j, In (Chain i js) bs -> In j js -> derives i j \/ derives j i.
(** What the documentation asks for (lines 105-126): every base is a COM interface, a chain names its bases. *)
Definition documented (bs : list base) : Prop :=
  bs <> [] /\ (forall b, In b bs -> derives (itf b) IUNKNOWN) /\ forall i js j, In (Chain i js) bs -> In j js -> derives i j.
(** Pointer [p] may be used as interface [r]. *)
Definition usable (bs : list base) (p r : nat) : Prop := exists b, nth_error bs p = Some b /\ derives (itf b) r.
(** QueryInterface called through [p]; no answer if that is undefined. *)
Inductive query_via (bs : list base) (p : nat) (null : bool) (r : nat) : answer -> Prop :=
| via : usable bs p IUNKNOWN -> query_via bs p null r (query bs null r).
End Tree.
Definition declared (b : base) : list nat := match b with Plain i => [i] | Chain i js => i :: js end.

(** The references, lines 130 and 146-160: [cnt] is uRef, [hold] how many each client has. *)
Local Open Scope Z_scope.
Definition W32 : Z := 4294967296.
Record refs := Refs { cnt : Z; deleted : nat; hold : list nat }.
Inductive ract := Query (i : nat) (null : bool) (r : nat) | AddRef (i : nat) | Release (i : nat) | Give (i j : nat).
Fixpoint upd (l : list nat) (i : nat) (f : nat -> nat) : list nat :=
  match l, i with [], _ => [] | x :: l, O => f x :: l | x :: l, S i => x :: upd l i f end.
Definition inc (s : refs) (i : nat) : refs := Refs ((cnt s + 1) mod W32) (deleted s) (upd (hold s) i S).
Definition dec_ (s : refs) (i : nat) : refs :=
  let c := (cnt s - 1) mod W32 in Refs c (if c =? 0 then S (deleted s) else deleted s) (upd (hold s) i pred).
(** A client acts only while it holds a reference, and gives back what it has. *)
Definition rstep (bs : list base) (s : refs) (a : ract) : option refs :=
  match a with
  | Query i null r => match nth_error (hold s) i with
      | Some (S _) => Some (match query bs null r with OK _ => inc s i | _ => s end)
      | _ => None end
  | AddRef i => match nth_error (hold s) i with Some (S _) => Some (inc s i) | _ => None end
  | Release i => match nth_error (hold s) i with Some (S _) => Some (dec_ s i) | _ => None end
  | Give i j => match nth_error (hold s) i, nth_error (hold s) j with
      | Some (S _), Some _ => Some (Refs (cnt s) (deleted s) (upd (upd (hold s) i pred) j S))
      | _, _ => None end
  end.
Fixpoint rrun (bs : list base) (s : refs) (l : list ract) : option refs :=
  match l with [] => Some s | a :: l => match rstep bs s a with Some s' => rrun bs s' l | None => None end end.
(** The new object belongs to the first of [S n] clients. *)
Definition rinit (n : nat) : refs := Refs 1 0 (1%nat :: repeat 0%nat n).
