(** Model of [Optional] (include/YY/Base/Containers/Optional.h).

    A slot has the flag [bHasValue] and the buffer, which holds a living element or raw
    memory ([None]).  Constructing over a living element (its destructor would never run),
    destroying or reading raw memory is an error: the operation returns [None].
    [moved v] is what a move leaves behind in its source; element assignment stores the
    assigned value.  Elements constructed and destroyed are counted. *)
From Coq Require Import Arith Lia Bool List.
Import ListNotations.

Section Optional.
Variable V : Type.
Variable moved : V -> V.

(** Optional.h:19-24. *)
Record slot := mkslot { has : bool; buf : option V }.
(** All Optional objects, by name; [None]: no such object. *)
Record mem := mkmem { objs : nat -> option slot; ctor : nat; dtor : nat }.
Definition mem_init : mem := mkmem (fun _ => None) 0 0.

Definition put (m : mem) (i : nat) (s : option slot) : mem :=
  mkmem (fun k => if k =? i then s else objs m k) (ctor m) (dtor m).
Definition bind {A B} (x : option A) (f : A -> option B) : option B :=
  match x with Some a => f a | None => None end.
Notation "x <- a ;; b" := (bind a (fun x => b)) (at level 61, a at next level, right associativity).

(** [new (&oValueBuffer) _Type(v)]. *)
Definition construct (m : mem) (i : nat) (v : V) : option mem :=
  s <- objs m i ;;
  match buf s with
  | Some _ => None
  | None => let m := put m i (Some (mkslot (has s) (Some v))) in Some (mkmem (objs m) (S (ctor m)) (dtor m))
  end.
(** [->~_Type()]. *)
Definition destroy (m : mem) (i : nat) : option mem :=
  s <- objs m i ;;
  match buf s with
  | None => None
  | Some _ => let m := put m i (Some (mkslot (has s) None)) in Some (mkmem (objs m) (ctor m) (S (dtor m)))
  end.
Definition read (m : mem) (i : nat) : option V := s <- objs m i ;; buf s.
(** Element assignment (to a living element). *)
Definition assign (m : mem) (i : nat) (v : V) : option mem :=
  s <- objs m i ;;
  match buf s with
  | None => None
  | Some _ => Some (put m i (Some (mkslot (has s) (Some v))))
  end.
Definition set_has (m : mem) (i : nat) (b : bool) : option mem :=
  s <- objs m i ;; Some (put m i (Some (mkslot b (buf s)))).
Definition HasValue (m : mem) (i : nat) : option bool := s <- objs m i ;; Some (has s).

(** Optional.h:72-75, 82-90: dereferences [nullptr] when there is no value. *)
Definition GetValue (m : mem) (i : nat) : option V :=
  h <- HasValue m i ;; if h : bool then read m i else None.

(** Optional.h:101-108. *)
Definition Reset (m : mem) (i : nat) : option mem :=
  h <- HasValue m i ;;
  if h : bool then m <- destroy m i ;; set_has m i false else Some m.

(** Optional.h:24, 29: a new object; its storage must not be in use. *)
Definition New (m : mem) (i : nat) (h : bool) : option mem :=
  match objs m i with
  | Some _ => None
  | None => Some (put m i (Some (mkslot h None)))
  end.

(** Optional.h:31-35, 37-41. *)
Definition NewValue (m : mem) (i : nat) (v : V) : option mem :=
  m <- New m i true ;; construct m i v.

(** Optional.h:43-50. *)
Definition NewCopy (m : mem) (i j : nat) : option mem :=
  m <- New m i false ;;
  h <- HasValue m j ;;
  if h : bool then v <- read m j ;; m <- construct m i v ;; set_has m i true
  else Some m.

(** Optional.h:52-60. *)
Definition NewMove (m : mem) (i j : nat) : option mem :=
  m <- New m i false ;;
  h <- HasValue m j ;;
  if h : bool then
    v <- read m j ;; m <- construct m i v ;; m <- assign m j (moved v) ;;
    m <- Reset m j ;; set_has m i true
  else Some m.

(** Optional.h:62-65: after the destructor the storage is gone; a living element in it
    would be lost. *)
Definition Delete (m : mem) (i : nat) : option mem :=
  m <- Reset m i ;;
  s <- objs m i ;;
  match buf s with
  | Some _ => None
  | None => Some (put m i None)
  end.

(** Optional.h:92-99. *)
Definition Emplace (m : mem) (i : nat) (v : V) : option mem :=
  m <- Reset m i ;; m <- construct m i v ;; set_has m i true.

(** Optional.h:110-126 and 128-144; [self]: the argument is the contained element. *)
Definition AssignValue (m : mem) (i : nat) (v : V) (self : bool) : option mem :=
  h <- HasValue m i ;;
  if h : bool then (if self then Some m else assign m i v)
  else m <- construct m i v ;; set_has m i true.

(** Optional.h:146-158. *)
Definition AssignCopy (m : mem) (i j : nat) : option mem :=
  h <- HasValue m j ;;
  if h : bool then v <- GetValue m j ;; AssignValue m i v (i =? j)
  else Reset m i.

(** Optional.h:160-176. *)
Definition AssignMove (m : mem) (i j : nat) : option mem :=
  if i =? j then Some m
  else
    h <- HasValue m j ;;
    if h : bool then
      v <- GetValue m j ;; m <- AssignValue m i v false ;; m <- assign m j (moved v) ;; Reset m j
    else Reset m i.

(** Optional.h:178-190 and 192-204. *)
Variable eqb : V -> V -> bool.
Variable neb : V -> V -> bool.
Definition opt_eq (m : mem) (i j : nat) : option bool :=
  hi <- HasValue m i ;; hj <- HasValue m j ;;
  if negb (Bool.eqb hi hj) then Some false
  else if negb hi then Some true
  else a <- GetValue m i ;; b <- GetValue m j ;; Some (eqb a b).
Definition opt_ne (m : mem) (i j : nat) : option bool :=
  hi <- HasValue m i ;; hj <- HasValue m j ;;
  if negb (Bool.eqb hi hj) then Some true
  else if negb hi then Some false
  else a <- GetValue m i ;; b <- GetValue m j ;; Some (neb a b).

Inductive oop :=
| OpNew (i : nat) | OpNewValue (i : nat) (v : V) | OpNewCopy (i j : nat) | OpNewMove (i j : nat)
| OpDelete (i : nat) | OpEmplace (i : nat) (v : V) | OpReset (i : nat)
| OpAssign (i : nat) (v : V) | OpAssignOwn (i : nat) | OpAssignCopy (i j : nat) | OpAssignMove (i j : nat).

Definition ostep (m : mem) (o : oop) : option mem :=
  match o with
  | OpNew i => New m i false
  | OpNewValue i v => NewValue m i v
  | OpNewCopy i j => NewCopy m i j
  | OpNewMove i j => NewMove m i j
  | OpDelete i => Delete m i
  | OpEmplace i v => Emplace m i v
  | OpReset i => Reset m i
  | OpAssign i v => AssignValue m i v false
  | OpAssignOwn i => v <- GetValue m i ;; AssignValue m i v true
  | OpAssignCopy i j => AssignCopy m i j
  | OpAssignMove i j => AssignMove m i j
  end.

Fixpoint oruns (m : mem) (ops : list oop) : option mem :=
  match ops with
  | [] => Some m
  | o :: ops' => m <- ostep m o ;; oruns m ops'
  end.
End Optional.
