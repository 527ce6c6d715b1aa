(** Lists of slots, used by the models of the pointer classes: replace, read and delete the
    element at a position. *)
From Coq Require Import Lia Bool List Arith.
Import ListNotations.

Fixpoint set {A} (l : list A) (i : nat) (x : A) : list A :=
  match l, i with
  | [], _ => []
  | _ :: r, O => x :: r
  | y :: r, S i' => y :: set r i' x
  end.
Definition get (l : list (option nat)) (i : nat) : option nat :=
  match nth_error l i with Some p => p | None => None end.
Fixpoint del {A} (l : list A) (i : nat) : list A :=
  match l, i with
  | [], _ => []
  | _ :: r, O => r
  | y :: r, S i' => y :: del r i'
  end.
(** Equality of pointers. *)
Definition eqp (a b : option nat) : bool :=
  match a, b with Some x, Some y => Nat.eqb x y | None, None => true | _, _ => false end.
