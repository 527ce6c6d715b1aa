(** Moving elements inside one buffer:
    include/YY/Base/Containers/ConstructorPolicy.h and its two callers that move
    overlapping ranges, Array::Insert and Array::Remove
    (include/YY/Base/Containers/Array.h).

    Simplifications.  A buffer is a function from element positions to element values; a
    pointer into it is a position, so the comparisons of pointers are comparisons of
    positions.  [moved] is what a move leaves behind in its source (chosen by the element
    type).  Construction and destruction are not distinguished from assignment here; the
    balance of constructions and destructions is the subject of OptionalModel.v. *)
From Coq Require Import Arith Lia Bool List.
Import ListNotations.

Section Move.
  Variable V : Type.
  (** What is left in the source of a move. *)
  Variable moved : V -> V.

  Definition buf := nat -> V.
  Definition put (m : buf) (i : nat) (v : V) : buf := fun k => if k =? i then v else m k.

  (** The assignment of a moved [*_pSrc] to [*_pDst] for two different objects (ConstructorPolicy.h 129, 136). *)
  Definition mv1 (m : buf) (dst src : nat) : buf := put (put m src (moved (m src))) dst (m src).

  (** memmove of [n] elements (ConstructorPolicy.h 114): the C library's contract. *)
  Definition memmove (m : buf) (dst first n : nat) : buf :=
    fun k => if (dst <=? k) && (k <? dst + n) then m (first + (k - dst)) else m k.

  (** The backward loop of Move (ConstructorPolicy.h 122-130): [n] elements are left. *)
  Fixpoint move_down (m : buf) (dst first n : nat) : buf :=
    match n with
    | O => m
    | S n' => move_down (mv1 m (dst + n') (first + n')) dst first n'
    end.

  (** The forward loop of Move (ConstructorPolicy.h 134-137). *)
  Fixpoint move_up (m : buf) (dst first n : nat) : buf :=
    match n with
    | O => m
    | S n' => move_up (mv1 m dst first) (S dst) (S first) n'
    end.

  (** ConstructorPolicy::Move (ConstructorPolicy.h 110-142); [trivial] is
      is_trivially_copyable, the source is [first, last). *)
  Definition Move (trivial : bool) (m : buf) (dst first last : nat) : buf :=
    if trivial then memmove m dst first (last - first)
    else if dst =? first then m
    else if (dst <? first) && (dst <? last) then move_down m dst first (last - first)
    else move_up m dst first (last - first).

  (** The body of Array::Insert once the buffer is large enough (Array.h 1260-1274):
      [size] elements, new element [x] at [i <= size]. *)
  Definition InsertBody (trivial : bool) (m : buf) (size i : nat) (x : V) : buf :=
    if i =? size then put m size x
    else
      let m1 := mv1 m size (size - 1) in
      let m2 := Move trivial m1 (i + 1) i (size - 1) in
      put m2 i x.

  (** The body of Array::Remove (Array.h 1304-1308): [cnt] elements from [i] on leave. *)
  Definition RemoveBody (trivial : bool) (m : buf) (size i cnt : nat) : buf :=
    Move trivial m i (i + cnt) size.

  (** The elements of an array of [n] elements. *)
  Definition elems (m : buf) (n : nat) : list V := map m (seq 0 n).
End Move.
