(** Array operations whose argument refers to an element of the same array
    (include/YY/Base/Containers/Array.h, copy-on-write policy).

    Only the moment at which the argument is read matters here, so the state of the array is
    reduced to its elements [l], the capacity [cap] of its block, and whether the block is
    [shared] with another array.  LockInternalDataIncrement (548-580) then does one of three things:
    - shared: the elements are copied to a new block; the old one lives on with its other
      holders, so an old reference still reads the old element;
    - room for the new elements: the block stays;
    - otherwise the block is reallocated: an old reference is dangling.
    Simplifications as in CowModel.v; elements are trivially copyable. *)
From Coq Require Import Arith Bool List.
From Verif Require Import MoveModel CowModel.
Import ListNotations.

Section Alias.
  Variable V : Type.
  Variable dflt : V.

  Inductive result := Done (l : list V) | Dangling (* freed memory is read *).

  Inductive place := Copied | Same | Moved.
  (** LockInternalDataIncrement, Array.h 548-580. *)
  Definition LockIncrement (shared : bool) (cap size k : nat) : place :=
    if shared then Copied
    else if cap <? GetNewCapacity cap (size + k) then Moved else Same.

  (** Insert(i, a[p]), Array.h 1249-1279. *)
  Definition InsertSelf (shared : bool) (cap : nat) (l : list V) (i p : nat) : result :=
    let size := length l in
    let old := buf_of V dflt l in
    let body (read : buf V -> V) :=
      if i =? size then put V old size (read old)
      else
        let m2 := Move V (fun v => v) true (mv1 V (fun v => v) old size (size - 1)) (i + 1) i (size - 1) in
        put V m2 i (read m2) in
    match LockIncrement shared cap size 1 with
    | Moved => Dangling
    | Copied => Done (elems V (body (fun _ => old p)) (S size))
    | Same => Done (elems V (body (fun m => m p)) (S size))
    end.

  (** Add(a.GetData() + p, c), Array.h 1217-1233. *)
  Definition AddManySelf (shared : bool) (cap : nat) (l : list V) (p c : nat) : result :=
    if c =? 0 then Done l
    else match LockIncrement shared cap (length l) c with
         | Moved => Dangling
         | _ => Done (l ++ firstn c (skipn p l))
         end.

  (** SetItem(i, a[p]), Array.h 1177-1189. *)
  Definition SetItemSelf (shared : bool) (cap : nat) (l : list V) (i p : nat) : result :=
    match LockIncrement shared cap (length l) 0 with
    | Moved => Dangling
    | _ => Done (setnth V l i (buf_of V dflt l p))
    end.
End Alias.
