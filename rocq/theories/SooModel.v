(** Model of the [Array] with the small-object policy: AllocPolicyArray<_Type, AllocPolicy::SOO, N>
    and the members of [Array] built on it (include/YY/Base/Containers/Array.h 602-1424).

    Storage is a list of cells; a cell holds an element or is raw memory.  An object has its
    cells inside itself ([Small]) or in a heap block ([Large]).  Constructing an element needs a
    raw cell, assigning to, reading and destroying one need an element, and memory may only be
    given up when it is raw; everything else is [Err], as are accesses outside the storage and
    to a freed block.  So [Err] covers undefined behaviour and elements that are never destroyed.
    A function returns ([Ret]), throws ([Exn]) or ends the program ([Abort]: abort(), or an
    exception leaving a noexcept function).

    Simplifications.
    - Sizes, counts and locks are unbounded numbers; the size_t arithmetic is at the end.
    - The lowest bit of a pointer that the allocator returns is 0 (bSmallHeader shares it).
    - An allocation inside an operation fails when the operation's [oom] flag is set.
    - A block that is grown always moves to a new address.
    - A pointer argument to elements refers to memory outside the array.
    - [dflt] is a new element, [moved] what a move leaves, [trivial] is is_trivially_copyable,
      [qs] is the effect of qsort. *)
From Coq Require Import Arith ZArith Lia Bool List.
From Verif Require Import Slots MoveModel.
Import ListNotations.

Inductive code := S_OK | S_FALSE | E_BOUNDS | E_OUTOFMEMORY | E_INVALIDARG.
Definition upd {X} (f : nat -> option X) (k : nat) (v : option X) : nat -> option X :=
  fun i => if i =? k then v else f i.

Section Soo.
  Variable V : Type.
  Variable dflt : V.
  Variable moved : V -> V.
  Variable trivial : bool.
  Variable qs : list V -> list V.
  (** SmallHeader::GetCapacity(), Array.h 633-636, 657-660: any number, also 0. *)
  Variable icap : nat.

  Definition cells := list (option V).
  (** InternalData, Array.h 665-682: bSmallHeader says which header; uSize is common. *)
  Inductive hdr := Small (locks size : nat) (c : cells) | Large (a size cap locks : nat).
  Record hs := mkhs { hp : nat -> option cells; nx : nat; me : hdr }.

  Inductive outcome (A : Type) := Ret (s : hs) (a : A) | Exn (s : hs) | Abort | Err.
  Arguments Ret {A}. Arguments Exn {A}. Arguments Abort {A}. Arguments Err {A}.
  Definition M (A : Type) := hs -> outcome A.
  Definition ret {A} (a : A) : M A := fun s => Ret s a.
  Definition throw {A} : M A := fun s => Exn s.
  Definition err {A} : M A := fun _ => Err.
  Definition abort {A} : M A := fun _ => Abort.
  Definition bind {A B} (x : M A) (f : A -> M B) : M B := fun s =>
    match x s with Ret s' a => f a s' | Exn s' => Exn s' | Abort => Abort | Err => Err end.
  Notation "x <- a ;; b" := (bind a (fun x => b)) (at level 61, a at next level, right associativity).
  Notation "a ;;; b" := (bind a (fun _ => b)) (at level 61, right associativity).

  (** * Cells *)
  Definition live (x : option V) : bool := match x with Some _ => true | None => false end.
  Definition raw (x : option V) : bool := negb (live x).
  Definition blit (c : cells) (off : nat) (l : cells) : cells := firstn off c ++ l ++ skipn (off + length l) c.
  (** The cells of the storage in use. *)
  Definition storage : M cells := fun s =>
    match me s with
    | Small _ _ c => Ret s c
    | Large a _ _ _ => match hp s a with Some c => Ret s c | None => Err end
    end.
  Definition put_storage (c : cells) : M unit := fun s =>
    match me s with
    | Small lk n _ => Ret (mkhs (hp s) (nx s) (Small lk n c)) tt
    | Large a n cp lk =>
        match hp s a with Some _ => Ret (mkhs (upd (hp s) a (Some c)) (nx s) (me s)) tt | None => Err end
    end.
  (** Is every cell of [off, off+n) inside and as [p] says? *)
  Definition region (p : option V -> bool) (c : cells) (off n : nat) : bool :=
    (off + n <=? length c) && forallb p (firstn n (skipn off c)).
  (** CopyConstructor, MoveConstructor, Constructor and placement new; Copy, Move and
      assignment; Destructor (ConstructorPolicy.h). *)
  Definition construct (off : nat) (l : list V) : M unit :=
    c <- storage ;; if region raw c off (length l) then put_storage (blit c off (map Some l)) else err.
  Definition assign (off : nat) (l : list V) : M unit :=
    c <- storage ;; if region live c off (length l) then put_storage (blit c off (map Some l)) else err.
  Definition destroy (off n : nat) : M unit :=
    c <- storage ;; if region live c off n then put_storage (blit c off (repeat None n)) else err.
  Definition values (c : cells) : list V := flat_map (fun x => match x with Some v => [v] | None => [] end) c.
  Definition read (off n : nat) : M (list V) :=
    c <- storage ;; if region live c off n then ret (values (firstn n (skipn off c))) else err.

  (** * Header *)
  (** GetSize 708-711, SetSize 713-716, GetCapacity 718-728, GetLockedCount 747-757, Lock 764-774,
      Unlock 776-797. *)
  Definition GetSize : M nat := fun s => Ret s (match me s with Small _ n _ => n | Large _ n _ _ => n end).
  Definition SetSize (n : nat) : M unit := fun s =>
    Ret (mkhs (hp s) (nx s) (match me s with Small lk _ c => Small lk n c | Large a _ cp lk => Large a n cp lk end)) tt.
  Definition GetCapacity : M nat := fun s => Ret s (match me s with Small _ _ _ => icap | Large _ _ cp _ => cp end).
  Definition GetLockedCount : M nat := fun s => Ret s (match me s with Small lk _ _ => lk | Large _ _ _ lk => lk end).
  Definition SetLocks (k : nat) : M unit := fun s =>
    Ret (mkhs (hp s) (nx s) (match me s with Small _ n c => Small k n c | Large a n cp _ => Large a n cp k end)) tt.
  Definition Lock : M unit := k <- GetLockedCount ;; SetLocks (S k).
  Definition Unlock : M unit := k <- GetLockedCount ;; match k with O => throw | S k' => SetLocks k' end.
  Definition IsSmall : M bool := fun s => Ret s (match me s with Small _ _ _ => true | Large _ _ _ _ => false end).

  (** malloc of [n] elements' room; free of a block. *)
  Definition Alloc (oom : bool) (n : nat) : M (option nat) := fun s =>
    if oom then Ret s None
    else Ret (mkhs (upd (hp s) (nx s) (Some (repeat None n))) (S (nx s)) (me s)) (Some (nx s)).
  Definition free (a : nat) : M unit := fun s =>
    match hp s a with
    | Some c => if forallb raw c then Ret (mkhs (upd (hp s) a None) (nx s) (me s)) tt else Err
    | None => Err
    end.
  (** Leaving the inside buffer: its cells must be raw. *)
  Definition become (h : hdr) : M unit := fun s =>
    match me s with
    | Small _ _ c => if forallb raw c then Ret (mkhs (hp s) (nx s) h) tt else Err
    | Large _ _ _ _ => Ret (mkhs (hp s) (nx s) h) tt
    end.
  (** Construction in the new block [a]. *)
  Definition construct_in (a : nat) (l : list V) : M unit := fun s =>
    match hp s a with
    | Some c => if region raw c 0 (length l) then Ret (mkhs (upd (hp s) a (Some (blit c 0 (map Some l)))) (nx s) (me s)) tt else Err
    | None => Err
    end.
  (** realloc: bytes are moved, the old block is gone. *)
  Definition ReAlloc (oom : bool) (a n : nat) : M (option nat) := fun s =>
    if oom then Ret s None
    else match hp s a with
         | Some c => Ret (mkhs (upd (upd (hp s) (nx s) (Some (firstn n c ++ repeat None (n - length c)))) a None) (S (nx s)) (me s)) (Some (nx s))
         | None => Err
         end.

  (** Realloc, Array.h 800-860. *)
  Definition Realloc (oom : bool) (n : nat) : M code :=
    cp <- GetCapacity ;;
    if n <=? cp then ret S_OK
    else
      lk <- GetLockedCount ;;
      match lk with
      | S _ => ret E_INVALIDARG
      | O =>
          size <- GetSize ;; small <- IsSmall ;;
          if small then
            r <- Alloc oom n ;;
            match r with
            | None => ret E_OUTOFMEMORY
            | Some b => l <- read 0 size ;; construct_in b l ;;; destroy 0 size ;;; become (Large b size n 0) ;;; ret S_OK
            end
          else fun s => match me s with
            | Large a _ _ lk0 =>
                (if trivial then
                   r <- ReAlloc oom a n ;;
                   match r with
                   | None => ret E_OUTOFMEMORY
                   | Some b => become (Large b size n lk0) ;;; ret S_OK
                   end
                 else
                   r <- Alloc oom n ;;
                   match r with
                   | None => ret E_OUTOFMEMORY
                   | Some b => l <- read 0 size ;; construct_in b l ;;; destroy 0 size ;;; free a ;;; become (Large b size n lk0) ;;; ret S_OK
                   end) s
            | Small _ _ _ => Err
            end
      end.

  (** ~InternalData, Array.h 689-706. *)
  Definition Destruct : M unit :=
    lk <- GetLockedCount ;;
    match lk with
    | S _ => abort
    | O => n <- GetSize ;; destroy 0 n ;;;
           (fun s => match me s with Small _ _ _ => Ret s tt | Large a _ _ _ => free a s end)
    end.

  (** Clear, Array.h 899-925. *)
  Definition Clear : M code :=
    n <- GetSize ;;
    if n =? 0 then ret S_OK
    else
      lk <- GetLockedCount ;;
      match lk with
      | S _ => throw
      | O => destroy 0 n ;;; SetSize 0 ;;; ret S_OK
      end.

  (** SetArray(pointer, count), Array.h 927-955. *)
  Definition SetArray (oom : bool) (l : list V) : M code :=
    lk <- GetLockedCount ;; n <- GetSize ;;
    if (0 <? lk) && (length l <? n) then ret E_INVALIDARG
    else
      r <- Realloc oom (length l) ;;
      match r with
      | S_OK =>
          n <- GetSize ;;
          (if length l <=? n then assign 0 l ;;; destroy (length l) (n - length l)
           else assign 0 (firstn n l) ;;; construct n (skipn n l)) ;;;
          SetSize (length l) ;;; ret S_OK
      | _ => ret r
      end.

  (** [(n + 15) & ~15], Array.h 1022. *)
  Definition align16 (n : nat) : nat := (n + 15) / 16 * 16.
  (** GetNewCapacity, Array.h 994-1005. *)
  Definition GetNewCapacity (c need : nat) : nat :=
    if need <=? c then c else if need <=? c + c / 2 then c + c / 2 else need.
  (** LockInternalData, Array.h 1012-1030; [false] is a null result. *)
  Definition LockInternalData (oom : bool) (n : nat) : M bool :=
    cp <- GetCapacity ;;
    if n <=? cp then Lock ;;; ret true
    else
      r <- Realloc oom (align16 n) ;;
      match r with S_OK => Lock ;;; ret true | _ => ret false end.
  (** LockInternalDataIncrement, Array.h 1032-1049. *)
  Definition LockInternalDataIncrement (oom : bool) (k : nat) : M bool :=
    size <- GetSize ;; cp <- GetCapacity ;;
    if size + k <=? cp then Lock ;;; ret true
    else
      r <- Realloc oom (GetNewCapacity cp (size + k)) ;;
      match r with S_OK => Lock ;;; ret true | _ => ret false end.

  (** * Array *)
  (** Reserve, Array.h 1095-1103. *)
  Definition Reserve (oom : bool) (n : nat) : M code :=
    r <- LockInternalData oom n ;;
    if r then Unlock ;;; ret S_OK else ret E_OUTOFMEMORY.
  (** LockBufferAndSetSize, Array.h 1121-1147. *)
  Definition LockBufferAndSetSize (oom : bool) (n : nat) : M bool :=
    r <- LockInternalData oom n ;;
    if r then
      size <- GetSize ;;
      (if size <=? n then construct size (repeat dflt (n - size)) ;;; SetSize n ;;; ret true
       else
         lk <- GetLockedCount ;;
         if 1 <? lk then Unlock ;;; throw
         else destroy n (size - n) ;;; SetSize n ;;; ret true)
    else ret false.
  (** UnlockBuffer, Array.h 1149-1159. *)
  Definition UnlockBuffer : M code :=
    lk <- GetLockedCount ;; match lk with O => throw | S _ => Unlock ;;; ret S_OK end.
  (** Resize, Array.h 1105-1119. *)
  Definition Resize (oom : bool) (n : nat) : M code :=
    if n =? 0 then Clear
    else r <- LockBufferAndSetSize oom n ;; if r then UnlockBuffer else ret E_OUTOFMEMORY.
  (** SetItem, Array.h 1177-1189. *)
  Definition SetItem (oom : bool) (k : nat) (v : V) : M code :=
    n <- GetSize ;;
    if n <=? k then ret E_BOUNDS
    else
      r <- LockInternalDataIncrement oom 0 ;;
      if r then assign k [v] ;;; Unlock ;;; ret S_OK else ret E_OUTOFMEMORY.
  (** Add(pointer, count), Array.h 1217-1233; Add, EmplacePtr 1211-1215, 1235-1247. *)
  Definition AddMany (oom : bool) (l : list V) : M code :=
    match l with
    | [] => ret S_OK
    | _ =>
        r <- LockInternalDataIncrement oom (length l) ;;
        if r then n <- GetSize ;; construct n l ;;; SetSize (n + length l) ;;; Unlock ;;; ret S_OK else ret E_OUTOFMEMORY
    end.
  Definition Add (oom : bool) (v : V) : M code := AddMany oom [v].
  Definition buf_of (l : list V) : nat -> V := fun k => nth k l dflt.
  (** Insert, Array.h 1249-1279: the last element is constructed in the new place, the others
      are assigned to. *)
  Definition Insert (oom : bool) (k : nat) (v : V) : M code :=
    n <- GetSize ;;
    if n <? k then ret E_BOUNDS
    else
      r <- LockInternalDataIncrement oom 1 ;;
      if r then
        l <- read 0 n ;;
        (let l' := elems V (InsertBody V moved trivial (buf_of l) n k v) (S n) in
         construct n (skipn n l') ;;; assign 0 (firstn n l')) ;;;
        SetSize (S n) ;;; Unlock ;;; ret S_OK
      else ret E_OUTOFMEMORY.
  (** Remove, Array.h 1281-1313. *)
  Definition Remove (oom : bool) (k c : nat) : M code :=
    if c =? 0 then ret S_OK
    else
      n <- GetSize ;;
      if n <=? k then ret S_OK
      else
        let rc := if c <? n - k then c else n - k in
        if rc =? n then Clear
        else
          r <- LockInternalDataIncrement oom 0 ;;
          if r then
            l <- read 0 n ;;
            assign 0 (elems V (RemoveBody V moved trivial (buf_of l) n k rc) (n - rc)) ;;;
            destroy (n - rc) rc ;;; SetSize (n - rc) ;;; Unlock ;;; ret S_OK
          else ret E_OUTOFMEMORY.
  (** Sort, Array.h 1315-1329. *)
  Definition Sort (oom : bool) : M code :=
    n <- GetSize ;;
    if n <=? 1 then ret S_FALSE
    else
      r <- LockInternalData oom 0 ;;
      if r then l <- read 0 n ;; assign 0 (qs l) ;;; Unlock ;;; ret S_OK else ret E_OUTOFMEMORY.
  (** A write through the pointer that LockBufferAndSetSize returned. *)
  Definition WriteLocked (k : nat) (v : V) : M code :=
    lk <- GetLockedCount ;; n <- GetSize ;;
    if (0 <? lk) && (k <? n) then assign k [v] ;;; ret S_OK else err.

  (** * Objects *)
  Record st := ST { heap : nat -> option cells; next : nat; objs : list (option hdr) }.
  Definition init (n : nat) : st := ST (fun _ => None) 0 (repeat None n).
  Definition look (s : st) (i : nat) : option hdr := match nth_error (objs s) i with Some o => o | None => None end.
  (** What an operation did: result code ([None]: an exception), the end of the program, or an
      error. *)
  Inductive result := R (s : st) (c : option code) | Died | Bad.
  (** The header that the constructor makes, Array.h 684-687. *)
  Definition fresh : hdr := Small 0 0 (repeat None icap).

  Definition on (i : nat) (f : M code) (s : st) : result :=
    match look s i with
    | None => Bad
    | Some h =>
        match f (mkhs (heap s) (next s) h) with
        | Ret t c => R (ST (hp t) (nx t) (set (objs s) i (Some (me t)))) (Some c)
        | Exn t => R (ST (hp t) (nx t) (set (objs s) i (Some (me t)))) None
        | Abort => Died
        | Err => Bad
        end
    end.
  (** The end of an object: ~InternalData; the inside buffer must be raw. *)
  Definition Delete (i : nat) (s : st) : result :=
    match on i (Destruct ;;; become fresh ;;; ret S_OK) s with
    | R s' r => R (ST (heap s') (next s') (set (objs s') i None)) r
    | x => x
    end.
  (** SetArray(const AllocPolicyArray& ), Array.h 957-963: the elements of [j] are read first. *)
  Definition peek (j : nat) (s : st) (f : list V -> result) : result :=
    match look s j with
    | None => Bad
    | Some h =>
        match (n <- GetSize ;; read 0 n) (mkhs (heap s) (next s) h) with
        | Ret _ l => f l
        | _ => Bad
        end
    end.
  Definition SetArrayCopy (oom : bool) (i j : nat) (s : st) : result :=
    if i =? j then match look s i with Some _ => R s (Some S_OK) | None => Bad end
    else peek j s (fun l => on i (SetArray oom l) s).
  (** SetArray(AllocPolicyArray&&), Array.h 965-984. *)
  Definition locks (h : hdr) : nat := match h with Small lk _ _ => lk | Large _ _ _ lk => lk end.
  Definition SetArrayMove (oom : bool) (i j : nat) (s : st) : result :=
    match look s i, look s j with
    | Some h, Some hj =>
        if i =? j then R s (Some S_OK)
        else if (0 <? locks hj) || (0 <? locks h) then R s (Some E_INVALIDARG)
        else match hj with
             | Small _ _ _ => peek j s (fun l => on i (SetArray oom l) s)
             | Large _ _ _ _ =>
                 match on i (Destruct ;;; become hj ;;; ret S_OK) s with
                 | R s' r => R (ST (heap s') (next s') (set (objs s') j (Some fresh))) r
                 | x => x
                 end
             end
    | _, _ => Bad
    end.
  (** A constructor of object [i]: a failure of [body] destroys the header and throws. *)
  Definition make (i : nat) (body : st -> result) (s : st) : result :=
    if (i <? length (objs s)) && match look s i with None => true | Some _ => false end then
      match body (ST (heap s) (next s) (set (objs s) i (Some fresh))) with
      | R s' (Some S_OK) => R s' (Some S_OK)
      | R s' _ => match Delete i s' with R s2 _ => R s2 None | x => x end
      | x => x
      end
    else Bad.
  (** noexcept: a failure calls abort(). *)
  Definition noexcept (r : result) : result :=
    match r with R s (Some S_OK) => R s (Some S_OK) | R _ _ => Died | x => x end.

  Inductive op :=
  | ONew (i : nat) | ONewList (oom : bool) (i : nat) (l : list V) | ONewCopy (oom : bool) (i j : nat)
  | ONewMove (oom : bool) (i j : nat) | ODelete (i : nat)
  | OAssign (oom : bool) (i j : nat) | OAssignMove (oom : bool) (i j : nat) | OSetArray (oom : bool) (i : nat) (l : list V)
  | OClear (i : nat) | OReserve (oom : bool) (i n : nat) | OResize (oom : bool) (i n : nat)
  | OLock (oom : bool) (i n : nat) | OUnlock (i : nat) | OWrite (i k : nat) (v : V)
  | OSetItem (oom : bool) (i k : nat) (v : V) | OAdd (oom : bool) (i : nat) (v : V)
  | OAddMany (oom : bool) (i : nat) (l : list V)
  | OInsert (oom : bool) (i k : nat) (v : V) | ORemove (oom : bool) (i k c : nat) | OSort (oom : bool) (i : nat).

  (** Constructors 1065-1089, destructor 1091-1093, operator= 1407-1423. *)
  Definition run_op (o : op) (s : st) : result :=
    match o with
    | ONew i => make i (fun s => R s (Some S_OK)) s
    | ONewList oom i l => make i (on i (SetArray oom l)) s
    | ONewCopy oom i j => match look s j with Some _ => make i (SetArrayCopy oom i j) s | None => Bad end
    | ONewMove oom i j => match look s j with Some _ => noexcept (make i (SetArrayMove oom i j) s) | None => Bad end
    | ODelete i => Delete i s
    | OAssign oom i j =>
        match SetArrayCopy oom i j s with R s' (Some S_OK) => R s' (Some S_OK) | R s' _ => R s' None | x => x end
    | OAssignMove oom i j => noexcept (SetArrayMove oom i j s)
    | OSetArray oom i l => on i (SetArray oom l) s
    | OClear i => on i Clear s
    | OReserve oom i n => on i (Reserve oom n) s
    | OResize oom i n => on i (Resize oom n) s
    | OLock oom i n => on i (r <- LockBufferAndSetSize oom n ;; ret (if r then S_OK else E_OUTOFMEMORY)) s
    | OUnlock i => on i UnlockBuffer s
    | OWrite i k v => on i (WriteLocked k v) s
    | OSetItem oom i k v => on i (SetItem oom k v) s
    | OAdd oom i v => on i (Add oom v) s
    | OAddMany oom i l => on i (AddMany oom l) s
    | OInsert oom i k v => on i (Insert oom k v) s
    | ORemove oom i k c => on i (Remove oom k c) s
    | OSort oom i => on i (Sort oom) s
    end.

  Inductive trace := Done (s : st) (rs : list (option code)) | Ended (rs : list (option code)) | Wrong.
  Fixpoint run (s : st) (ops : list op) : trace :=
    match ops with
    | [] => Done s []
    | o :: ops' =>
        match run_op o s with
        | R s1 r => match run s1 ops' with Done s2 rs => Done s2 (r :: rs) | Ended rs => Ended (r :: rs) | Wrong => Wrong end
        | Died => Ended []
        | Bad => Wrong
        end
    end.
End Soo.

(** * Arithmetic in size_t of 64 bits *)
Definition W : Z := (2 ^ 64)%Z.
(** [(n + 15) & ~15], Array.h 1022. *)
Definition align16u (n : Z) : Z := Z.land ((n + 15) mod W) ((-16) mod W).
(** LockInternalData for a small object that is not locked: the capacity and the bytes of the
    storage afterwards (Array.h 1014-1024 and 802-816); [sz] is sizeof(_Type), [ic] the inside
    capacity, [None] when the storage stays inside. *)
Definition reserve_bytes (sz ic n : Z) : option (Z * Z) :=
  (if n <=? ic then None
   else let m := align16u n in
        if m <=? ic then None else Some (m, (m * sz) mod W))%Z.
