(** Model of the copy-on-write [Array]: AllocPolicyArray<_Type, AllocPolicy::COW, 0> and the
    members of [Array] built on it (include/YY/Base/Containers/Array.h).

    A heap maps addresses to SharedData blocks; Array objects ("handles") are named by
    numbers and hold an address.  Address 0 is the static, read-only empty block.
    An outcome is [Ret] (returned), [Exn] (an exception left the function) or [UB]: access to
    freed memory, a write to the static block, a second free, an object that does not exist.

    Simplifications.
    - Sizes and counts are unbounded numbers and a block is never referred to 2^63-1 times, so
      "read-only" is "address 0".  The overflow of the byte count is modelled in AllocModel.v.
    - An allocation inside an operation fails when the operation's [oom] flag is set.
    - A block that is grown always moves to a new address.
    - A pointer argument to elements refers to memory outside the arrays (see
      CowAliasModel.v for arguments inside them).
    - Element construction, copying and destruction only matter through the values;
      [dflt] is a new element, [moved] what a move leaves, [trivial] is
      is_trivially_copyable, [qs] is the effect of qsort. *)
From Coq Require Import Arith ZArith Lia Bool List.
From Verif Require Import MoveModel.
Import ListNotations.

Inductive outcome (S A : Type) := Ret (s : S) (a : A) | Exn (s : S) | UB.
Arguments Ret {S A}. Arguments Exn {S A}. Arguments UB {S A}.

Section Cow.
  Variable V : Type.
  Variable dflt : V.
  Variable moved : V -> V.
  Variable trivial : bool.
  Variable qs : list V -> list V.

  (** SharedData, Array.h 221-231; [data] has uSize elements. *)
  Record blk := mkblk { iref : Z; cap : nat; data : list V }.
  Record st := mkst { hp : nat -> option blk; nx : nat; ar : nat -> option nat }.
  Definition st_init : st := mkst (fun _ => None) 1 (fun _ => None).

  Definition M (A : Type) := st -> outcome st A.
  Definition ret {A} (a : A) : M A := fun s => Ret s a.
  Definition throw {A} : M A := fun s => Exn s.
  Definition ub {A} : M A := fun _ => UB.
  Definition bind {A B} (x : M A) (f : A -> M B) : M B := fun s =>
    match x s with Ret s' a => f a s' | Exn s' => Exn s' | UB => UB end.
  Notation "x <- a ;; b" := (bind a (fun x => b)) (at level 61, a at next level, right associativity).
  Notation "a ;;; b" := (bind a (fun _ => b)) (at level 61, right associativity).

  Definition upd {X} (f : nat -> option X) (k : nat) (v : option X) : nat -> option X :=
    fun i => if i =? k then v else f i.

  (** s_Empty, Array.h 238-248. *)
  Definition empty_blk : blk := mkblk (2 ^ 63 - 1) 0 [].
  (** IsReadOnly, Array.h 250-253. *)
  Definition IsReadOnly (a : nat) : bool := a =? 0.

  Definition load (a : nat) : M blk := fun s =>
    if a =? 0 then Ret s empty_blk else match hp s a with Some b => Ret s b | None => UB end.
  Definition store (a : nat) (b : blk) : M unit := fun s =>
    if a =? 0 then UB
    else match hp s a with
         | Some _ => Ret (mkst (upd (hp s) a (Some b)) (nx s) (ar s)) tt
         | None => UB
         end.
  (** GetInternalData, Array.h 480-483. *)
  Definition addr (i : nat) : M nat := fun s => match ar s i with Some a => Ret s a | None => UB end.
  (** [pData = ...]. *)
  Definition point (i a : nat) : M unit := fun s =>
    match ar s i with Some _ => Ret (mkst (hp s) (nx s) (upd (ar s) i (Some a))) tt | None => UB end.

  (** Free, Array.h 469-476. *)
  Definition Free (a : nat) : M unit := fun s =>
    if IsReadOnly a then Ret s tt
    else match hp s a with
         | Some _ => Ret (mkst (upd (hp s) a None) (nx s) (ar s)) tt
         | None => UB
         end.
  (** AddRef, Array.h 255-267. *)
  Definition AddRef (a : nat) : M unit :=
    if IsReadOnly a then ret tt else
    b <- load a ;;
    if (iref b <? 1)%Z then throw else store a (mkblk (iref b + 1) (cap b) (data b)).
  (** Release, Array.h 269-283. *)
  Definition Release (a : nat) : M unit :=
    if IsReadOnly a then ret tt else
    b <- load a ;;
    if (0 <? iref b)%Z then
      store a (mkblk (iref b - 1) (cap b) (data b)) ;;;
      (if (iref b - 1 =? 0)%Z then Free a else ret tt)
    else Free a.
  (** IsShared 285-288, GetLockedCount 290-296, IsLocked 298-301. *)
  Definition IsShared (b : blk) : bool := (1 <? iref b)%Z.
  Definition GetLockedCount (b : blk) : nat := if (0 <=? iref b)%Z then 0 else Z.to_nat (- iref b).
  Definition IsLocked (b : blk) : bool := (iref b <? 0)%Z.
  (** Lock, Array.h 307-333. *)
  Definition Lock (a : nat) : M unit :=
    if IsReadOnly a then ret tt else
    b <- load a ;;
    if (1 <? iref b)%Z then throw
    else if (iref b =? 0)%Z then throw
    else if (iref b =? 1)%Z then store a (mkblk (-1) (cap b) (data b))
    else store a (mkblk (iref b - 1) (cap b) (data b)).
  (** Unlock, Array.h 339-359. *)
  Definition Unlock (a : nat) : M unit :=
    if IsReadOnly a then ret tt else
    b <- load a ;;
    if (0 <? iref b)%Z then throw
    else if (iref b =? -1)%Z then store a (mkblk 1 (cap b) (data b))
    else store a (mkblk (iref b + 1) (cap b) (data b)).
  (** SetSize and the change of the elements that goes with it (Array.h 371-377): the static
      block is never written when the size stays 0. *)
  Definition SetData (a : nat) (l : list V) : M unit :=
    b <- load a ;;
    if IsReadOnly a then match l with [] => ret tt | _ => ub end
    else if cap b <? length l then ub   (* beyond the buffer *)
    else store a (mkblk (iref b) (cap b) l).

  (** [(n + 15) & ~15], Array.h 406, 438. *)
  Definition align16 (n : nat) : nat := (n + 15) / 16 * 16.
  (** Alloc, Array.h 435-452; [None] is a null result. *)
  Definition Alloc (oom : bool) (n : nat) : M (option nat) := fun s =>
    if align16 n =? 0 then Ret s (Some 0)
    else if oom then Ret s None
    else Ret (mkst (upd (hp s) (nx s) (Some (mkblk 1 (align16 n) []))) (S (nx s)) (ar s)) (Some (nx s)).
  (** ReAlloc, Array.h 389-433. *)
  Definition ReAlloc (oom : bool) (a n : nat) : M (option nat) :=
    if IsReadOnly a then Alloc oom n else
    b <- load a ;;
    if n <=? cap b then ret (Some a)
    else if IsLocked b then throw
    else if oom then ret None
    else fun s =>
      Ret (mkst (upd (upd (hp s) (nx s) (Some (mkblk (iref b) (align16 n) (data b)))) a None) (S (nx s)) (ar s))
          (Some (nx s)).
  (** Clone, Array.h 454-467. *)
  Definition Clone (oom : bool) (a n : nat) : M (option nat) :=
    b <- load a ;;
    r <- Alloc oom (Nat.max n (length (data b))) ;;
    match r with
    | None => ret None
    | Some c => SetData c (data b) ;;; ret (Some c)
    end.

  (** Attach, Array.h 485-499; Detach, 501-511. *)
  Definition Attach (i c : nat) : M unit :=
    a <- addr i ;;
    (if a =? c then ret tt
     else b <- load a ;; if IsLocked b then throw else point i c) ;;;
    Release a.
  Definition Detach (i : nat) : M nat :=
    a <- addr i ;; b <- load a ;;
    if IsLocked b then throw else point i 0 ;;; ret a.

  (** LockInternalData, Array.h 518-546. *)
  Definition LockInternalData (oom : bool) (i n : nat) : M (option nat) :=
    a <- addr i ;; b <- load a ;;
    if IsShared b then
      r <- Clone oom a n ;;
      match r with
      | None => ret None
      | Some c => Attach i c ;;; Lock c ;;; ret (Some c)
      end
    else if cap b <? n then
      r <- ReAlloc oom a n ;;
      match r with
      | None => ret None
      | Some c => point i c ;;; Lock c ;;; ret (Some c)
      end
    else Lock a ;;; ret (Some a).

  (** GetNewCapacity, Array.h 588-599. *)
  Definition GetNewCapacity (c need : nat) : nat :=
    if need <=? c then c else if need <=? c + c / 2 then c + c / 2 else need.

  (** LockInternalDataIncrement, Array.h 548-580. *)
  Definition LockInternalDataIncrement (oom : bool) (i k : nat) : M (option nat) :=
    a <- addr i ;; b <- load a ;;
    if IsShared b then
      r <- Clone oom a (length (data b) + k) ;;
      match r with
      | None => ret None
      | Some c => Release a ;;; point i c ;;; Lock c ;;; ret (Some c)
      end
    else
      let n := GetNewCapacity (cap b) (length (data b) + k) in
      if cap b <? n then
        r <- ReAlloc oom a n ;;
        match r with
        | None => ret None
        | Some c => point i c ;;; Lock c ;;; ret (Some c)
        end
      else Lock a ;;; ret (Some a).

  Inductive code := S_OK | S_FALSE | E_BOUNDS | E_OUTOFMEMORY | E_INVALIDARG.

  (** Clear, Array.h 103-122. *)
  Definition Clear (i : nat) : M code :=
    a <- addr i ;; b <- load a ;;
    if IsShared b then point i 0 ;;; Release a ;;; ret S_OK
    else if length (data b) =? 0 then ret S_OK
    else if IsLocked b then throw
    else SetData a [] ;;; ret S_OK.

  (** SetArray(pointer, count), Array.h 124-186; the null pointer test is left out. *)
  Definition SetArray (oom : bool) (i : nat) (l : list V) : M code :=
    a <- addr i ;; b <- load a ;;
    r <- (if IsShared b then
            r <- Alloc oom (length l) ;;
            match r with
            | None => ret None
            | Some c => point i c ;;; Release a ;;; ret (Some c)
            end
          else if IsLocked b then
            if length l <? length (data b) then throw
            else if cap b <? length l then throw
            else ret (Some a)
          else if cap b <? length l then
            r <- ReAlloc oom a (length l) ;;
            match r with
            | None => ret None
            | Some c => point i c ;;; ret (Some c)
            end
          else ret (Some a)) ;;
    match r with
    | None => ret E_OUTOFMEMORY
    | Some c => Lock c ;;; SetData c l ;;; Unlock c ;;; ret S_OK
    end.

  (** SetArray(const AllocPolicyArray&), Array.h 188-204. *)
  Definition SetArrayCopy (oom : bool) (i j : nat) : M code :=
    a <- addr i ;; c <- addr j ;;
    if a =? c then ret S_OK
    else
      b <- load c ;;
      if IsLocked b then SetArray oom i (data b)
      else AddRef c ;;; Attach i c ;;; ret S_OK.

  (** SetArray(AllocPolicyArray&&), Array.h 206-213. *)
  Definition SetArrayMove (i j : nat) : M code :=
    a <- addr i ;; c <- addr j ;;
    if a =? c then ret S_OK
    else d <- Detach j ;; Attach i d ;;; ret S_OK.

  (** A new object (Array.h 74-77, 1065-1067). *)
  Definition New (i : nat) : M unit := fun s =>
    match ar s i with Some _ => UB | None => Ret (mkst (hp s) (nx s) (upd (ar s) i (Some 0))) tt end.
  (** The end of an object after its destructor, and when its constructor throws: the base
      class is destroyed (Array.h 79-83). *)
  Definition Delete (i : nat) : M code :=
    a <- addr i ;; Release a ;;;
    (fun s => Ret (mkst (hp s) (nx s) (upd (ar s) i None)) S_OK).
  (** A constructor: [body] failing or throwing destroys the base and throws. *)
  Definition construct (i : nat) (body : M code) : M code :=
    New i ;;;
    (fun s => match body s with
              | Ret s' S_OK => Ret s' S_OK
              | Ret s' _ | Exn s' => match Delete i s' with Ret s2 _ => Exn s2 | _ => UB end
              | UB => UB
              end).
  (** Array(const Array&) 1069-1074, Array(Array&&) 1076-1081 (noexcept: an exception ends
      the program, modelled as [UB]), Array(initializer_list) 1083-1089. *)
  Definition NewCopy (oom : bool) (i j : nat) : M code := construct i (SetArrayCopy oom i j).
  Definition NewMove (i j : nat) : M code := fun s =>
    match construct i (SetArrayMove i j) s with Ret s' r => Ret s' r | _ => UB end.
  Definition NewList (oom : bool) (i : nat) (l : list V) : M code := construct i (SetArray oom i l).

  (** Reserve, Array.h 1095-1103. *)
  Definition Reserve (oom : bool) (i n : nat) : M code :=
    r <- LockInternalData oom i n ;;
    match r with
    | None => ret E_OUTOFMEMORY
    | Some c => Unlock c ;;; ret S_OK
    end.

  Definition resized (l : list V) (n : nat) : list V := firstn n l ++ repeat dflt (n - length l).

  (** LockBufferAndSetSize, Array.h 1121-1147. *)
  Definition LockBufferAndSetSize (oom : bool) (i n : nat) : M (option nat) :=
    r <- LockInternalData oom i n ;;
    match r with
    | None => ret None
    | Some c =>
        b <- load c ;;
        if length (data b) <=? n then
          SetData c (data b ++ repeat dflt (n - length (data b))) ;;; ret (Some c)
        else if 1 <? GetLockedCount b then Unlock c ;;; throw
        else SetData c (firstn n (data b)) ;;; ret (Some c)
    end.

  (** UnlockBuffer, Array.h 1149-1159. *)
  Definition UnlockBuffer (i : nat) : M code :=
    a <- addr i ;; b <- load a ;;
    if IsLocked b then Unlock a ;;; ret S_OK else throw.

  (** Resize, Array.h 1105-1119. *)
  Definition Resize (oom : bool) (i n : nat) : M code :=
    if n =? 0 then Clear i
    else
      r <- LockBufferAndSetSize oom i n ;;
      match r with
      | None => ret E_OUTOFMEMORY
      | Some _ => UnlockBuffer i
      end.

  Definition setnth (l : list V) (k : nat) (v : V) : list V := firstn k l ++ v :: skipn (S k) l.

  (** SetItem, Array.h 1177-1189. *)
  Definition SetItem (oom : bool) (i k : nat) (v : V) : M code :=
    a <- addr i ;; b <- load a ;;
    if length (data b) <=? k then ret E_BOUNDS
    else
      r <- LockInternalDataIncrement oom i 0 ;;
      match r with
      | None => ret E_OUTOFMEMORY
      | Some c => b <- load c ;; SetData c (setnth (data b) k v) ;;; Unlock c ;;; ret S_OK
      end.

  (** Add(pointer, count), Array.h 1217-1233, and with one element Add / EmplacePtr,
      1211-1215, 1235-1247 (the null pointer test is left out). *)
  Definition AddMany (oom : bool) (i : nat) (l : list V) : M code :=
    match l with
    | [] => ret S_OK
    | _ =>
        r <- LockInternalDataIncrement oom i (length l) ;;
        match r with
        | None => ret E_OUTOFMEMORY
        | Some c => b <- load c ;; SetData c (data b ++ l) ;;; Unlock c ;;; ret S_OK
        end
    end.
  Definition Add (oom : bool) (i : nat) (v : V) : M code := AddMany oom i [v].

  (** A buffer seen as positions, and back (MoveModel.v). *)
  Definition buf_of (l : list V) : nat -> V := fun k => nth k l dflt.

  (** Insert, Array.h 1249-1279. *)
  Definition Insert (oom : bool) (i k : nat) (v : V) : M code :=
    a <- addr i ;; b <- load a ;;
    if length (data b) <? k then ret E_BOUNDS
    else
      r <- LockInternalDataIncrement oom i 1 ;;
      match r with
      | None => ret E_OUTOFMEMORY
      | Some c =>
          b <- load c ;;
          let n := length (data b) in
          SetData c (elems V (InsertBody V moved trivial (buf_of (data b)) n k v) (S n)) ;;;
          Unlock c ;;; ret S_OK
      end.

  (** Remove, Array.h 1281-1313. *)
  Definition Remove (oom : bool) (i k c : nat) : M code :=
    if c =? 0 then ret S_OK
    else
      a <- addr i ;; b <- load a ;;
      let n := length (data b) in
      if n <=? k then ret S_OK
      else
        let rc := if c <? n - k then c else n - k in
        if rc =? n then Clear i
        else
          r <- LockInternalDataIncrement oom i 0 ;;
          match r with
          | None => ret E_OUTOFMEMORY
          | Some c =>
              b <- load c ;;
              SetData c (elems V (RemoveBody V moved trivial (buf_of (data b)) n k rc) (n - rc)) ;;;
              Unlock c ;;; ret S_OK
          end.

  (** Sort, Array.h 1315-1329. *)
  Definition Sort (oom : bool) (i : nat) : M code :=
    a <- addr i ;; b <- load a ;;
    if length (data b) <=? 1 then ret S_FALSE
    else
      r <- LockInternalData oom i 0 ;;
      match r with
      | None => ret E_OUTOFMEMORY
      | Some c => b <- load c ;; SetData c (qs (data b)) ;;; Unlock c ;;; ret S_OK
      end.

  (** A write through the pointer that LockBufferAndSetSize returned: allowed while locked
      and inside the array. *)
  Definition WriteLocked (i k : nat) (v : V) : M code :=
    a <- addr i ;; b <- load a ;;
    if IsLocked b && (k <? length (data b)) then SetData a (setnth (data b) k v) ;;; ret S_OK else ub.

  (** Reading. GetItemPtr 1161-1175 (the element in place of its address), operator[]
      1331-1345, GetSize 91-95. *)
  Definition GetItemPtr (i k : nat) : M (option V) :=
    a <- addr i ;; b <- load a ;;
    if length (data b) <=? k then ret None else ret (nth_error (data b) k).
  Definition Index (i k : nat) : M V :=
    a <- addr i ;; b <- load a ;;
    if length (data b) <=? k then throw
    else match nth_error (data b) k with Some v => ret v | None => ub end.
  Definition GetSize (i : nat) : M nat := a <- addr i ;; b <- load a ;; ret (length (data b)).

  (** Operations of a program; [oom] says whether an allocation in it fails. *)
  Inductive op :=
  | ONew (i : nat) | ONewList (oom : bool) (i : nat) (l : list V) | ONewCopy (oom : bool) (i j : nat)
  | ONewMove (i j : nat) | ODelete (i : nat)
  | OAssign (oom : bool) (i j : nat) | OAssignMove (i j : nat) | OSetArray (oom : bool) (i : nat) (l : list V)
  | OClear (i : nat) | OReserve (oom : bool) (i n : nat) | OResize (oom : bool) (i n : nat)
  | OLock (oom : bool) (i n : nat) | OUnlock (i : nat) | OWrite (i k : nat) (v : V)
  | OSetItem (oom : bool) (i k : nat) (v : V) | OAdd (oom : bool) (i : nat) (v : V)
  | OAddMany (oom : bool) (i : nat) (l : list V)
  | OInsert (oom : bool) (i k : nat) (v : V) | ORemove (oom : bool) (i k c : nat) | OSort (oom : bool) (i : nat).

  (** operator= 1407-1423: a failure is turned into an exception; the moving one is noexcept. *)
  Definition run_op (o : op) : M code :=
    match o with
    | ONew i => New i ;;; ret S_OK
    | ONewList oom i l => NewList oom i l
    | ONewCopy oom i j => NewCopy oom i j
    | ONewMove i j => NewMove i j
    | ODelete i => Delete i
    | OAssign oom i j => r <- SetArrayCopy oom i j ;; match r with S_OK => ret S_OK | _ => throw end
    | OAssignMove i j => fun s => match SetArrayMove i j s with Ret s' r => Ret s' r | _ => UB end
    | OSetArray oom i l => SetArray oom i l
    | OClear i => Clear i
    | OReserve oom i n => Reserve oom i n
    | OResize oom i n => Resize oom i n
    | OLock oom i n => r <- LockBufferAndSetSize oom i n ;;
                       match r with None => ret E_OUTOFMEMORY | Some _ => ret S_OK end
    | OUnlock i => UnlockBuffer i
    | OWrite i k v => WriteLocked i k v
    | OSetItem oom i k v => SetItem oom i k v
    | OAdd oom i v => Add oom i v
    | OAddMany oom i l => AddMany oom i l
    | OInsert oom i k v => Insert oom i k v
    | ORemove oom i k c => Remove oom i k c
    | OSort oom i => Sort oom i
    end.

  (** What an operation reported: a code or an exception. *)
  Definition run1 (s : st) (o : op) : option (st * option code) :=
    match run_op o s with Ret s' c => Some (s', Some c) | Exn s' => Some (s', None) | UB => None end.
  Fixpoint run (s : st) (ops : list op) : option (st * list (option code)) :=
    match ops with
    | [] => Some (s, [])
    | o :: ops' =>
        match run1 s o with
        | Some (s1, r) => match run s1 ops' with Some (s2, rs) => Some (s2, r :: rs) | None => None end
        | None => None
        end
    end.
End Cow.

(** GetItemIndex, Array.h 1191-1198, on addresses: [data] is GetData(), [n] the size, [sz] is
    sizeof(_Type).  The pointer difference is signed and is then converted to size_t;
    uInvalidIndex is size_t(-1). *)
Definition sint64 (x : Z) : Z := ((x + 2 ^ 63) mod 2 ^ 64 - 2 ^ 63)%Z.
Definition uInvalidIndex : Z := (2 ^ 64 - 1)%Z.
Definition GetItemIndex (sz n data p : Z) : Z :=
  let i := (Z.quot (sint64 (p - data)) sz mod 2 ^ 64)%Z in
  (if i <? n then i else uInvalidIndex)%Z.

(** FindItemIndex, Array.h 1200-1209: the loop from element [k] on. *)
Fixpoint FindItemIndex {V : Type} (eqb : V -> V -> bool) (l : list V) (x : V) (k : nat) : option nat :=
  match l with
  | [] => None
  | y :: l' => if eqb y x then Some k else FindItemIndex eqb l' x (S k)
  end.
