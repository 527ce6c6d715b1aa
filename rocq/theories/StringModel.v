(** Model of the copy-on-write strings: StringBase and StringData
    (include/YY/Base/Strings/String.h), and of the byte-order conversion that moves a buffer
    (src/YY/Base/Strings/StringTransform.cpp 69-115).

    A heap maps addresses to StringData blocks; a block has [cap + 1] characters.  Address 0 is
    the static, read-only empty string.  A member function runs on a state that holds the heap
    and the object's own [szString]; the objects themselves are the slots of a list.
    An outcome is [Ret], [Exn] (an exception left the function) or [UB]: access to freed memory,
    access outside a block, a write to the static block, an object that does not exist, memcpy
    between overlapping places.

    Simplifications.
    - Characters are numbers, the terminator is 0.
    - Sizes are unbounded and a block has fewer than 2^31-1 references, so "read-only" is
      "address 0".  The arithmetic of sizes in size_t is the second half of this file.
    - An allocation inside an operation fails when the operation's [oom] flag is set.
    - A block that is grown always moves; new memory holds arbitrary characters ([junk]).
    - The searches in views are those proved for SpanModel.v; here [mem].
    - [assert] does nothing. *)
From Coq Require Import Arith ZArith NArith Lia Bool List.
From Verif Require Import Slots Word.
Import ListNotations.

(** StringData, String.h 1069-1085. *)
Record blk := mkblk { iref : Z; cap : nat; size : nat; buf : list nat; enc : nat }.
Record hs := mkhs { hp : nat -> option blk; nx : nat; ptr : nat }.

Inductive outcome (A : Type) := Ret (s : hs) (a : A) | Exn (s : hs) | UB.
Arguments Ret {A}. Arguments Exn {A}. Arguments UB {A}.

Definition M (A : Type) := hs -> outcome A.
Definition ret {A} (a : A) : M A := fun s => Ret s a.
Definition throw {A} : M A := fun s => Exn s.
Definition ub {A} : M A := fun _ => UB.
Definition bind {A B} (x : M A) (f : A -> M B) : M B := fun s =>
  match x s with Ret s' a => f a s' | Exn s' => Exn s' | UB => UB end.
Notation "x <- a ;; b" := (bind a (fun x => b)) (at level 61, a at next level, right associativity).
Notation "a ;;; b" := (bind a (fun _ => b)) (at level 61, right associativity).

Inductive code := S_OK | E_BOUNDS | E_OUTOFMEMORY | E_INVALIDARG | E_NOINTERFACE.

Definition upd {X} (f : nat -> option X) (k : nat) (v : option X) : nat -> option X :=
  fun i => if i =? k then v else f i.

Section Strings.
  (** What new memory contains; the template's encoding and whether it is Encoding::ANSI; which
      encodings SetANSIEncoding refuses. *)
  Variable junk : nat -> nat -> nat.
  Variable enc0 : nat.
  Variable ansi : bool.
  Variable unicode : nat -> bool.

  (** GetEmtpyStringData, String.h 1160-1173. *)
  Definition empty_blk : blk := mkblk (2 ^ 31 - 1) 0 0 [0] enc0.

  Definition load (a : nat) : M blk := fun s =>
    if a =? 0 then Ret s empty_blk else match hp s a with Some b => Ret s b | None => UB end.
  Definition store (a : nat) (b : blk) : M unit := fun s =>
    if a =? 0 then UB
    else match hp s a with
         | Some _ => Ret (mkhs (upd (hp s) a (Some b)) (nx s) (ptr s)) tt
         | None => UB
         end.
  Definition free (a : nat) : M unit := fun s =>
    if a =? 0 then UB
    else match hp s a with
         | Some _ => Ret (mkhs (upd (hp s) a None) (nx s) (ptr s)) tt
         | None => UB
         end.
  (** GetInternalStringData, String.h 1281-1284; assignment to szString. *)
  Definition this : M nat := fun s => Ret s (ptr s).
  Definition point (a : nat) : M unit := fun s => Ret (mkhs (hp s) (nx s) a) tt.

  (** Characters [off, off+n) of a block, and writing [l] at [off]. *)
  Definition blit (bf : list nat) (off : nat) (l : list nat) : list nat :=
    firstn off bf ++ l ++ skipn (off + length l) bf.
  Definition read (a off n : nat) : M (list nat) :=
    b <- load a ;;
    if off + n <=? length (buf b) then ret (firstn n (skipn off (buf b))) else ub.
  Definition write (a off : nat) (l : list nat) : M unit :=
    b <- load a ;;
    if off + length l <=? length (buf b)
    then store a (mkblk (iref b) (cap b) (size b) (blit (buf b) off l) (enc b))
    else ub.

  (** IsReadOnly 1216-1219, IsShared 1221-1224, IsLocked 1265-1268. *)
  Definition IsReadOnly (a : nat) : bool := a =? 0.
  Definition IsShared (b : blk) : bool := (1 <? iref b)%Z.
  Definition IsLocked (b : blk) : bool := (iref b <? 0)%Z.
  Definition setref (b : blk) (r : Z) : blk := mkblk r (cap b) (size b) (buf b) (enc b).
  (** AddRef, String.h 1180-1194. *)
  Definition AddRef (a : nat) : M unit :=
    if IsReadOnly a then ret tt else
    b <- load a ;;
    if (iref b <? 0)%Z then throw else store a (setref b (iref b + 1)).
  (** Release, String.h 1196-1214. *)
  Definition Release (a : nat) : M unit :=
    if IsReadOnly a then ret tt else
    b <- load a ;;
    if (iref b <? 0)%Z then free a
    else
      store a (setref b (iref b - 1)) ;;;
      (if (iref b - 1 =? 0)%Z then free a else ret tt).
  (** Lock, String.h 1226-1242. *)
  Definition Lock (a : nat) : M unit :=
    b <- load a ;;
    if ((1 <? iref b) || (iref b =? 0))%Z then throw
    else if (iref b =? 1)%Z then store a (setref b (-1))
    else store a (setref b (iref b - 1)).
  (** Unlock, String.h 1244-1260. *)
  Definition Unlock (a : nat) : M unit :=
    b <- load a ;;
    if (0 <=? iref b)%Z then throw
    else if (iref b =? -1)%Z then store a (setref b 1)
    else store a (setref b (iref b + 1)).

  (** [(n + 15) & ~15], String.h 1122, 1141. *)
  Definition align16 (n : nat) : nat := (n + 15) / 16 * 16.
  Definition fresh (a n : nat) : list nat := map (junk a) (seq 0 n).
  (** AllocStringData, String.h 1134-1158; [None] is a null result. *)
  Definition AllocStringData (oom : bool) (n : nat) : M (option nat) := fun s =>
    if n =? 0 then Ret s (Some 0)
    else if oom then Ret s None
    else
      let c := align16 (n + 1) in
      Ret (mkhs (upd (hp s) (nx s) (Some (mkblk 1 (c - 1) 0 (blit (fresh (nx s) c) 0 [0]) enc0))) (S (nx s)) (ptr s))
          (Some (nx s)).
  (** CloneStringData, String.h 1087-1106: neither uSize nor eEncoding of the block are copied. *)
  Definition CloneStringData (oom : bool) (a n : nat) : M (option nat) :=
    b <- load a ;;
    let n := Nat.max n (size b) in
    if n =? 0 then ret (Some 0)
    else
      r <- AllocStringData oom n ;;
      match r with
      | None => ret None
      | Some c => l <- read a 0 (size b) ;; write c 0 l ;;; write c (size b) [0] ;;; ret (Some c)
      end.
  (** ReallocStringData, String.h 1108-1132. *)
  Definition ReallocStringData (oom : bool) (a n : nat) : M (option nat) :=
    b <- load a ;;
    if n <=? cap b then ret (Some a)
    else
      let c := align16 (Nat.max (cap b + cap b / 2) (n + 1)) in
      if oom then ret None
      else fun s =>
        Ret (mkhs (upd (upd (hp s) (nx s)
                     (Some (mkblk (iref b) (c - 1) (size b) (buf b ++ fresh (nx s) (c - (cap b + 1))) (enc b)))) a None)
                  (S (nx s)) (ptr s))
            (Some (nx s)).

  (** LockBuffer, String.h 266-311; [false] is a null result. *)
  Definition LockBuffer (oom : bool) (n : nat) : M bool :=
    a <- this ;; b <- load a ;;
    let n := Nat.max n (size b) in
    if (n =? 0) && (cap b =? 0) then ret true
    else
      r <- (if IsShared b then
              r <- CloneStringData oom a n ;;
              match r with
              | None => ret None
              | Some c => point c ;;; Release a ;;; ret (Some c)
              end
            else if cap b <? n then
              if IsLocked b then throw
              else
                r <- ReallocStringData oom a n ;;
                match r with
                | None => ret None
                | Some c => point c ;;; ret (Some c)
                end
            else ret (Some a)) ;;
      match r with
      | None => ret false
      | Some c => (if IsReadOnly c then ret tt else Lock c) ;;; ret true
      end.

  (** UnlockBuffer(size), String.h 313-332. *)
  Definition UnlockBufferN (n : nat) : M unit :=
    a <- this ;;
    if IsReadOnly a then ret tt
    else
      b <- load a ;;
      if negb (IsLocked b) then throw
      else
        let n := if cap b <? n then cap b else n in
        store a (mkblk (iref b) (cap b) n (buf b) (enc b)) ;;;
        write a n [0] ;;; Unlock a.
  (** UnlockBuffer(), String.h 334-342. *)
  Definition UnlockBuffer : M unit :=
    a <- this ;; if IsReadOnly a then ret tt else Unlock a.

  (** Clear, String.h 346-360. *)
  Definition Clear : M unit :=
    a <- this ;; b <- load a ;;
    if IsShared b then point 0 ;;; Release a
    else
      write a 0 [0] ;;;
      b <- load a ;;
      store a (mkblk (iref b) (cap b) 0 (buf b) (enc b)).

  (** A source of characters: memory outside every string, or [n] characters from [off] in the
      block [p]. *)
  Inductive src := Lit (l : list nat) | At (p off n : nat).
  Definition src_len (x : src) : nat := match x with Lit l => length l | At _ _ n => n end.
  (** memcpy of the source to position [d] of block [c]. *)
  Definition copy_in (c d : nat) (x : src) : M unit :=
    match x with
    | Lit l => write c d l
    | At p off n =>
        if (p =? c) && (0 <? n) && (off <? d + n) && (d <? off + n) then ub
        else l <- read p off n ;; write c d l
    end.

  (** SetString(pointer, count), String.h 362-386; the null pointer test is left out. *)
  Definition SetString (oom : bool) (x : src) : M code :=
    Clear ;;;
    (if src_len x =? 0 then ret S_OK
     else
       ok <- LockBuffer oom (src_len x) ;;
       if negb ok then ret E_OUTOFMEMORY
       else a <- this ;; copy_in a 0 x ;;; UnlockBufferN (src_len x) ;;; ret S_OK).

  (** Attach, String.h 1290-1296. *)
  Definition Attach (c : nat) : M unit := a <- this ;; point c ;;; Release a.

  (** SetString(const StringBase&), String.h 392-409; [c] is the other object's szString. *)
  Definition SetStringCopy (oom : bool) (c : nat) : M code :=
    a <- this ;;
    if a =? c then ret S_OK
    else
      b <- load c ;;
      if IsLocked b then SetString oom (At c 0 (size b))
      else AddRef c ;;; Attach c ;;; ret S_OK.

  (** SetItem, String.h 427-443. *)
  Definition SetItem (oom : bool) (k ch : nat) : M code :=
    a <- this ;; b <- load a ;;
    if size b <=? k then ret E_BOUNDS
    else
      ok <- LockBuffer oom 0 ;;
      if negb ok then ret E_OUTOFMEMORY
      else a <- this ;; write a k [ch] ;;; UnlockBuffer ;;; ret S_OK.

  (** AppendString(pointer, count), String.h 450-468 (the null pointer test is left out). *)
  Definition Append (oom : bool) (x : src) : M code :=
    if src_len x =? 0 then ret S_OK
    else
      a <- this ;; b <- load a ;;
      ok <- LockBuffer oom (size b + src_len x) ;;
      if negb ok then ret E_OUTOFMEMORY
      else a <- this ;; copy_in a (size b) x ;;; UnlockBufferN (size b + src_len x) ;;; ret S_OK.
  (** AppendString(const StringBase&), String.h 475-488. *)
  Definition AppendStr (oom : bool) (c : nat) : M code :=
    d <- load c ;;
    if size d =? 0 then ret S_OK
    else
      a <- this ;; b <- load a ;;
      if size b =? 0 then SetStringCopy oom c
      else Append oom (At c 0 (size d)).
  (** AppendChar, String.h 490-504. *)
  Definition AppendChar (oom : bool) (ch : nat) : M code := Append oom (Lit [ch]).

  (** LockBuffer(n), characters written at [off], UnlockBuffer(off + count): the use made of
      these functions by AppendFormatV (String.h 52-80) and by the transcoders. *)
  Definition Edit (oom : bool) (n off : nat) (l : list nat) : M code :=
    ok <- LockBuffer oom n ;;
    if negb ok then ret E_OUTOFMEMORY
    else
      a <- this ;;
      (if length l =? 0 then ret tt else write a off l) ;;; UnlockBufferN (off + length l) ;;; ret S_OK.

  (** SetANSIEncoding, String.h 511-538. *)
  Definition GetEncoding (b : blk) : nat := if ansi then enc b else enc0.
  Definition SetANSIEncoding (oom : bool) (e : nat) : M code :=
    a <- this ;; b <- load a ;;
    if GetEncoding b =? e then ret S_OK
    else if negb ansi then ret E_NOINTERFACE
    else if unicode e then ret E_INVALIDARG
    else
      ok <- LockBuffer oom 1 ;;
      if negb ok then ret E_OUTOFMEMORY
      else
        a <- this ;; b <- load a ;;
        store a (mkblk (iref b) (cap b) (size b) (buf b) e) ;;;
        UnlockBuffer ;;; ret S_OK.

  (** A local String object: built empty, used by [body], then detached; an exception destroys
      it. *)
  Definition with_tmp {A} (body : M A) : M nat := fun s =>
    match body (mkhs (hp s) (nx s) 0) with
    | Ret s' _ => Ret (mkhs (hp s') (nx s') (ptr s)) (ptr s')
    | Exn s' => match Release (ptr s') s' with
                | Ret s2 _ => Exn (mkhs (hp s2) (nx s2) (ptr s))
                | _ => UB
                end
    | UB => UB
    end.

  (** Remove, String.h 806-851.  In the shared case the result of LockBuffer is not tested. *)
  Definition Remove (oom : bool) (k c : nat) : M unit :=
    a <- this ;; b <- load a ;;
    if size b <=? k then ret tt
    else
      let c := Nat.min c (size b - k) in
      if c =? 0 then ret tt
      else
        let n := size b - c in
        if n =? 0 then Clear
        else if IsShared b then
          d <- with_tmp (
            ok <- LockBuffer oom n ;;
            if negb ok then ub
            else
              t <- this ;;
              copy_in t 0 (At a 0 k) ;;; copy_in t k (At a (k + c) (n - k)) ;;; UnlockBufferN n ;;;
              (if ansi then SetANSIEncoding oom (enc b) else ret S_OK)) ;;
          Attach d
        else
          ok <- LockBuffer oom n ;;
          if negb ok then ub
          else
            a <- this ;;
            l <- read a (k + c) (n - k) ;; write a k l ;;; UnlockBufferN n.  (* memmove *)

  (** Slice, String.h 853-873. *)
  Definition Slice (oom : bool) (st en : nat) : M unit :=
    a <- this ;; b <- load a ;;
    if size b <=? st + en then Clear
    else
      (if 0 <? en then Remove oom (size b - en) en else ret tt) ;;;
      (if 0 <? st then Remove oom 0 st else ret tt).

  Definition mem (ch : nat) (l : list nat) : bool := existsb (Nat.eqb ch) l.
  (** TrimStart, String.h 891-913: the loop, then the function.  [l] is the text. *)
  Fixpoint lead (tr l : list nat) : nat :=
    match l with x :: l' => if mem x tr then S (lead tr l') else 0 | [] => 0 end.
  Definition TrimStart (oom : bool) (tr : list nat) : M unit :=
    match tr with
    | [] => ret tt
    | _ => a <- this ;; b <- load a ;; l <- read a 0 (size b) ;; Remove oom 0 (lead tr l)
    end.
  (** TrimEnd, String.h 915-943; the loop runs down from [n]. *)
  Fixpoint keep (tr l : list nat) (n : nat) : nat :=
    match n with
    | 0 => 0
    | S n' => if mem (nth n' l 0) tr then keep tr l n' else n
    end.
  Definition TrimEnd (oom : bool) (tr : list nat) : M unit :=
    match tr with
    | [] => ret tt
    | _ =>
        a <- this ;; b <- load a ;; l <- read a 0 (size b) ;;
        let n := keep tr l (size b) in
        if n =? 0 then Clear else Remove oom (n - 1) (size b - n)
    end.
  (** Trim, String.h 945-950. *)
  Definition Trim (oom : bool) (tr : list nat) : M unit := TrimEnd oom tr ;;; TrimStart oom tr.

  (** * Objects *)
  Record st := ST { heap : nat -> option blk; next : nat; vars : list (option nat) }.
  Definition init (n : nat) : st := ST (fun _ => None) 1 (repeat None n).

  Inductive result := R (s : st) (c : option code) | Bad.   (* [None]: an exception *)

  (** A member function of the existing object [i]. *)
  Definition on (i : nat) (f : M code) (s : st) : result :=
    match get (vars s) i with
    | None => Bad
    | Some a =>
        match f (mkhs (heap s) (next s) a) with
        | Ret h c => R (ST (hp h) (nx h) (set (vars s) i (Some (ptr h)))) (Some c)
        | Exn h => R (ST (hp h) (nx h) (set (vars s) i (Some (ptr h)))) None
        | UB => Bad
        end
    end.
  (** A constructor of object [i]: when the body fails or throws, no object comes into being (a
      body that fails or throws has left the pointer at the static string, so nothing is owed:
      the destructor does not run). *)
  Definition make (i : nat) (f : M code) (s : st) : result :=
    if (i <? length (vars s)) && match get (vars s) i with None => true | _ => false end then
      match f (mkhs (heap s) (next s) 0) with
      | Ret h S_OK => R (ST (hp h) (nx h) (set (vars s) i (Some (ptr h)))) (Some S_OK)
      | Ret h _ | Exn h => R (ST (hp h) (nx h) (vars s)) None
      | UB => Bad
      end
    else Bad.

  (** StringBase(const StringBase&), String.h 204-221; [c] is the source's szString. *)
  Definition CopyCtor (oom : bool) (c : nat) : M code :=
    b <- load c ;;
    if IsLocked b then SetString oom (At c 0 (size b))
    else AddRef c ;;; point c ;;; ret S_OK.
  (** StringBase(const StringView&), String.h 191-202, on a piece of another string. *)
  Definition ViewCtor (oom : bool) (x : src) (e : nat) : M code :=
    r <- SetString oom x ;;
    match r with
    | S_OK => (if ansi then SetANSIEncoding oom e else ret S_OK) ;;; ret S_OK
    | _ => ret r
    end.
  (** Substring, String.h 875-889, with StringView::Substring (StringView.h 545-555); a missing
      length is a length not smaller than the text. *)
  Definition Substring (oom : bool) (c k n : nat) : M code :=
    b <- load c ;;
    if (k =? 0) && (size b <=? n) then CopyCtor oom c
    else if k <? size b then ViewCtor oom (At c k (Nat.min (size b - k) n)) (GetEncoding b)
    else ViewCtor oom (At c (size b) 0) (GetEncoding b).

  Inductive op :=
  | ONew (i : nat) | ONewLit (oom : bool) (i : nat) (l : list nat) | ONewCopy (oom : bool) (i j : nat)
  | ONewMove (i j : nat) | OSub (oom : bool) (i j k n : nat) | ODelete (i : nat)
  | OAssign (oom : bool) (i j : nat) | OAssignMove (i j : nat) | OSet (oom : bool) (i : nat) (l : list nat)
  | OClear (i : nat) | OSetItem (oom : bool) (i k ch : nat)
  | OAppend (oom : bool) (i : nat) (l : list nat) | OAppendStr (oom : bool) (i j : nat)
  | OLock (oom : bool) (i n : nat) | OWrite (i k ch : nat) | OUnlock (i : nat) | OUnlockN (i n : nat)
  | OEdit (oom : bool) (i n off : nat) (l : list nat) | OEnc (oom : bool) (i e : nat)
  | ORemove (oom : bool) (i k c : nat) | OSlice (oom : bool) (i k e : nat)
  | OTrimStart (oom : bool) (i : nat) (tr : list nat) | OTrimEnd (oom : bool) (i : nat) (tr : list nat)
  | OTrim (oom : bool) (i : nat) (tr : list nat).

  Definition ok (f : M unit) : M code := f ;;; ret S_OK.
  Definition ptr_of (i : nat) (s : st) (f : nat -> result) : result :=
    match get (vars s) i with Some c => f c | None => Bad end.

  (** A write through the pointer that LockBuffer returned. *)
  Definition WriteLocked (k ch : nat) : M code :=
    a <- this ;; b <- load a ;;
    if IsLocked b && (k <? size b) then write a k [ch] ;;; ret S_OK else ub.

  Definition run_op (o : op) (s : st) : result :=
    match o with
    | ONew i => make i (ret S_OK) s                                        (* 170-173 *)
    | ONewLit oom i l => make i (SetString oom (Lit l)) s                  (* 175-189 *)
    | ONewCopy oom i j => ptr_of j s (fun c => make i (CopyCtor oom c) s)
    | ONewMove i j =>                                                      (* 223-227 *)
        ptr_of j s (fun c =>
          match make i (point c ;;; ret S_OK) s with
          | R s' r => R (ST (heap s') (next s') (set (vars s') j (Some 0))) r
          | Bad => Bad
          end)
    | OSub oom i j k n => ptr_of j s (fun c => make i (Substring oom c k n) s)
    | ODelete i =>                                                         (* 229-232 *)
        match on i (a <- this ;; Release a ;;; ret S_OK) s with
        | R s' r => R (ST (heap s') (next s') (set (vars s') i None)) r
        | Bad => Bad
        end
    | OAssign oom i j =>                                                   (* operator= 570-577 *)
        ptr_of j s (fun c => on i (r <- SetStringCopy oom c ;; match r with S_OK => ret S_OK | _ => throw end) s)
    | OAssignMove i j =>                            (* SetString(&&) 411-425; operator= 579-588 *)
        ptr_of i s (fun a => ptr_of j s (fun c =>
          if a =? c then R s (Some S_OK)
          else match load c (mkhs (heap s) (next s) a) with
               | Ret _ b =>
                   if IsLocked b then Bad       (* an exception leaves a noexcept function *)
                   else on i (Attach c ;;; ret S_OK) (ST (heap s) (next s) (set (vars s) j (Some 0)))
               | _ => Bad
               end))
    | OSet oom i l => on i (SetString oom (Lit l)) s
    | OClear i => on i (ok Clear) s
    | OSetItem oom i k ch => on i (SetItem oom k ch) s
    | OAppend oom i l => on i (Append oom (Lit l)) s
    | OAppendStr oom i j => ptr_of j s (fun c => on i (AppendStr oom c) s)
    | OLock oom i n => on i (r <- LockBuffer oom n ;; ret (if r then S_OK else E_OUTOFMEMORY)) s
    | OWrite i k ch => on i (WriteLocked k ch) s
    | OUnlock i => on i (ok UnlockBuffer) s
    | OUnlockN i n => on i (ok (UnlockBufferN n)) s
    | OEdit oom i n off l => on i (Edit oom n off l) s
    | OEnc oom i e => on i (SetANSIEncoding oom e) s
    | ORemove oom i k c => on i (ok (Remove oom k c)) s
    | OSlice oom i k e => on i (ok (Slice oom k e)) s
    | OTrimStart oom i tr => on i (ok (TrimStart oom tr)) s
    | OTrimEnd oom i tr => on i (ok (TrimEnd oom tr)) s
    | OTrim oom i tr => on i (ok (Trim oom tr)) s
    end.

  Fixpoint run (s : st) (ops : list op) : option (st * list (option code)) :=
    match ops with
    | [] => Some (s, [])
    | o :: ops' =>
        match run_op o s with
        | R s1 r => match run s1 ops' with Some (s2, rs) => Some (s2, r :: rs) | None => None end
        | Bad => None
        end
    end.

  (** TransformEndian(StringA&&, StringB* ), StringTransform.cpp 69-115, from object [j] to the
      object [i]; [swap] is byteswap.  The first branch is the one for an empty destination. *)
  Definition TransformEndianMove (swap : nat -> nat) (oom : bool) (i j : nat) (s : st) : result :=
    ptr_of i s (fun a => ptr_of j s (fun c =>
      match load a (mkhs (heap s) (next s) a), load c (mkhs (heap s) (next s) a) with
      | Ret _ da, Ret _ dc =>
          if size dc =? 0 then R s (Some S_OK)
          else if size da =? 0 then
            match (ok <- LockBuffer oom (size dc) ;;
                   if negb ok then ret E_OUTOFMEMORY
                   else
                     p <- this ;; l <- read p 0 (size dc) ;; write p 0 (map swap l) ;;;
                     UnlockBufferN (size da + size dc) ;;; ret S_OK)
                  (mkhs (heap s) (next s) c) with
            | Ret h S_OK =>
                (* Detach; the block's encoding; Attach; Release *)
                let s1 := ST (hp h) (nx h) (set (vars s) j (Some 0)) in
                on i (b <- load (ptr h) ;;
                      store (ptr h) (mkblk (iref b) (cap b) (size b) (buf b) enc0) ;;;
                      Attach (ptr h) ;;; Release (ptr h) ;;; ret S_OK) s1
            | Ret h r => R (ST (hp h) (nx h) (set (vars s) j (Some (ptr h)))) (Some r)
            | Exn h => R (ST (hp h) (nx h) (set (vars s) j (Some (ptr h)))) None
            | UB => Bad
            end
          else
            on i (ok <- LockBuffer oom (size da + size dc) ;;
                  if negb ok then ret E_OUTOFMEMORY
                  else
                    p <- this ;; l <- read c 0 (size dc) ;; write p (size da) (map swap l) ;;;
                    UnlockBufferN (size da + size dc) ;;; ret S_OK) s
      | _, _ => Bad
      end)).
End Strings.

(** * The arithmetic of sizes, in size_t of 64 bits
    [sz] is sizeof(char_t), 1, 2 or 4; sizeof(StringData) is 24. *)
Definition header : Z := 24.
Definition W : Z := 2 ^ 64.
(** [(n + 15) & ~15]: [~15] is an int, extended with its sign. *)
Definition align16u (n : Z) : Z := Z.land ((n + 15) mod W) ((-16) mod W).
(** AllocStringData 1139-1155: the bytes asked for and uCapacity. *)
Definition alloc_size (sz n : Z) : Z * Z :=
  let m := align16u ((n + 1) mod W) in ((header + m * sz) mod W, (m - 1) mod W)%Z.
(** ReallocStringData 1113-1129. *)
Definition realloc_size (sz old n : Z) : Z * Z :=
  let n1 := ((n + 1) mod W)%Z in
  let c := ((old + old / 2) mod W)%Z in
  let m := align16u (if (c <? n1)%Z then n1 else c) in
  ((header + m * sz) mod W, (m - 1) mod W)%Z.
