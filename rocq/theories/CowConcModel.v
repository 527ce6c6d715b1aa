(** Model of several threads using copy-on-write arrays that share a buffer
    (include/YY/Base/Containers/Array.h, AllocPolicyArray<_Type, AllocPolicy::COW, 0>, lines 64-600).

    An agent is one Array object together with the thread that is allowed to use it.  A step performs
    one access to a SharedData block (its iRef member, one element, allocating, freeing).  Memory is
    sequentially consistent.  A freed block may be handed out again by a later allocation: the address
    an allocation returns is an input.

    Simplifications:
    - No user keeps a buffer locked between two operations (LockBuffer); the lock is only the one
      SetItem and Add take.
    - The reference count does not reach 2^63 - 1, the mark of the static empty block.
    - Whether the capacity is sufficient is an input ([grow]); ReAlloc, which is only reached by the sole
      owner, is one step.
    - Constructing the element and increasing uSize is one step.
    - Reading one's own array (size and element) is one step.
    - A thrown exception and an access to a freed block are both [Bad]. *)
From Coq Require Import List Arith ZArith Bool.
From Verif Require Import Slots.
Import ListNotations.

Section Cow.
Context {V : Type}.

(** SharedData (lines 222-233): iRef and the elements. *)
Record blk := BL { ref : Z; dat : list V }.
Inductive edit := ESet (k : nat) (v : V) | EAdd (v : V).
(** The places in the code.  The continuation of Release is the rest of LockInternalDataIncrement
    with the new block, or nothing (destructor). *)
Inductive place :=
| Idle
| Chk (k : nat) (v : V)                  (* SetItem, lines 1179-1180 *)
| Shd (e : edit)                         (* LockInternalDataIncrement, line 555: IsShared, 285-288 *)
| Al (e : edit)                          (* Clone, lines 460-466 *)
| Cp (e : edit) (b : nat)                (* Clone, lines 468-470, copying one element *)
| Rl (k : option (edit * nat))           (* Release, lines 271-274 *)
| Dc (k : option (edit * nat))           (* Release, lines 276-278 *)
| Fr (k : option (edit * nat))           (* Release, line 282: Free, 473-480 *)
| Sw (e : edit) (b : nat)                (* LockInternalDataIncrement, lines 561-563 *)
| Cap (e : edit)                         (* LockInternalDataIncrement, lines 569-579; ReAlloc 390-434 *)
| Lk (e : edit)                          (* Lock, lines 310-326, reading iRef *)
| Lw (e : edit) (r : Z)                  (* Lock, lines 326-333, writing iRef *)
| Wr (e : edit)                          (* SetItem line 1186, EmplacePtr lines 1242-1244 *)
| Ul                                     (* Unlock, lines 342-351, reading iRef *)
| Uw (r : Z)                             (* Unlock, lines 351-358, writing iRef *)
| KL                                     (* SetArray(const&), line 195: IsLocked *)
| KA                                     (* AddRef, lines 257-262 *)
| KI                                     (* AddRef, line 266 *)
| KN.                                    (* SetArray(const&), line 198: Attach to the new, empty object *)
(** [obj]: no object any more, or pData: the static empty block ([Some None]) or a block. *)
Record agent := AG { obj : option (option nat); pc : place }.
Inductive event :=
| VSet (i k : nat) (v : V) | VAdd (i : nat) (v : V) | VCopy (i : nat) | VDestroy (i : nat)
| VRead (i k : nat) (r : option V) | VBounds (i k : nat) | VOom (i : nat).
Record st := ST { hp : nat -> option blk; ag : list agent; log : list event }.
Inductive res := Next (s : st) | Bad | No.

Definition upd {A} (f : nat -> A) (x : nat) (v : A) : nat -> A := fun k => if k =? x then v else f k.
Definition put (s : st) (i : nat) (a : agent) : st := ST (hp s) (set (ag s) i a) (log s).
Definition say (s : st) (e : event) : st := ST (hp s) (ag s) (log s ++ [e]).
Definition seth (s : st) (a : nat) (b : option blk) : st := ST (upd (hp s) a b) (ag s) (log s).
(** n threads, each with an empty array. *)
Definition init (n : nat) : st := ST (fun _ => None) (repeat (AG (Some None) Idle) n) [].

Inductive call := OSet (k : nat) (v : V) | OAdd (v : V) | OCopy | ODestroy | ORead (k : nat).
Inductive act := Start (i : nat) (c : call) | Step (i x : nat) (oom grow : bool).

Definition start (s : st) (i : nat) (c : call) : res :=
  match nth_error (ag s) i with
  | Some (AG (Some p) Idle) =>
      match c with
      | OSet k v => Next (put s i (AG (Some p) (Chk k v)))
      | OAdd v => Next (put s i (AG (Some p) (Shd (EAdd v))))
      | OCopy => Next (put s i (AG (Some p) KL))
      | ODestroy => Next (say (put s i (AG (Some p) (Rl None))) (VDestroy i))
      | ORead k =>
          match p with
          | None => Next (say s (VRead i k None))
          | Some a => match hp s a with Some b => Next (say s (VRead i k (nth_error (dat b) k))) | None => Bad end
          end
      end
  | _ => No
  end.
Definition cont (k : option (edit * nat)) (o : option (option nat)) : agent :=
  match k with Some (e, b) => AG o (Sw e b) | None => AG None Idle end.
Definition alter (e : edit) (l : list V) : list V := match e with ESet k v => set l k v | EAdd v => l ++ [v] end.
Definition written (i : nat) (e : edit) : event := match e with ESet k v => VSet i k v | EAdd v => VAdd i v end.

(** A step of agent [i] at place [c], whose object points to block [a] with content [b]. *)
Definition stepb (s : st) (i a : nat) (b : blk) (c : place) (x : nat) (oom grow : bool) : res :=
  let o := Some (Some a) in
  let go c' := put s i (AG o c') in
  match c with
  | Chk k v => if k <? length (dat b) then Next (go (Shd (ESet k v))) else Next (say (go Idle) (VBounds i k))
  | Shd e => if (1 <? ref b)%Z then Next (go (Al e)) else Next (go (Cap e))
  | Al e =>
      if oom then Next (say (go Idle) (VOom i))
      else match hp s x with None => Next (put (seth s x (Some (BL 1 []))) i (AG o (Cp e x))) | Some _ => No end
  | Cp e n =>
      match hp s n with
      | None => Bad
      | Some bn =>
          match nth_error (dat b) (length (dat bn)) with
          | Some v => Next (seth s n (Some (BL (ref bn) (dat bn ++ [v]))))
          | None => Next (go (Rl (Some (e, n))))
          end
      end
  | Rl k => if (0 <? ref b)%Z then Next (go (Dc k)) else Next (go (Fr k))
  | Dc k =>
      let s' := seth s a (Some (BL (ref b - 1) (dat b))) in
      if (ref b - 1 =? 0)%Z then Next (put s' i (AG o (Fr k))) else Next (put s' i (cont k o))
  | Fr k => Next (put (seth s a None) i (cont k o))
  | Cap e =>
      if grow then
        if oom then Next (say (go Idle) (VOom i))
        else if (ref b <? 0)%Z then Bad
        else match hp s x with
             | None => Next (put (seth (seth s a None) x (Some b)) i (AG (Some (Some x)) (Lk e)))
             | Some _ => No
             end
      else Next (go (Lk e))
  | Lk e =>
      if (1 <? ref b)%Z then Bad else if (ref b =? 0)%Z then Bad
      else Next (go (Lw e (if (ref b =? 1)%Z then (-1)%Z else (ref b - 1)%Z)))
  | Lw e r => Next (put (seth s a (Some (BL r (dat b)))) i (AG o (Wr e)))
  | Wr e => Next (say (put (seth s a (Some (BL (ref b) (alter e (dat b))))) i (AG o Ul)) (written i e))
  | Ul => if (0 <? ref b)%Z then Bad else Next (go (Uw (if (ref b =? -1)%Z then 1%Z else (ref b + 1)%Z)))
  | Uw r => Next (put (seth s a (Some (BL r (dat b)))) i (AG o Idle))
  | KL => if (ref b <? 0)%Z then Bad else Next (go KA)
  | KA => if (ref b <? 1)%Z then Bad else Next (go KI)
  | KI => Next (put (seth s a (Some (BL (ref b + 1) (dat b)))) i (AG o KN))
  | KN => Next (say (ST (hp s) (set (ag s) i (AG o Idle) ++ [AG o Idle]) (log s)) (VCopy i))
  | Idle | Sw _ _ => No
  end.
(** The same for the static empty block: iRef is the maximum, so IsShared holds, the size is 0, and
    AddRef, Release, Free, Lock and Unlock return at once (lines 257, 271, 475, 313, 345). *)
Definition step0 (s : st) (i : nat) (c : place) (x : nat) (oom : bool) : res :=
  let o := Some None in
  let go c' := put s i (AG o c') in
  match c with
  | Chk k v => Next (say (go Idle) (VBounds i k))
  | Shd e => Next (go (Al e))
  | Al e =>
      if oom then Next (say (go Idle) (VOom i))
      else match hp s x with None => Next (put (seth s x (Some (BL 1 []))) i (AG o (Cp e x))) | Some _ => No end
  | Cp e n => Next (go (Rl (Some (e, n))))
  | Rl k => Next (put s i (cont k o))
  | KL => Next (go KA)
  | KA => Next (go KN)
  | KN => Next (say (ST (hp s) (set (ag s) i (AG o Idle) ++ [AG o Idle]) (log s)) (VCopy i))
  | Wr _ => Bad
  | _ => No
  end.
Definition step (s : st) (i x : nat) (oom grow : bool) : res :=
  match nth_error (ag s) i with
  | Some (AG _ (Sw e b)) => Next (put s i (AG (Some (Some b)) (Lk e)))
  | Some (AG (Some (Some a)) c) =>
      match c with
      | Idle => No
      | _ => match hp s a with Some b => stepb s i a b c x oom grow | None => Bad end
      end
  | Some (AG (Some None) c) => step0 s i c x oom
  | _ => No
  end.
Definition exec (s : st) (a : act) : res :=
  match a with Start i c => start s i c | Step i x oom grow => step s i x oom grow end.
Fixpoint run (s : st) (l : list act) : res :=
  match l with [] => Next s | a :: r => match exec s a with Next s' => run s' r | Bad => Bad | No => No end end.
End Cow.
Arguments blk : clear implicits. Arguments edit : clear implicits. Arguments place : clear implicits.
Arguments agent : clear implicits. Arguments event : clear implicits. Arguments st : clear implicits.
Arguments res : clear implicits. Arguments call : clear implicits. Arguments act : clear implicits.
