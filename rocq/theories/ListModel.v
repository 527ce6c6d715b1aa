(** Models of the intrusive lists: [DoublyLinkedList] (include/YY/Base/Containers/DoublyLinkedList.h),
    [SingleLinkedList] (include/YY/Base/Containers/SingleLinkedList.h) and the event
    [Delegate] built on the former (include/YY/Base/Functional/Delegate.h).

    Entries and list objects are named by natural numbers; a pointer is [option nat] with
    [None] for [nullptr].  The memory is given by its fields: the links of every entry and
    the two ends of every list.  Following a null pointer is undefined: [None].
    Release build: [assert] does nothing (DoublyLinkedList.h:180-192, 207, 221). *)
From Coq Require Import Arith Lia Bool List.
Import ListNotations.

Definition ptr := option nat.
Definition upd (f : nat -> ptr) (k : nat) (v : ptr) : nat -> ptr :=
  fun x => if x =? k then v else f x.
Definition ptr_eqb (a b : ptr) : bool :=
  match a, b with
  | Some x, Some y => x =? y
  | None, None => true
  | _, _ => false
  end.

(** ** DoublyLinkedList *)
(** DoublyLinkedList.h:15-19 ([pPrior], [pNext] of an entry), 31-32 ([pFirst], [pLast]). *)
Record dl := mkdl { pr : nat -> ptr; nx : nat -> ptr; fi : nat -> ptr; la : nat -> ptr }.
Definition set_pr (s : dl) x v := mkdl (upd (pr s) x v) (nx s) (fi s) (la s).
Definition set_nx (s : dl) x v := mkdl (pr s) (upd (nx s) x v) (fi s) (la s).
Definition set_fi (s : dl) l v := mkdl (pr s) (nx s) (upd (fi s) l v) (la s).
Definition set_la (s : dl) l v := mkdl (pr s) (nx s) (fi s) (upd (la s) l v).
Definition dl_init : dl := mkdl (fun _ => None) (fun _ => None) (fun _ => None) (fun _ => None).

(** DoublyLinkedList.h:37-43 and 48-56: the new object [d] takes over the entries of [l]. *)
Definition Flush (s : dl) (l d : nat) : dl :=
  let s := set_fi s d (fi s l) in
  let s := set_la s d (la s l) in
  let s := set_fi s l None in
  set_la s l None.

(** DoublyLinkedList.h:58-72. *)
Definition PushBack (s : dl) (l e : nat) : dl :=
  let s := set_pr s e (la s l) in
  let s := set_nx s e None in
  match la s l with
  | Some t => set_la (set_nx s t (Some e)) l (Some e)
  | None => set_fi (set_la s l (Some e)) l (Some e)
  end.

(** DoublyLinkedList.h:74-93. *)
Definition PushBackList (s : dl) (l o : nat) : dl :=
  if l =? o then s
  else match fi s o with
       | None => s
       | Some f =>
           let s :=
             match la s l with
             | Some t =>
                 let s := set_nx s t (fi s o) in
                 let s := set_pr s f (la s l) in
                 set_la s l (la s o)
             | None => set_la (set_fi s l (fi s o)) l (la s o)
             end in
           set_la (set_fi s o None) o None
       end.

(** DoublyLinkedList.h:95-114. *)
Definition PopBack (s : dl) (l : nat) : dl * ptr :=
  match la s l with
  | None => (s, None)
  | Some r =>
      let s := set_la s l (pr s r) in
      let s := match la s l with
               | Some t => set_nx s t None
               | None => set_fi s l None
               end in
      (set_pr s r None, Some r)
  end.

(** DoublyLinkedList.h:116-134. *)
Definition PopFront (s : dl) (l : nat) : dl * ptr :=
  match fi s l with
  | None => (s, None)
  | Some r =>
      let s := set_fi s l (nx s r) in
      let s := match fi s l with
               | Some t => set_pr s t None
               | None => set_la s l None
               end in
      (set_nx s r None, Some r)
  end.

(** DoublyLinkedList.h:136-151. *)
Definition Insert (s : dl) (l w e : nat) : option dl :=
  let s := set_pr s e (pr s w) in
  let s := set_nx s e (Some w) in
  let s := set_pr s w (Some e) in
  if ptr_eqb (fi s l) (Some w) then Some (set_fi s l (Some e))
  else match pr s e with
       | Some p => Some (set_nx s p (Some e))
       | None => None
       end.

(** DoublyLinkedList.h:153-166. *)
Definition InsertFront (s : dl) (l e : nat) : dl :=
  let s := set_pr s e None in
  let s := set_nx s e (fi s l) in
  match fi s l with
  | Some f => set_fi (set_pr s f (Some e)) l (Some e)
  | None => set_fi (set_la s l (Some e)) l (Some e)
  end.

(** DoublyLinkedList.h:168-176, 228-231. *)
Definition GetFirst (s : dl) (l : nat) : ptr := fi s l.
Definition GetLast (s : dl) (l : nat) : ptr := la s l.
Definition IsEmpty (s : dl) (l : nat) : bool := ptr_eqb (fi s l) None.

(** DoublyLinkedList.h:178-226. *)
Definition Remove (s : dl) (l e : nat) : dl :=
  let p := pr s e in
  let s := set_pr s e None in
  let n := nx s e in
  let s := set_nx s e None in
  let tail s :=
    match n with
    | Some t => set_pr s t p
    | None => if negb (ptr_eqb (la s l) (Some e)) then s else set_la s l p
    end in
  match p with
  | Some t => tail (set_nx s t n)
  | None => if negb (ptr_eqb (fi s l) (Some e)) then s else tail (set_fi s l n)
  end.

(** Iteration as clients do it: from an entry along a link field, [fuel] steps at most. *)
Fixpoint walk (link : nat -> ptr) (fuel : nat) (p : ptr) : list nat :=
  match fuel, p with
  | S n, Some x => x :: walk link n (link x)
  | _, _ => []
  end.

(** The public mutators as operations on any number of lists. *)
Inductive dop :=
| OPushBack (l e : nat) | OPushList (l o : nat) | OPopBack (l : nat) | OPopFront (l : nat)
| OInsert (l w e : nat) | OInsertFront (l e : nat) | ORemove (l e : nat) | OFlush (l d : nat).

Definition dstep (s : dl) (o : dop) : option (dl * ptr) :=
  match o with
  | OPushBack l e => Some (PushBack s l e, None)
  | OPushList l o => Some (PushBackList s l o, None)
  | OPopBack l => Some (PopBack s l)
  | OPopFront l => Some (PopFront s l)
  | OInsert l w e => match Insert s l w e with Some s' => Some (s', None) | None => None end
  | OInsertFront l e => Some (InsertFront s l e, None)
  | ORemove l e => Some (Remove s l e, None)
  | OFlush l d => Some (Flush s l d, None)
  end.

Fixpoint druns (s : dl) (ops : list dop) : option (dl * list ptr) :=
  match ops with
  | [] => Some (s, [])
  | o :: ops' =>
      match dstep s o with
      | None => None
      | Some (s1, r) => match druns s1 ops' with
                        | None => None
                        | Some (s2, rs) => Some (s2, r :: rs)
                        end
      end
  end.

(** ** Delegate *)
(** Delegate.h:30-45. *)
Definition AddHandler (s : dl) (l : nat) (h : ptr) : dl * bool :=
  match h with
  | None => (s, false)
  | Some e =>
      if negb (ptr_eqb (pr s e) None) || negb (ptr_eqb (nx s e) None) then (s, false)
      else (PushBack s l e, true)
  end.

(** Delegate.h:73-80: does the loop meet the handle? [fuel] bounds the walk. *)
Fixpoint meets (s : dl) (fuel : nat) (p : ptr) (e : nat) : option bool :=
  match p with
  | None => Some false
  | Some x => if x =? e then Some true
              else match fuel with
                   | O => None
                   | S n => meets s n (nx s x) e
                   end
  end.

(** Delegate.h:47-84; [None]: the loop did not end within [fuel] steps. *)
Definition RemoveHandler (fuel : nat) (s : dl) (l : nat) (h : ptr) : option (dl * bool) :=
  match h with
  | None => Some (s, false)
  | Some e =>
      match pr s e with
      | None => if ptr_eqb (GetFirst s l) (Some e) then Some (Remove s l e, true) else Some (s, false)
      | Some _ =>
          match nx s e with
          | None => if ptr_eqb (GetLast s l) (Some e) then Some (Remove s l e, true) else Some (s, false)
          | Some _ => match meets s fuel (GetFirst s l) e with
                      | None => None
                      | Some true => Some (Remove s l e, true)
                      | Some false => Some (s, false)
                      end
          end
      end
  end.

(** Delegate.h:86-90: [tmp] is the temporary list returned by [Flush]. *)
Definition AddDelegate (s : dl) (l o tmp : nat) : dl :=
  PushBackList (Flush s o tmp) l tmp.

(** Delegate.h:104-111.  [cb e] is what the callback for [e] does to the lists.
    Returns the entries called, in order; [None]: undefined behaviour or out of fuel. *)
Fixpoint Invoke (fuel : nat) (s : dl) (l : nat) (cb : nat -> list dop) : option (dl * list nat) :=
  match PopFront s l with
  | (s1, None) => Some (s1, [])
  | (s1, Some e) =>
      match fuel with
      | O => None
      | S n => match druns s1 (cb e) with
               | None => None
               | Some (s2, _) => match Invoke n s2 l cb with
                                 | None => None
                                 | Some (s3, es) => Some (s3, e :: es)
                                 end
               end
      end
  end.

(** ** SingleLinkedList *)
(** SingleLinkedList.h:13-16, 28-29. *)
Record sl := mksl { snx : nat -> ptr; sfi : nat -> ptr; sla : nat -> ptr }.
Definition sl_init : sl := mksl (fun _ => None) (fun _ => None) (fun _ => None).

(** SingleLinkedList.h:55-69. *)
Definition SPop (s : sl) (l : nat) : sl * ptr :=
  match sfi s l with
  | None => (s, None)
  | Some o =>
      let s := mksl (snx s) (upd (sfi s) l (snx s o)) (sla s) in
      (match sfi s l with
       | None => mksl (snx s) (sfi s) (upd (sla s) l None)
       | Some _ => s
       end, Some o)
  end.

(** SingleLinkedList.h:71-85. *)
Definition SPush (s : sl) (l e : nat) : sl :=
  let s := mksl (upd (snx s) e None) (sfi s) (sla s) in
  let s := match sla s l with
           | Some t => mksl (upd (snx s) t (Some e)) (sfi s) (sla s)
           | None => mksl (snx s) (upd (sfi s) l (Some e)) (sla s)
           end in
  mksl (snx s) (sfi s) (upd (sla s) l (Some e)).

(** SingleLinkedList.h:87-107. *)
Definition SPushList (s : sl) (l o : nat) : sl :=
  if l =? o then s
  else if ptr_eqb (sfi s o) None then s
  else
    let s := match sla s l with
             | None => mksl (snx s) (upd (sfi s) l (sfi s o)) (upd (sla s) l (sla s o))
             | Some t => mksl (upd (snx s) t (sfi s o)) (sfi s) (upd (sla s) l (sla s o))
             end in
    mksl (snx s) (upd (sfi s) o None) (upd (sla s) o None).

(** SingleLinkedList.h:34-40: the new object [d] is built from [l]. *)
Definition SMove (s : sl) (l d : nat) : sl :=
  let s := mksl (snx s) (upd (sfi s) d (sfi s l)) (upd (sla s) d (sla s l)) in
  mksl (snx s) (upd (sfi s) l None) (upd (sla s) l None).

Inductive sop := SOPush (l e : nat) | SOPushList (l o : nat) | SOPop (l : nat) | SOMove (l d : nat).

Definition sstep (s : sl) (o : sop) : sl * ptr :=
  match o with
  | SOPush l e => (SPush s l e, None)
  | SOPushList l o => (SPushList s l o, None)
  | SOPop l => SPop s l
  | SOMove l d => (SMove s l d, None)
  end.

Fixpoint sruns (s : sl) (ops : list sop) : sl * list ptr :=
  match ops with
  | [] => (s, [])
  | o :: ops' => let '(s1, r) := sstep s o in
                 let '(s2, rs) := sruns s1 ops' in (s2, r :: rs)
  end.
