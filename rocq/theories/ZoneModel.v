(** The cached time zone: src/YY/Base/Time/TimeZone.cpp 11-50, with RefValue (include/YY/Base/Memory/RefPtr.h 30-60) and
    the raw constructor and destructor of RefPtr (RefPtr.h 141-146, 172-176).

    Any number of threads call GetCurrentTimeZone and drop what they got; one more agent runs the atexit handlers, possibly
    while other threads still run, as on Windows.  Objects are numbered in the order of their creation.

    Simplifications: a call of AddRef or Release is one step; memory is sequentially consistent; `new` does not fail; the
    weak count, which nobody uses here, is left out, so the object is freed with its last reference; that `new` is paired
    with free() is not modelled.  A handler that is registered while the handlers run is run as well, as the C library
    does. *)
From Coq Require Import List Bool Arith.
From Verif Require Import Slots.
Import ListNotations.

(** Where a thread is. *)
Inductive pc :=
| Out                    (* outside *)
| Need                   (* line 15 read null *)
| Made (q : nat)         (* line 30: has its own object, not yet published *)
| Lost (q w : nat)       (* line 33: somebody else's [w] is published, its own [q] still to be released *)
| Won (q : nat)          (* line 38: published, handler not yet registered *)
| Got (p : nat)          (* line 49: about to construct the RefPtr *)
| Have (p : nat).        (* has returned, holds a RefPtr *)

Record st := St {
  cache : option nat;    (* s_pCachedCurrentTimeZone, line 11 *)
  next : nat;            (* objects created so far *)
  ref : nat -> nat;      (* uRef *)
  info : nat -> nat;     (* what GetDynamicTimeZoneInformation wrote *)
  hand : nat;            (* registered handlers that have not run *)
  pend : option nat;     (* handler: between lines 40 and 43 *)
  ths : list pc;
  bad : bool;            (* ghost: AddRef or Release of a destroyed object *)
  rets : list (option (nat * nat))  (* ghost: what the calls returned, last first: object and zone, None for null *)
}.
Inductive act :=
| Read (i : nat)                      (* line 15 *)
| Ask (i : nat) (z : option nat)      (* lines 23-28; [z]: the system's zone, None when the function fails *)
| Cas (i : nat)                       (* line 30 *)
| DropOwn (i : nat)                   (* line 33 *)
| Reg (i : nat)                       (* line 38 *)
| Ret (i : nat)                       (* line 49 *)
| Drop (i : nat)                      (* the caller's RefPtr is destroyed *)
| Take                                (* line 40, in a handler *)
| Free.                               (* line 43 *)

Definition upd (f : nat -> nat) (i x : nat) : nat -> nat := fun j => if j =? i then x else f j.
Definition go (s : st) (i : nat) (p : pc) : st := St (cache s) (next s) (ref s) (info s) (hand s) (pend s) (set (ths s) i p) (bad s) (rets s).
(** AddRef, RefPtr.h 46-50, and Release, 52-64. *)
Definition addref (s : st) (p : nat) : st :=
  St (cache s) (next s) (upd (ref s) p (S (ref s p))) (info s) (hand s) (pend s) (ths s) (bad s || (ref s p =? 0)) (rets s).
Definition release (s : st) (p : nat) : st :=
  St (cache s) (next s) (upd (ref s) p (pred (ref s p))) (info s) (hand s) (pend s) (ths s) (bad s || (ref s p =? 0)) (rets s).
Definition answer (s : st) (r : option (nat * nat)) : st :=
  St (cache s) (next s) (ref s) (info s) (hand s) (pend s) (ths s) (bad s) (r :: rets s).

Definition step (s : st) (a : act) : option st :=
  match a with
  | Read i => match nth_error (ths s) i with
      | Some Out => Some (go s i (match cache s with Some p => Got p | None => Need end)) | _ => None end
  | Ask i z => match nth_error (ths s) i with
      | Some Need =>
          let q := next s in
          let s1 := St (cache s) (S q) (upd (ref s) q 1) (match z with Some z => upd (info s) q z | None => info s end)
                       (hand s) (pend s) (ths s) (bad s) (rets s) in
          Some (match z with Some _ => go s1 i (Made q) | None => answer (go (release s1 q) i Out) None end)
      | _ => None end
  | Cas i => match nth_error (ths s) i with
      | Some (Made q) => Some (match cache s with
          | Some w => go s i (Lost q w)
          | None => go (St (Some q) (next s) (ref s) (info s) (hand s) (pend s) (ths s) (bad s) (rets s)) i (Won q) end)
      | _ => None end
  | DropOwn i => match nth_error (ths s) i with Some (Lost q w) => Some (go (release s q) i (Got w)) | _ => None end
  | Reg i => match nth_error (ths s) i with
      | Some (Won q) => Some (go (St (cache s) (next s) (ref s) (info s) (S (hand s)) (pend s) (ths s) (bad s) (rets s)) i (Got q))
      | _ => None end
  | Ret i => match nth_error (ths s) i with
      | Some (Got p) => Some (answer (go (addref s p) i (Have p)) (Some (p, info s p))) | _ => None end
  | Drop i => match nth_error (ths s) i with Some (Have p) => Some (go (release s p) i Out) | _ => None end
  | Take => match hand s, pend s with
      | S h, None => Some (St None (next s) (ref s) (info s) h (cache s) (ths s) (bad s) (rets s)) | _, _ => None end
  | Free => match pend s with
      | Some p => Some (release (St (cache s) (next s) (ref s) (info s) (hand s) None (ths s) (bad s) (rets s)) p) | None => None end
  end.
Definition init (n : nat) : st := St None 0 (fun _ => 0) (fun _ => 0) 0 None (repeat Out n) false [].
Fixpoint run (s : st) (l : list act) : option st :=
  match l with [] => Some s | a :: l => match step s a with Some s' => run s' l | None => None end end.
