(** Model of CancellationTokenSource (include/YY/Base/Threading/CancellationToken.h 128-202).

    A thread is a stack of calls; the top one takes the next step.  A handler's OnCanceled may itself
    call Register, Unregister and Cancel of the same token: [prog h] lists the calls it makes.  Memory
    is sequentially consistent.

    Simplifications:
    - A Delegate is the list of its handlers (C70 relates DoublyLinkedList to lists); its operations run
      under the lock and are one step ([C49_exclusive] below).
    - A handler is not registered while it is the only one registered; what happens then is
      [C49_twice_refuted].
    - CriticalSection is its owner and its counter; [first] is the counter's value after the first Lock:
      0 in the code (src/YY/Base/Sync/CriticalSection.cpp 22), 1 in a corrected version.  Lock and Unlock
      are one step each; LockModel models their interleavings.  The counter does not wrap. *)
From Coq Require Import List Arith ZArith Bool.
From Verif Require Import Slots.
Import ListNotations.

Inductive call := OReg (h : nat) | OUnreg (h : nat) | OCancel.
(** [late] (ghost): was cancellation already requested when the call started? *)
Inductive frame :=
| RLock (h : nat) (late : bool)     (* Register, line 155 *)
| RChk (h : nat) (late : bool)      (* Register, line 156 *)
| RAdd (h : nat) (late : bool)      (* Register, line 161 *)
| RRel                              (* Register: ~AutoLock *)
| ULock (h : nat)                   (* Unregister, line 171 *)
| URem (h : nat)                    (* Unregister, line 172 *)
| URel                              (* Unregister: ~AutoLock *)
| CXchg                             (* Cancel, line 177 *)
| CLock                             (* Cancel, line 185 *)
| CMove                             (* Cancel, line 186 *)
| CLoop (pend : list nat)           (* Cancel, lines 188-192: Invoke *)
| CRel                              (* Cancel: ~AutoLock, line 193 *)
| Script (l : list call).           (* inside OnCanceled *)
Inductive event :=
| EReg (h : nat) (late b : bool) | EUnreg (h : nat) (b : bool) | EReq | EMove | ECall (h : nat) | ECancel (b : bool).
Record st := ST { canc : bool; own : option nat; cnt : Z; cb : list nat; ag : list (list frame); log : list event }.
Definition init (n : nat) : st := ST false None 0 [] (repeat [] n) [].

Section Cancel.
Variable prog : nat -> list call.
Variable first : Z.

Definition put (s : st) (i : nat) (k : list frame) : st := ST (canc s) (own s) (cnt s) (cb s) (set (ag s) i k) (log s).
Definition say (s : st) (e : event) : st := ST (canc s) (own s) (cnt s) (cb s) (ag s) (log s ++ [e]).
Definition set_cb (s : st) (l : list nat) : st := ST (canc s) (own s) (cnt s) l (ag s) (log s).
Definition set_lk (s : st) (o : option nat) (c : Z) : st := ST (canc s) o c (cb s) (ag s) (log s).
Definition set_canc (s : st) : st := ST true (own s) (cnt s) (cb s) (ag s) (log s).

(** CriticalSection.cpp 14-31 *)
Definition acquire (s : st) (i : nat) : option st :=
  match own s with
  | None => Some (set_lk s (Some i) first)
  | Some j => if j =? i then Some (set_lk s (own s) (cnt s + 1)) else None
  end.
(** CriticalSection.cpp 45-52 *)
Definition release (s : st) : st := if (cnt s - 1 =? 0)%Z then set_lk s None 0 else set_lk s (own s) (cnt s - 1).

Definition isin (h : nat) (l : list nat) : bool := existsb (Nat.eqb h) l.
(** Handlers that some delegate holds (their links are not null; Delegate.h 37-41). *)
Definition pending (f : frame) : list nat := match f with CLoop p => p | _ => [] end.
Definition linked (s : st) (h : nat) : bool := isin h (cb s) || existsb (fun k => existsb (fun f => isin h (pending f)) k) (ag s).

Definition enter (s : st) (c : call) : frame :=
  match c with OReg h => RLock h (canc s) | OUnreg h => ULock h | OCancel => CXchg end.
Definition call_step (s : st) (i : nat) (f : frame) (k : list frame) : option st :=
  match f with
  | RLock h b => match acquire s i with Some s' => Some (put s' i (RChk h b :: k)) | None => None end
  | RChk h b => if canc s then Some (say (put s i (RRel :: k)) (EReg h b false)) else Some (put s i (RAdd h b :: k))
  | RAdd h b =>
      if linked s h then
        match cb s with
        | [_] => None                                  (* see the simplifications *)
        | _ => Some (say (put s i (RRel :: k)) (EReg h b false))
        end
      else Some (say (put (set_cb s (cb s ++ [h])) i (RRel :: k)) (EReg h b true))
  | RRel | URel => Some (put (release s) i k)
  | ULock h => match acquire s i with Some s' => Some (put s' i (URem h :: k)) | None => None end
  | URem h => Some (say (put (set_cb s (remove Nat.eq_dec h (cb s))) i (URel :: k)) (EUnreg h (isin h (cb s))))
  | CXchg => if canc s then Some (say (put s i k) (ECancel false)) else Some (say (put (set_canc s) i (CLock :: k)) EReq)
  | CLock => match acquire s i with Some s' => Some (put s' i (CMove :: k)) | None => None end
  | CMove => Some (say (put (set_cb s []) i (CLoop (cb s) :: k)) EMove)
  | CLoop [] => Some (put s i (CRel :: k))
  | CLoop (h :: p) => Some (say (put s i (Script (prog h) :: CLoop p :: k)) (ECall h))
  | CRel => Some (say (put (release s) i k) (ECancel true))
  | Script [] => Some (put s i k)
  | Script (c :: r) => Some (put s i (enter s c :: Script r :: k))
  end.
Inductive act := Start (i : nat) (c : call) | Step (i : nat).
Definition exec (s : st) (a : act) : option st :=
  match a with
  | Start i c => match nth_error (ag s) i with Some [] => Some (put s i [enter s c]) | _ => None end
  | Step i => match nth_error (ag s) i with Some (f :: k) => call_step s i f k | _ => None end
  end.
Fixpoint run (s : st) (l : list act) : option st :=
  match l with [] => Some s | a :: r => match exec s a with Some s' => run s' r | None => None end end.
End Cancel.
