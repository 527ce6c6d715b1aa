(** Model of WhenAny (include/YY/Base/Threading/Task.h 292-371): WhenAnyTaskAsyncOperation with
    InstallCompletedHandler, its handlers, its reference count, and the tasks it waits for.

    Agent 0 is the thread calling WhenAny; agent k+1 is the thread completing task k.  When one thread
    does several of these things they are simply not interleaved.  Memory is sequentially consistent.

    Simplifications:
    - A task is an asynchronous operation as specified for C50: it is decided once ([ph] 1), its hr is
      written ([ph] 2), then its handlers are taken under the lock ([ph] 3) and called.
      AddCompletedHandler and RemoveCompletedHandler under the lock are one step.
    - Handlers of the resulting operation are not modelled (C50); [Cancel] is a Cancel of it. *)
From Coq Require Import List Arith Bool.
From Verif Require Import Slots.
Import ListNotations.

Record task := TK { nul : bool; ph : nat }.
(** WhenAnyTaskAsyncOperationCompletedHandler: [own]: its reference to the operation is set;
    [lnk]: it is in the delegate of its task. *)
Record hand := HD { own : bool; lnk : bool }.
Inductive frame :=
| L (j : nat)        (* InstallCompletedHandler, head of the loop at index j, lines 320-331 *)
| A (j : nat)        (* line 332 *)
| V (j : nat)        (* Resolve(j), lines 325, 334, 306 *)
| B (j : nat)        (* rollback, lines 345-352 *)
| X (j : nat)        (* line 355 *)
| Z (j : nat)        (* line 357 *)
| O (k : nat)        (* OnCompleted, line 305 *)
| Rel.               (* ~RefPtr, line 307 *)
Inductive event := EDec (k : nat) | ERef (k : nat) | ERes (k : nat) | ELost.
(** [usr]: WhenAny, later its caller, has a reference. *)
Record st := ST { ts : list task; hs : list hand; done : bool; refs : nat; usr : bool; ag : list (list frame); log : list event }.
(** Lines 363-369: [nuls] tells which of the given tasks are empty. *)
Definition init (nuls : list bool) : st :=
  ST (map (fun b => TK b 0) nuls) (repeat (HD false false) (length nuls)) false 1 true ([L 0] :: repeat [] (length nuls)) [].

Definition put (s : st) i k := ST (ts s) (hs s) (done s) (refs s) (usr s) (set (ag s) i k) (log s).
Definition say (s : st) e := ST (ts s) (hs s) (done s) (refs s) (usr s) (ag s) (log s ++ [e]).
Definition w_ts (s : st) v := ST v (hs s) (done s) (refs s) (usr s) (ag s) (log s).
Definition w_hs (s : st) v := ST (ts s) v (done s) (refs s) (usr s) (ag s) (log s).
Definition w_done (s : st) := ST (ts s) (hs s) true (refs s) (usr s) (ag s) (log s).
Definition w_refs (s : st) v := ST (ts s) (hs s) (done s) v (usr s) (ag s) (log s).
Definition w_usr (s : st) := ST (ts s) (hs s) (done s) (refs s) false (ag s) (log s).

Definition step (s : st) (i : nat) (f : frame) (k : list frame) : option st :=
  match f with
  | L j =>
      match nth_error (ts s) j, nth_error (hs s) j with
      | Some t, Some h =>
          if nul t then Some (put s i (V j :: B j :: k))
          else Some (put (w_refs (w_hs s (set (hs s) j (HD true (lnk h)))) (S (refs s))) i (A j :: k))
      | _, _ => Some (put s i k)
      end
  | A j =>
      match nth_error (ts s) j, nth_error (hs s) j with
      | Some t, Some h =>
          if ph t =? 0 then Some (put (w_hs s (set (hs s) j (HD (own h) true))) i (L (S j) :: k))
          else Some (say (put s i (V j :: B j :: k)) (ERef j))
      | _, _ => None
      end
  | V j => if done s then Some (say (put s i k) ELost) else Some (say (put (w_done s) i k) (ERes j))
  | B 0 => Some (put s i k)
  | B (S j) =>
      match nth_error (ts s) j with
      | Some t => if nul t then Some (put s i (B j :: k)) else Some (put s i (X j :: k))
      | None => None
      end
  | X j =>
      match nth_error (hs s) j with
      | Some h => if lnk h then Some (put (w_hs s (set (hs s) j (HD (own h) false))) i (Z j :: k)) else Some (put s i (B j :: k))
      | None => None
      end
  | Z j =>
      match nth_error (hs s) j with
      | Some h => Some (put (w_refs (w_hs s (set (hs s) j (HD false (lnk h)))) (refs s - 1)) i (B j :: k))
      | None => None
      end
  | O j =>
      match nth_error (hs s) j with
      | Some h => Some (put (w_hs s (set (hs s) j (HD false (lnk h)))) i (V j :: Rel :: k))
      | None => None
      end
  | Rel => Some (put (w_refs s (refs s - 1)) i k)
  end.
Inductive act := Step (i : nat) | Decide (k : nat) | Write (k : nat) | Move (k : nat) | Cancel | Drop.
Definition exec (s : st) (a : act) : option st :=
  match a with
  | Step i => match nth_error (ag s) i with Some (f :: k) => step s i f k | _ => None end
  | Decide k =>
      match nth_error (ts s) k with
      | Some t => if negb (nul t) && (ph t =? 0) then Some (say (w_ts s (set (ts s) k (TK false 1))) (EDec k)) else None
      | None => None
      end
  | Write k =>
      match nth_error (ts s) k with
      | Some t => if ph t =? 1 then Some (w_ts s (set (ts s) k (TK (nul t) 2))) else None
      | None => None
      end
  | Move k =>
      match nth_error (ts s) k, nth_error (hs s) k with
      | Some t, Some h =>
          if ph t =? 2 then
            let s1 := w_ts s (set (ts s) k (TK (nul t) 3)) in
            if lnk h then Some (put (w_hs s1 (set (hs s) k (HD (own h) false))) (S k) [O k]) else Some s1
          else None
      | _, _ => None
      end
  | Cancel => if usr s then Some (w_done s) else None
  | Drop => if usr s then match nth_error (ag s) 0 with Some [] => Some (w_refs (w_usr s) (refs s - 1)) | _ => None end else None
  end.
Fixpoint run (s : st) (l : list act) : option st :=
  match l with [] => Some s | a :: r => match exec s a with Some s' => run s' r | None => None end end.
