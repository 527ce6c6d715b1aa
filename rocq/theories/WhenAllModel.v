(** Model of WhenAll (include/YY/Base/Threading/Task.h 216-283): WhenAllTaskAsyncOperation with
    InstallCompletedHandler and OnCompleted, its reference count, and the tasks it waits for.

    Agent 0 is the thread calling WhenAll; agent k+1 is the thread completing task k.  When one thread
    does several of these things they are simply not interleaved.  Memory is sequentially consistent.

    Simplifications:
    - A task is an asynchronous operation as specified for C50: it is decided once ([ph] 1), its hr is
      written ([ph] 2), then its handlers are taken under the lock ([ph] 3) and called.
      AddCompletedHandler under the lock is one step.
    - cchPendingTasks and pAsyncOperations are read and written within one step; C52_exclusive shows that
      no other thread uses them at the same time.
    - Handlers of the resulting operation are not modelled (C50); [Cancel] is a Cancel of it. *)
From Coq Require Import List Arith ZArith Bool.
From Verif Require Import Slots AsyncModel.
Import ListNotations.

Record task := TK { nul : bool; ph : nat; ost : status; ohr : Z }.
Inductive frame :=
| I1                              (* InstallCompletedHandler, lines 232-239, 240-244 *)
| Add (j : nat)                   (* line 246 *)
| Sta (j : nat)                   (* line 248: GetStatus *)
| On (j : nat) (x : status)       (* OnCompleted, lines 253-257 *)
| Hr (j : nat)                    (* line 259: GetErrorCode *)
| Cas (c : Z)                     (* line 260 *)
| Dec                             (* lines 263-264, 270 *)
| Res                             (* line 266 *)
| Rel.                            (* ~RefPtr of _pThis, line 256 *)
Inductive event := EDec (k : nat) | ESee (k : nat) (c : Z) | ERes (v : Z) | ELost.
(** [reg]: the task in whose delegate the handler is.  [usr]: WhenAll, later its caller, has a reference. *)
Record st := ST {
  ts : list task; reg : option nat; cch : nat; hr1 : Z; done : bool; refs : nat; usr : bool;
  ag : list (list frame); log : list event }.
(** Lines 227-228, 274-281: [nuls] tells which of the given tasks are empty. *)
Definition init (nuls : list bool) : st :=
  ST (map (fun b => TK b 0 Started E_PENDING) nuls) None (length nuls) S_OK false 1 true ([I1] :: repeat [] (length nuls)) [].

Definition put (s : st) i k := ST (ts s) (reg s) (cch s) (hr1 s) (done s) (refs s) (usr s) (set (ag s) i k) (log s).
Definition say (s : st) e := ST (ts s) (reg s) (cch s) (hr1 s) (done s) (refs s) (usr s) (ag s) (log s ++ [e]).
Definition w_ts (s : st) v := ST v (reg s) (cch s) (hr1 s) (done s) (refs s) (usr s) (ag s) (log s).
Definition w_reg (s : st) v := ST (ts s) v (cch s) (hr1 s) (done s) (refs s) (usr s) (ag s) (log s).
Definition w_cch (s : st) v := ST (ts s) (reg s) v (hr1 s) (done s) (refs s) (usr s) (ag s) (log s).
Definition w_hr1 (s : st) v := ST (ts s) (reg s) (cch s) v (done s) (refs s) (usr s) (ag s) (log s).
Definition w_done (s : st) := ST (ts s) (reg s) (cch s) (hr1 s) true (refs s) (usr s) (ag s) (log s).
Definition w_refs (s : st) v := ST (ts s) (reg s) (cch s) (hr1 s) (done s) v (usr s) (ag s) (log s).
Definition w_usr (s : st) := ST (ts s) (reg s) (cch s) (hr1 s) (done s) (refs s) false (ag s) (log s).

Definition step (s : st) (i : nat) (f : frame) (k : list frame) : option st :=
  match f with
  | I1 =>
      if cch s =? 0 then Some (put s i k)
      else
        let j := length (ts s) - cch s in
        match nth_error (ts s) j with
        | None => None
        | Some t =>
            let s1 := w_refs s (S (refs s)) in
            if nul t then Some (put s1 i (On j Completed :: Rel :: k)) else Some (put s1 i (Add j :: k))
        end
  | Add j =>
      match nth_error (ts s) j with
      | None => None
      | Some t => if ph t =? 0 then Some (put (w_reg s (Some j)) i k) else Some (put s i (Sta j :: k))
      end
  | Sta j => match nth_error (ts s) j with None => None | Some t => Some (put s i (On j (ost t) :: Rel :: k)) end
  | On j x =>
      match x with
      | Completed => Some (put s i (Dec :: k))
      | Canceled => Some (put s i (Cas E_CANCELLED :: k))
      | _ => Some (put s i (Hr j :: k))
      end
  | Hr j =>
      match nth_error (ts s) j with
      | None => None
      | Some t => let c := if 2 <=? ph t then ohr t else E_PENDING in Some (say (put s i (Cas c :: k)) (ESee j c))
      end
  | Cas c => Some (put (if (hr1 s =? S_OK)%Z then w_hr1 s c else s) i (Dec :: k))
  | Dec =>
      let s1 := w_cch s (cch s - 1) in
      if cch s1 =? 0 then Some (put s1 i (Res :: k)) else Some (put s1 i (I1 :: k))
  | Res => if done s then Some (say (put s i k) ELost) else Some (say (put (w_done s) i k) (ERes (hr1 s)))
  | Rel => Some (put (w_refs s (refs s - 1)) i k)
  end.
(** [ok x e]: outcomes with which a task can end (C50_once). *)
Definition ok (x : status) (e : Z) : bool :=
  match x with
  | Completed => (e =? S_OK)%Z
  | Canceled => (e =? E_CANCELLED)%Z
  | Error => negb (e =? S_OK)%Z && negb (e =? E_PENDING)%Z
  | Started => false
  end.
Inductive act := Step (i : nat) | Decide (k : nat) (x : status) (e : Z) | Write (k : nat) | Move (k : nat) | Cancel | Drop.
Definition exec (s : st) (a : act) : option st :=
  match a with
  | Step i => match nth_error (ag s) i with Some (f :: k) => step s i f k | _ => None end
  | Decide k x e =>
      match nth_error (ts s) k with
      | Some t => if negb (nul t) && (ph t =? 0) && ok x e then Some (say (w_ts s (set (ts s) k (TK false 1 x e))) (EDec k)) else None
      | None => None
      end
  | Write k =>
      match nth_error (ts s) k with
      | Some t => if ph t =? 1 then Some (w_ts s (set (ts s) k (TK (nul t) 2 (ost t) (ohr t)))) else None
      | None => None
      end
  | Move k =>
      match nth_error (ts s) k with
      | Some t =>
          if ph t =? 2 then
            let s1 := w_ts s (set (ts s) k (TK (nul t) 3 (ost t) (ohr t))) in
            if match reg s with Some j => j =? k | None => false end
            then Some (put (w_reg s1 None) (S k) [On k (ost t); Rel])
            else Some s1
          else None
      | None => None
      end
  | Cancel => if usr s then Some (w_done s) else None
  | Drop => if usr s then match nth_error (ag s) 0 with Some [] => Some (w_refs (w_usr s) (refs s - 1)) | _ => None end else None
  end.
Fixpoint run (s : st) (l : list act) : option st :=
  match l with [] => Some s | a :: r => match exec s a with Some s' => run s' r | None => None end end.
