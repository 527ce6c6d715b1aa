(** Model of one asynchronous operation: AsyncInfo, AsyncOperation, AsyncOperationImpl
    (include/YY/Base/Threading/Async.h 33-545) and of attaching a continuation with Then
    (include/YY/Base/Threading/Task.h 118-132, 485-512).

    A thread is a stack of calls; the top one takes the next step, one access to shared memory each.
    A handler's OnCompleted looks at the operation as a continuation does and may then make further
    calls on the same operation: [prog h] lists them.  Memory is sequentially consistent.

    Simplifications:
    - A Delegate is the list of its handlers (C70); its operations run under the lock and are one step.
    - A handler is not added while it is the only one registered (C70_AddHandler_refuted).
    - SRWLock is a lock: Lock waits until it is free (C43, C44).
    - An exception and a result are numbers; copying them is one step.
    - The order of GetExceptionPtr and GetErrorCode as arguments is unspecified: the exception comes first.
    - WaitOnAddress returns when the value differs; [Spur] is a return without reason, which its
      documentation allows.  No timeouts.
    - [tok]: IsCancellationRequested of the cancellation token; it stays false without a token. *)
From Coq Require Import List Arith ZArith Bool.
From Verif Require Import Slots.
Import ListNotations.

(** AsyncStatus, lines 21-31 *)
Inductive status := Started | Completed | Canceled | Error.
Definition S_OK : Z := 0.
Definition E_PENDING : Z := 0x8000000A.
Definition E_UNEXPECTED : Z := 0x8000FFFF.
Definition E_CANCELLED : Z := 0x800704C7.  (* __HRESULT_FROM_WIN32(ERROR_CANCELLED) *)
Definition is (a b : status) : bool :=
  match a, b with Started, Started | Completed, Completed | Canceled, Canceled | Error, Error => true | _, _ => false end.
(** SetErrorCode, SetExceptionPtr: lines 216-219, 234-237 *)
Definition norm (e : Z) : Z := if ((e =? E_PENDING) || (e =? S_OK))%Z then E_UNEXPECTED else e.

Inductive call :=
| OResolve (v : nat) | OCancel | OError (e : Z) | OExc (p : nat) (e : Z)
| OAdd (h : nat) | OThen (h : nat) | ORem (h : nat) | OGet (w : nat).
(** Who asked IsCanceled. *)
Inductive kont := KRes (v : nat) | KGet1 (w : nat) | KGet2 (w : nat).
Inductive seen := GVal (r : option nat) | GExn (p : nat) | GCode (e : Z) | GCancel | GFail | GBad.
(** [r]: the value the completing call returns.  [late] (ghost): was the operation decided when the call
    started?  [dn] (ghost): was hr already written?  [sp] (ghost): did the wait return without reason? *)
Inductive frame :=
| IsC (n : nat) (k : kont)                           (* IsCanceled, lines 119-127, the n-th read *)
| VCas (v : nat) | VWr (v : nat)                     (* Resolve, lines 463, 468 *)
| XCas (r : bool)                                    (* Cancel, line 110 *)
| ECas (e : Z)                                       (* SetErrorCode, line 211 *)
| PCas (p : nat) (e : Z) | PWr (p : nat) (e : Z)     (* SetExceptionPtr, lines 227, 232 *)
| N1 (c : Z) (r : bool)                              (* NotifyCompletedHandlers, lines 311-312 *)
| NLock (r : bool)                                   (* line 315 *)
| NMove (r : bool)                                   (* line 316 *)
| NRel (l : list nat) (r : bool)                     (* line 317 *)
| NLoop (l : list nat) (r : bool)                    (* lines 319-323 *)
| ALock (h : nat) (t late : bool)                    (* AddCompletedHandler, line 289; [t]: called by Then *)
| AChk (h : nat) (t late : bool)                     (* line 291 *)
| AAdd (h : nat) (t late : bool)                     (* line 296 *)
| ARel (h : nat) (t b : bool)                        (* ~AutoLock *)
| DLock (h : nat) | DRem (h : nat) | DRel            (* RemoveCompletedHandler, lines 304-305 *)
| TStat (h : nat)                                    (* Then, Task.h 129 *)
| TEp (h : nat) (late : bool) (st : status) (dn : bool)                      (* Task.h 490: GetExceptionPtr *)
| THr (h : nat) (late : bool) (st : status) (dn : bool) (ep : option nat)    (* Task.h 490: GetErrorCode *)
| GWait (w : nat)                                    (* WaitTask, line 160 *)
| GStat (w : nat) (sp : bool)                        (* ThrowIfWaitTaskFailed, line 175 *)
| GEp (w : nat) (sp : bool)                          (* line 184 *)
| GHr (w : nat) (sp : bool)                          (* line 189 *)
| GRes (w : nat) (sp : bool)                         (* GetResult, line 428 *)
| Script (l : list call).                            (* the rest of OnCompleted *)
(** How the operation ended: status, hr, exception, result. *)
Record out := OUT { o_st : status; o_hr : Z; o_ep : option nat; o_rs : option nat }.
Inductive event :=
| EStart (c : call) | ETok
| EDecide (o : out) | EFin (r : bool) | ELose
| EAdd (h : nat) (late b : bool) | ERem (h : nat) (b : bool) | EMove | ECall (h : nat) (st : status)
| ESee (h : nat) (late dn : bool) (st : status) (ep : option nat) (e : Z)
| EGet (w : nat) (sp : bool) (r : seen).
Record mem := MEM { stt : status; hr : Z; ept : option nat; res : option nat; tok : bool; own : option nat; dl : list nat }.
Record st := ST { m : mem; ag : list (list frame); log : list event }.
Definition init (n : nat) : st := ST (MEM Started E_PENDING None None false None []) (repeat [] n) [].

Definition put (s : st) (i : nat) (k : list frame) : st := ST (m s) (set (ag s) i k) (log s).
Definition say (s : st) (e : event) : st := ST (m s) (ag s) (log s ++ [e]).
Definition setm (s : st) (x : mem) : st := ST x (ag s) (log s).
Definition w_st (x : mem) v := MEM v (hr x) (ept x) (res x) (tok x) (own x) (dl x).
Definition w_hr (x : mem) v := MEM (stt x) v (ept x) (res x) (tok x) (own x) (dl x).
Definition w_ep (x : mem) v := MEM (stt x) (hr x) v (res x) (tok x) (own x) (dl x).
Definition w_rs (x : mem) v := MEM (stt x) (hr x) (ept x) v (tok x) (own x) (dl x).
Definition w_tok (x : mem) := MEM (stt x) (hr x) (ept x) (res x) true (own x) (dl x).
Definition w_own (x : mem) v := MEM (stt x) (hr x) (ept x) (res x) (tok x) v (dl x).
Definition w_dl (x : mem) v := MEM (stt x) (hr x) (ept x) (res x) (tok x) (own x) v.

Definition isin (h : nat) (l : list nat) : bool := existsb (Nat.eqb h) l.
Definition pending (f : frame) : list nat := match f with NRel l _ | NLoop l _ => l | _ => [] end.
(** Delegate.h 37-41: is the handler in some delegate? *)
Definition linked (s : st) (h : nat) : bool := isin h (dl (m s)) || existsb (fun k => existsb (fun f => isin h (pending f)) k) (ag s).

Definition enter (s : st) (c : call) : frame :=
  let late := negb (is (stt (m s)) Started) in
  match c with
  | OResolve v => IsC 0 (KRes v)
  | OCancel => XCas true
  | OError e => ECas e
  | OExc p e => PCas p e
  | OAdd h => ALock h false late
  | OThen h => ALock h true late
  | ORem h => DLock h
  | OGet w => IsC 0 (KGet1 w)
  end.
(** What happens when IsCanceled returns [b]. *)
Definition answer (s : st) (i : nat) (k : list frame) (q : kont) (b : bool) : st :=
  match q, b with
  | KRes v, false => put s i (VCas v :: k)
  | KRes v, true => put s i (XCas false :: k)
  | KGet1 w, false => put s i (IsC 0 (KGet2 w) :: k)
  | KGet1 w, true => say (put s i k) (EGet w false GCancel)
  | KGet2 w, false => put s i (GWait w :: k)
  | KGet2 w, true => say (put s i k) (EGet w false GFail)
  end.
(** The compare-exchange of the status. *)
Definition decide (s : st) (i : nat) (k : list frame) (o : out) (f : frame) : st :=
  if is (stt (m s)) Started then say (put (setm s (w_st (m s) (o_st o))) i (f :: k)) (EDecide o)
  else say (put s i k) ELose.

Section Async.
Variable prog : nat -> list call.

Definition step (s : st) (i : nat) (f : frame) (k : list frame) : option st :=
  match f with
  | IsC 0 q => if is (stt (m s)) Completed then Some (answer s i k q false) else Some (put s i (IsC 1 q :: k))
  | IsC 1 q => if is (stt (m s)) Canceled then Some (answer s i k q true) else Some (put s i (IsC 2 q :: k))
  | IsC _ q => Some (answer s i k q (tok (m s)))
  | VCas v => Some (decide s i k (OUT Completed S_OK None (Some v)) (VWr v))
  | VWr v => Some (put (setm s (w_rs (m s) (Some v))) i (N1 S_OK true :: k))
  | XCas r => Some (decide s i k (OUT Canceled E_CANCELLED None None) (N1 E_CANCELLED r))
  | ECas e => Some (decide s i k (OUT Error (norm e) None None) (N1 (norm e) true))
  | PCas p e => Some (decide s i k (OUT Error (norm e) (Some p) None) (PWr p e))
  | PWr p e => Some (put (setm s (w_ep (m s) (Some p))) i (N1 (norm e) true :: k))
  | N1 c r => Some (put (setm s (w_hr (m s) c)) i (NLock r :: k))
  | NLock r => match own (m s) with None => Some (put (setm s (w_own (m s) (Some i))) i (NMove r :: k)) | Some _ => None end
  | NMove r => Some (say (put (setm s (w_dl (m s) [])) i (NRel (dl (m s)) r :: k)) EMove)
  | NRel l r => Some (put (setm s (w_own (m s) None)) i (NLoop l r :: k))
  | NLoop [] r => Some (say (put s i k) (EFin r))
  | NLoop (h :: l) r =>
      let x := stt (m s) in
      let f := if is x Completed then IsC 0 (KGet1 h) else TEp h false x (negb (hr (m s) =? E_PENDING)%Z) in
      Some (say (put s i (f :: Script (prog h) :: NLoop l r :: k)) (ECall h x))
  | ALock h t b => match own (m s) with None => Some (put (setm s (w_own (m s) (Some i))) i (AChk h t b :: k)) | Some _ => None end
  | AChk h t b =>
      if is (stt (m s)) Started then Some (put s i (AAdd h t b :: k))
      else Some (say (put s i (ARel h t false :: k)) (EAdd h b false))
  | AAdd h t b =>
      if linked s h then
        match dl (m s) with
        | [_] => None                                (* see the simplifications *)
        | _ => Some (say (put s i (ARel h t false :: k)) (EAdd h b false))
        end
      else Some (say (put (setm s (w_dl (m s) (dl (m s) ++ [h]))) i (ARel h t true :: k)) (EAdd h b true))
  | ARel h t b => Some (put (setm s (w_own (m s) None)) i (if t && negb b then TStat h :: k else k))
  | DLock h => match own (m s) with None => Some (put (setm s (w_own (m s) (Some i))) i (DRem h :: k)) | Some _ => None end
  | DRem h => Some (say (put (setm s (w_dl (m s) (remove Nat.eq_dec h (dl (m s))))) i (DRel :: k)) (ERem h (isin h (dl (m s)))))
  | DRel => Some (put (setm s (w_own (m s) None)) i k)
  | TStat h =>
      let x := stt (m s) in
      Some (put s i ((if is x Completed then IsC 0 (KGet1 h) else TEp h true x (negb (hr (m s) =? E_PENDING)%Z)) :: k))
  | TEp h b x d => Some (put s i (THr h b x d (ept (m s)) :: k))
  | THr h b x d p => Some (say (put s i k) (ESee h b d x p (hr (m s))))
  | GWait w => if (hr (m s) =? E_PENDING)%Z then None else Some (put s i (GStat w false :: k))
  | GStat w sp =>
      match stt (m s) with
      | Completed => Some (put s i (GRes w sp :: k))
      | Canceled => Some (say (put s i k) (EGet w sp GCancel))
      | Error => Some (put s i (GEp w sp :: k))
      | Started => Some (say (put s i k) (EGet w sp GBad))
      end
  | GEp w sp => match ept (m s) with Some p => Some (say (put s i k) (EGet w sp (GExn p))) | None => Some (put s i (GHr w sp :: k)) end
  | GHr w sp => Some (say (put s i k) (EGet w sp (GCode (hr (m s)))))
  | GRes w sp => Some (say (put s i k) (EGet w sp (GVal (res (m s)))))
  | Script [] => Some (put s i k)
  | Script (c :: l) => Some (say (put s i (enter s c :: Script l :: k)) (EStart c))
  end.
Inductive act := Start (i : nat) (c : call) | Step (i : nat) | Spur (i : nat) | Tok.
Definition exec (s : st) (a : act) : option st :=
  match a with
  | Start i c => match nth_error (ag s) i with Some [] => Some (say (put s i [enter s c]) (EStart c)) | _ => None end
  | Step i => match nth_error (ag s) i with Some (f :: k) => step s i f k | _ => None end
  | Spur i => match nth_error (ag s) i with Some (GWait w :: k) => Some (put s i (GStat w true :: k)) | _ => None end
  | Tok => Some (say (setm s (w_tok (m s))) ETok)
  end.
Fixpoint run (s : st) (l : list act) : option st :=
  match l with [] => Some s | a :: r => match exec s a with Some s' => run s' r | None => None end end.
End Async.
