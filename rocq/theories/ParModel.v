(** Model of ParallelTaskRunnerImpl (src/YY/Base/Threading/ParallelTaskRunnerImpl.hpp 129-410): posting,
    the workers, clean-up, Join, Interrupt and the reference count.

    Threads are the elements of [ag]; each action makes one access to shared memory.  Memory is
    sequentially consistent.

    Simplifications:
    - The queue is a list; Push and Pop take effect at once (proved of InterlockedQueue for one pushing and
      one popping thread, C47).  [P4] and [W3], [C1] are the threads inside Push and Pop.
    - A task runs from [EStart] to [EEnd]; what it does is not modelled (C62).
    - [mx] is the effective limit: uParallelMaximum, or the number of processors when it is 0.
    - Posting and joining threads use references of the user, so the last of these is released only when
      no such thread is active.  Join waits without a timeout.  The copy of the 64-bit flags is one access. *)
From Coq Require Import List ZArith Bool Arith.
From Verif Require Import Slots Threads.
Import ListNotations.
Local Open Scope Z_scope.

(** Lines 136-151: bPushLock, bStopWakeup, bInterrupt, bPopLock, uWakeupCount (28 bits, its unsigned value),
    uParallelCurrent. *)
Record flags := FL { lk : bool; sp : bool; it : bool; pl : bool; cn : Z; pr : Z }.
Definition feq (a b : flags) : bool :=
  Bool.eqb (lk a) (lk b) && Bool.eqb (sp a) (sp b) && Bool.eqb (it a) (it b) && Bool.eqb (pl a) (pl b) && (cn a =? cn b) && (pr a =? pr b).
Definition CW : Z := 2 ^ 28.
Definition PW : Z := 2 ^ 32.
(** int32_t uWakeupCount : 28, and (int32_t)uParallelCurrent. *)
Definition scn (f : flags) : Z := if cn f <? 2 ^ 27 then cn f else cn f - CW.
Definition spr (f : flags) : Z := if pr f <? 2 ^ 31 then pr f else pr f - PW.
Definition w_lk f v := FL v (sp f) (it f) (pl f) (cn f) (pr f).
Definition w_sp f v := FL (lk f) v (it f) (pl f) (cn f) (pr f).
Definition w_it f v := FL (lk f) (sp f) v (pl f) (cn f) (pr f).
Definition w_pl f v := FL (lk f) (sp f) (it f) v (cn f) (pr f).
Definition w_cn f v := FL (lk f) (sp f) (it f) (pl f) v (pr f).
Definition w_pr f v := FL (lk f) (sp f) (it f) (pl f) (cn f) v.

(** Lines 246-252: the value to be exchanged by a posting thread, and whether a worker is added. *)
Definition bump (f : flags) : flags := w_lk (w_cn f ((cn f + 1) mod CW)) true.
Definition more (f : flags) (m : Z) : bool := (pr f <? m) && (spr f <=? scn (bump f)).
Definition posted (f : flags) (m : Z) : flags := if more f m then w_pr (bump f) ((pr f + 1) mod PW) else bump f.
(** Lines 371-375: the value to be exchanged after a task, and whether the worker leaves. *)
Definition sunk (f : flags) : flags := w_cn f ((cn f - 1) mod CW).
Definition leave (f : flags) : bool := scn (sunk f) <? spr f.
Definition done (f : flags) : flags := if leave f then w_pr (sunk f) ((pr f - 1) mod PW) else sunk f.

Inductive frame :=
(* PostTaskInternal *)
| P0 (t : nat)                          (* line 226 *)
| P1 (t : nat)                          (* line 232 *)
| P2 (t : nat) (m : Z)                  (* lines 235, 242 *)
| P3 (t : nat) (m : Z) (f : flags)      (* line 254 *)
| P4 (t : nat) (b o : bool)             (* line 257; b: a worker is to be started, o: it is the first *)
| P5 (b o : bool)                       (* line 258 *)
| P6 (b o : bool)                       (* lines 265-273 *)
| P9                                    (* line 274 *)
| P7                                    (* line 278 *)
| P8                                    (* line 279 *)
| RL                                    (* Release, lines 282, 387 *)
(* ExecuteTaskRunner *)
| W0                                    (* scheduled on the thread pool *)
| W1                                    (* line 338 *)
| W1i                                   (* line 341 *)
| W2                                    (* line 298 *)
| W3                                    (* line 300 *)
| W3u (t : option nat)                  (* line 301 *)
| W4 (t : nat)                          (* line 348: the task is running *)
| W5                                    (* line 367 *)
| W6 (f : flags)                        (* line 377 *)
| X0                                    (* line 358 *)
(* operator() *)
| T0 | T1 | T2 | T3                     (* lines 317-319 *)
(* CleanupTaskQueue *)
| C0                                    (* line 395 *)
| C1                                    (* line 399 *)
| C2                                    (* line 406 *)
| DT                                    (* end of the destructor *)
(* Join *)
| J0 | J1.                              (* lines 200, 208 *)

Inductive event :=
| EAcc (t : nat) (late : bool)   (* accepted: compare-exchange done; late: the runner was stopped *)
| EPush (t : nat)
| ERej (t : nat)                 (* refused with ERROR_CANCELLED *)
| EStart (t : nat) | EEnd (t : nat)
| ECan (t : nat)                 (* taken from the queue and cancelled *)
| ENull                          (* a worker found the queue empty *)
| EAlone                         (* IsShared returned false to a worker *)
| EZero                          (* uParallelCurrent became 0 at line 358 *)
| ECln                           (* CleanupTaskQueue finished *)
| EInt | EFail | EFull | EJoin.  (* as for the sequenced runner *)

(** [us]: references of the user; [rc]: uRef; [fre]: destroyed; [uaf]: accessed after that;
    [hm]: the largest limit so far. *)
Record st := ST { fl : flags; q : list nat; mx : Z; hm : Z; us : nat; rc : nat; fre : bool; uaf : bool; ag : list (list frame); log : list event }.
Definition init (m : Z) : st := ST (FL false false false false 0 0) [] m m 1 1 false false [] [].

Definition put (s : st) i k := ST (fl s) (q s) (mx s) (hm s) (us s) (rc s) (fre s) (uaf s) (set (ag s) i k) (log s).
Definition add (s : st) k := ST (fl s) (q s) (mx s) (hm s) (us s) (rc s) (fre s) (uaf s) (ag s ++ [k]) (log s).
Definition say (s : st) e := ST (fl s) (q s) (mx s) (hm s) (us s) (rc s) (fre s) (uaf s) (ag s) (log s ++ e).
Definition w_fl (s : st) v := ST v (q s) (mx s) (hm s) (us s) (rc s) (fre s) (uaf s) (ag s) (log s).
Definition w_q (s : st) v := ST (fl s) v (mx s) (hm s) (us s) (rc s) (fre s) (uaf s) (ag s) (log s).
Definition w_rc (s : st) v := ST (fl s) (q s) (mx s) (hm s) (us s) v (fre s) (uaf s) (ag s) (log s).
Definition w_us (s : st) v := ST (fl s) (q s) (mx s) (hm s) v (rc s) (fre s) (uaf s) (ag s) (log s).

Definition shared (s : st) : bool := Nat.ltb 1 (rc s).
(** Lines 239-252: what the value read leads to. *)
Definition look (t : nat) (m : Z) (f : flags) : frame := if lk f then P2 t m else P3 t m f.

Definition step (s : st) (i : nat) (f : frame) (k : list frame) : option st :=
  match f with
  | P0 t => if sp (fl s) then Some (say (put s i k) [ERej t]) else Some (put s i (P1 t :: k))
  | P1 t => Some (put s i (P2 t (mx s) :: k))
  | P2 t m => Some (put s i (look t m (fl s) :: k))
  | P3 t m f =>
      if feq (fl s) f then
        Some (say (put (w_fl s (posted f m)) i (P4 t (more f m) (pr f =? 0) :: k)) (EAcc t (sp f) :: if scn (bump f) <=? 0 then [EFull] else []))
      else Some (put s i (look t m (fl s) :: k))
  | P4 t b o => Some (say (put (w_q s (q s ++ [t])) i (P5 b o :: k)) [EPush t])
  | P5 b o => Some (put (w_fl s (w_lk (fl s) false)) i (P6 b o :: k))
  | P6 b o => if b then if o then Some (put (w_rc s (S (rc s))) i (P9 :: k)) else Some (put s i (P9 :: k)) else Some (put s i k)
  | P9 => Some (add (put s i k) [W0; T0])
  | P7 => Some (put (w_fl s (w_sp (fl s) true)) i (P8 :: k))
  | P8 =>
      let p := (pr (fl s) - 1) mod PW in
      let s1 := w_fl s (w_pr (fl s) p) in
      if p =? 0 then Some (put s1 i (RL :: k)) else Some (put s1 i k)
  | RL => if Nat.eqb (rc s) 1 then Some (put (w_rc s 0) i (C0 :: DT :: k)) else Some (put (w_rc s (rc s - 1)) i k)
  | W0 => Some (put s i (W1 :: k))
  | W1 => if shared s then Some (put s i (W1i :: k)) else Some (say (put s i (X0 :: k)) [EAlone])
  | W1i => if it (fl s) then Some (put s i (X0 :: k)) else Some (put s i (W2 :: k))
  | W2 => if pl (fl s) then Some (put s i (W2 :: k)) else Some (put (w_fl s (w_pl (fl s) true)) i (W3 :: k))
  | W3 =>
      match q s with
      | [] => Some (say (put s i (W3u None :: k)) [ENull])
      | t :: r => Some (say (put (w_q s r) i (W3u (Some t) :: k)) [EStart t])
      end
  | W3u t =>
      let s1 := w_fl s (w_pl (fl s) false) in
      match t with Some t => Some (put s1 i (W4 t :: k)) | None => Some (put s1 i (X0 :: k)) end
  | W4 t => Some (say (put s i (W5 :: k)) [EEnd t])
  | W5 => Some (put s i (W6 (fl s) :: k))
  | W6 f =>
      if feq (fl s) f then
        let s1 := w_fl s (done f) in
        if pr (done f) =? 0 then Some (put s1 i (RL :: if leave f then k else W1 :: k))
        else if leave f then Some (put s1 i k) else Some (put s1 i (W1 :: k))
      else Some (put s i (W6 (fl s) :: k))
  | X0 =>
      let p := (pr (fl s) - 1) mod PW in
      Some (say (put (w_fl s (w_pr (fl s) p)) i k) (if p =? 0 then [EZero] else []))
  | T0 => if shared s then Some (put s i (T1 :: k)) else Some (say (put s i (C0 :: k)) [EAlone])
  | T1 => if it (fl s) then Some (put s i (C0 :: k)) else Some (put s i (T2 :: k))
  | T2 => if sp (fl s) then Some (put s i (T3 :: k)) else Some (put s i k)
  | T3 => if cn (fl s) =? 0 then Some (put s i (C0 :: k)) else Some (put s i k)
  | C0 => if pl (fl s) then Some (put s i k) else Some (put (w_fl s (w_pl (fl s) true)) i (C1 :: k))
  | C1 =>
      match q s with
      | [] => Some (put s i (C2 :: k))
      | t :: r => Some (say (put (w_q s r) i (C1 :: k)) [ECan t])
      end
  | C2 => Some (say (put (w_fl s (FL false true true false 0 (pr (fl s)))) i k) [ECln])
  | DT => Some (ST (fl s) (q s) (mx s) (hm s) (us s) (rc s) true (uaf s) (set (ag s) i k) (log s))
  | J0 =>
      let s1 := w_fl s (w_sp (fl s) true) in
      if cn (fl s) =? 0 then Some (say (put s1 i k) [EJoin]) else Some (put s1 i (J1 :: k))
  | J1 => if feq (fl s) (FL false true true false 0 (pr (fl s))) then Some (say (put s i k) [EJoin]) else None
  end.

Inductive act := Step (i : nat) | Post (t : nat) | Join | Interrupt | Fail (i : nat) | Limit (m : Z) | Copy | Drop.
(** A thread using a reference of the user. *)
Definition isp (f : frame) : bool := match f with P0 _ | P1 _ | P2 _ _ | P3 _ _ _ | P4 _ _ _ | P5 _ _ | P6 _ _ | P9 | P7 | P8 | RL | J0 | J1 => true | _ => false end.
Definition user (k : list frame) : bool := match k with [f] => isp f | _ => false end.
Definition exec (s : st) (a : act) : option st :=
  match a with
  | Step i =>
      match nth_error (ag s) i with
      | Some (f :: k) =>
          if fre s then Some (ST (fl s) (q s) (mx s) (hm s) (us s) (rc s) true true (ag s) (log s)) else step s i f k
      | _ => None
      end
  | Post t => if Nat.eqb (us s) 0 then None else Some (add s [P0 t])
  | Join => if Nat.eqb (us s) 0 then None else Some (add s [J0])
  | Interrupt => if Nat.eqb (us s) 0 then None else Some (say (w_fl s (w_it (w_sp (fl s) true) true)) [EInt])      (* line 218 *)
  | Fail i => match nth_error (ag s) i with Some (P9 :: k) => Some (say (put s i (P7 :: k)) [EFail]) | _ => None end   (* lines 275-278 *)
  | Limit m =>   (* SetParallelMaximum *)
      if Nat.eqb (us s) 0 || negb ((1 <=? m) && (m <? PW)) then None
      else Some (ST (fl s) (q s) m (Z.max (hm s) m) (us s) (rc s) (fre s) (uaf s) (ag s) (log s))
  | Copy => if Nat.eqb (us s) 0 then None else Some (w_us (w_rc s (S (rc s))) (S (us s)))
  | Drop =>
      match us s with
      | O => None
      | S O => if existsb user (ag s) then None else
          if Nat.eqb (rc s) 1 then Some (add (w_us (w_rc s 0) 0) [C0; DT]) else Some (w_us (w_rc s (rc s - 1)) 0)
      | S n => Some (w_us (w_rc s (rc s - 1)) n)
      end
  end.
Fixpoint run (s : st) (l : list act) : option st :=
  match l with [] => Some s | a :: r => match exec s a with Some s' => run s' r | None => None end end.
