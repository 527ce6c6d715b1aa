(** Model of the scope guards: AutoCleanupImpl and MakeAutoCleanup
    (include/YY/Base/Utils/AutoCleanup.h 36-64), AutoLock and AutoSharedLock
    (include/YY/Base/Sync/AutoLock.h 14-55) with SRWLock (include/YY/Base/Sync/SRWLock.h
    14-60, the Windows side; the other side is declared in 64-92 and defined nowhere) or
    CriticalSection (its inner workings: C45).

    Simplified: a function is a list of statements of which only guards, blocks, exceptions
    and numbered actions are seen; callbacks are numbers; a callback given as an lvalue is not
    changed while its guard lives (the guard keeps only a reference to it: Lambda is F& then,
    line 40); a reader is never stopped by a writer that only waits. *)
From Coq Require Import List Bool Arith.
From Verif Require Import Slots Threads.
Import ListNotations.

Inductive stmt :=
| Do (n : nat)
| Throw
| Cleanup (c : nat)                    (* auto _oCleanup = MakeAutoCleanup(c); *)
| Lock (sh : bool) (l : nat)           (* AutoLock or, if sh, AutoSharedLock of l *)
| Block (b : list stmt)
| Try (b h : list stmt).               (* try b catch (...) h *)

(** What is seen from outside. *)
Inductive ev := Did (n : nat) | Open (c : nat) | Clean (c : nat) | Acq (sh : bool) (l : nat) | Rel (sh : bool) (l : nat).
Inductive out := Ok | Thrown | Dead.   (* Dead: std::terminate *)

Section Exec.
(** How many copies the compiler makes on the way out of MakeAutoCleanup (62): none with
    C++17 or if it elides them; and which callbacks throw. *)
Variable copies : nat.
Variable bad : nat -> bool.

(** ~AutoCleanupImpl (54-57) is noexcept: a callback that throws ends the process. *)
Definition dtor (c : nat) : list ev * out := ([Clean c], if bad c then Dead else Ok).
(** The destructors of the temporaries. *)
Fixpoint dtors (k c : nat) : list ev * out :=
  match k with
  | 0 => ([], Ok)
  | S k => match dtor c with
           | (w, Ok) => let (w2, o) := dtors k c in (w ++ w2, o)
           | r => r
           end
  end.
(** First [r], then [f] if [r] came to its end. *)
Definition andthen (r : list ev * out) (f : list ev * out) : list ev * out :=
  match r with (w, Ok) => (w ++ fst f, snd f) | r => r end.
(** The end of a scope with [r] inside, on any way out. *)
Definition leave (r d : list ev * out) : list ev * out :=
  match snd r with
  | Dead => r
  | o => (fst r ++ fst d, match snd d with Ok => o | e => e end)
  end.

Section List_.
Variable one : stmt -> list ev * out.
Fixpoint list_ (l : list stmt) : list ev * out :=
  match l with
  | [] => ([], Ok)
  | Cleanup c :: l => andthen (andthen ([Open c], Ok) (dtors copies c)) (leave (list_ l) (dtor c))
  | Lock sh m :: l => andthen ([Acq sh m], Ok) (leave (list_ l) ([Rel sh m], Ok))   (* 22, 30 / 43, 51 *)
  | s :: l => andthen (one s) (list_ l)
  end.
End List_.

Fixpoint one (s : stmt) : list ev * out :=
  match s with
  | Do n => ([Did n], Ok)
  | Throw => ([], Thrown)
  | Block b => list_ one b
  | Try b h => match list_ one b with
               | (w, Thrown) => (w ++ fst (list_ one h), snd (list_ one h))
               | r => r
               end
  | Cleanup _ | Lock _ _ => ([], Ok)   (* see list_ *)
  end.
(** A function body. *)
Definition exec (l : list stmt) : list ev * out := list_ one l.
End Exec.

(** ** Threads
    Each thread has what is left of what it does and the locks that it holds, the newest
    first. [recu]: the lock is a CriticalSection, which its owner may take again. *)
Definition thread : Type := (list ev * list (bool * nat))%type.
Definition holds (l : nat) (t : thread) : bool := existsb (fun x => snd x =? l) (snd t).
Definition holds_x (l : nat) (t : thread) : bool := existsb (fun x => (snd x =? l) && negb (fst x)) (snd t).
Fixpoint others (P : thread -> bool) (s : list thread) (i : nat) : bool :=
  match s, i with
  | [], _ => false
  | _ :: s, 0 => existsb P s
  | t :: s, S i => P t || others P s i
  end.
(** Whether AcquireSRWLockExclusive, AcquireSRWLockShared (26-29, 49-52) or
    CriticalSection::Lock lets thread [i] through. *)
Definition free (recu : nat -> bool) (s : list thread) (i : nat) (t : thread) (sh : bool) (l : nat) : bool :=
  if sh then negb (others (holds_x l) s i) && negb (holds_x l t)
  else negb (others (holds l) s i) && (recu l || negb (holds l t)).

Definition step (recu : nat -> bool) (s : list thread) (i : nat) : option (list thread) :=
  match nth_error s i with
  | Some ([], _) | None => None
  | Some (e :: w, h) =>
      match e with
      | Acq sh l => if free recu s i (e :: w, h) sh l then Some (set s i (w, (sh, l) :: h)) else None
      | Rel sh l => match h with
                    | (sh', l') :: h => if eqb sh sh' && (l =? l') then Some (set s i (w, h)) else None
                    | [] => None
                    end
      | _ => Some (set s i (w, h))
      end
  end.
Fixpoint run (recu : nat -> bool) (s : list thread) (l : list nat) : option (list thread) :=
  match l with
  | [] => Some s
  | i :: l => match step recu s i with Some s' => run recu s' l | None => None end
  end.
(** The threads of these functions. *)
Definition start (copies : nat) (bad : nat -> bool) (ps : list (list stmt)) : list thread :=
  map (fun p => (fst (exec copies bad p), [])) ps.
