(** Model of the token caches, the impersonation scope and LowPrivilegeCreateProcessW
    (src/YY/Base/Security/Token.cpp, include/YY/Base/Security/ThreadImpersonationScope.h,
    src/YY/Base/Process/Process.cpp), for any number of threads.

    A thread is a stack of calls.  Every access to a shared static and every call of the system is one step; what the
    system answers is part of the schedule.  Handles are numbers that are never reused; [opn] are the open ones.

    Simplifications:
    - Handles closed by the same statement or scope exit as a step are closed in that step.
    - The names and the order of processes, and the parameters of CreateProcess, are not modelled.
    - Which tokens there are: those of processes called winlogon.exe (genuine or not), the process's own, its linked
      token, copies, and tokens a thread has of its own.
    - Documented behaviour that matters: the linked token is a primary token if the caller is the system, otherwise it
      is for identification only, and DuplicateTokenEx cannot make a primary token of such a one. *)
From Coq Require Import List Bool Arith.
From Verif Require Import Slots.
Import ListNotations.

Inductive elev := Full | Limited | Default.
(** The token of a thread: one of its own, or that of "the system" (genuine or not). *)
Inductive tk := User (u : nat) | Sys (genuine : bool).
Inductive kind :=
| KSnap | KProc
| KSys (genuine : bool)    (* token of a process called winlogon.exe *)
| KImp (genuine : bool)    (* impersonation token made of that *)
| KCur                     (* the process's own token *)
| KLnk (primary : bool)    (* its linked token *)
| KDup                     (* primary token made of the limited token *)
| KPrev (t : tk).          (* token of a thread *)
Inductive nxt := Fallback | Return (b : bool).
Inductive frame :=
| S0 | S1 | S2 (h : nat) | S3 (h p : nat) | S4 (h p t : nat) | S5 (h p t : nat) | S6 (h : nat)      (* GetSystemToken *)
| L0 | L1 | L2 (c : nat) | L3 (c : nat) | L4 (c : option nat) (t : nat)                              (* GetLimitedToken *)
| I0 | I1 | I2 | I3 (h : nat)                                                                        (* GetImpersonationSystemToken *)
| Q0 | Q1 | Q2 | Q3 (m : nat) | Q4 (m : nat) (p : option nat) | Q5 (p : option nat) (b : bool)
| Q6 (p : option nat) (b : bool) | Q7 (p : option nat) (b : bool) (x : nat)
| Q8 (p : option nat) (b : bool) (n : nxt) | Q9.                                                     (* LowPrivilegeCreateProcessW *)
(** [own]: the thread's token when it made the call; [cur]: its token now. *)
Record agent := AG { own : option tk; cur : option tk; stk : list frame }.
Inductive event :=
| EProc (limited : bool) (t : option tk)   (* a process was created, by a thread with this token *)
| ERet (b : bool)                          (* LowPrivilegeCreateProcessW returned S_OK or an error *)
| EPriv (t : option tk)                    (* privileges enabled in the thread's token *)
| EFail                                    (* a call of the system failed *)
| EKeep                                    (* SetThreadToken failed at the end of the scope *)
| EFake                                    (* the process called winlogon.exe is not the system's *)
| EPlain                                   (* the linked token was asked for by a thread that is not the system *)
| EBad.                                    (* a handle is closed that is not open *)
(** [cs], [cl], [ci]: the statics of GetSystemToken, GetLimitedToken, GetImpersonationSystemToken; [se]:
    s_eTokenElevationType; [el]: the elevation type of the process. *)
Record st := ST { el : elev; cs : option nat; cl : option nat; ci : option nat; se : option elev;
                  opn : list (nat * kind); nx : nat; ag : list agent; log : list (nat * event) }.
Definition init (e : elev) : st := ST e None None None None [] 0 [] [].
Definition w_cs s v := ST (el s) v (cl s) (ci s) (se s) (opn s) (nx s) (ag s) (log s).
Definition w_cl s v := ST (el s) (cs s) v (ci s) (se s) (opn s) (nx s) (ag s) (log s).
Definition w_ci s v := ST (el s) (cs s) (cl s) v (se s) (opn s) (nx s) (ag s) (log s).
Definition w_se s v := ST (el s) (cs s) (cl s) (ci s) v (opn s) (nx s) (ag s) (log s).
Definition w_opn s v := ST (el s) (cs s) (cl s) (ci s) (se s) v (nx s) (ag s) (log s).
Definition w_ag s v := ST (el s) (cs s) (cl s) (ci s) (se s) (opn s) (nx s) v (log s).
Definition say s i e := ST (el s) (cs s) (cl s) (ci s) (se s) (opn s) (nx s) (ag s) (log s ++ [(i, e)]).
Definition alloc s k := ST (el s) (cs s) (cl s) (ci s) (se s) ((nx s, k) :: opn s) (S (nx s)) (ag s) (log s).
Fixpoint kd (l : list (nat * kind)) (h : nat) : option kind := match l with [] => None | (g, k) :: r => if Nat.eqb g h then Some k else kd r h end.
Definition close s (i h : nat) : st :=
  match kd (opn s) h with
  | Some _ => w_opn s (filter (fun p => negb (Nat.eqb (fst p) h)) (opn s))
  | None => say s i EBad
  end.
Definition close' s i (o : option nat) : st := match o with Some h => close s i h | None => s end.

Inductive ans := Ok | Fail | Denied | NoMore.
Definition genuine (k : option kind) : bool := match k with Some (KSys b) | Some (KImp b) => b | _ => false end.
Definition is_sys (c : option tk) : bool := match c with Some (Sys true) => true | _ => false end.
Definition tok_of (l : list (nat * kind)) (p : option nat) : option tk :=
  match p with None => None | Some h => match kd l h with Some (KPrev t) => Some t | _ => None end end.
(** One step of the top call of thread [i]: the new state, the thread's token, and what replaces the call. *)
Definition body (s : st) (i : nat) (c : option tk) (f : frame) (a : ans) : option (st * option tk * list frame) :=
  let go s l := Some (s, c, l) in
  let bad s := say s i EFail in
  match f, a with
  (* Token.cpp 15-84 *)
  | S0, Ok => go s (match cs s with Some _ => [] | None => [S1] end)                        (* line 21 *)
  | S1, Ok => go (alloc s KSnap) [S2 (nx s)]                                                (* line 24 *)
  | S1, Fail => go (bad s) []
  | S2 h, Ok => go (alloc s KProc) [S3 h (nx s)]                                            (* lines 37-50 *)
  | S2 h, Fail => go s [S2 h]
  | S2 h, NoMore => go (bad s) [S6 h]
  | S3 h p, Ok => go (alloc s (KSys true)) [S4 h p (nx s)]                                  (* line 54 *)
  | S3 h p, Denied => go (say (alloc s (KSys false)) i EFake) [S4 h p (nx s)]                (* another program of that name *)
  | S3 h p, Fail => go (close s i p) [S2 h]
  | S4 h p t, Ok => go s [S5 h p t]                                                         (* lines 63-73 *)
  | S4 h p t, Fail => go (close (close s i t) i p) [S2 h]
  | S5 h p t, Ok => match cs s with                                                         (* line 75 *)
                    | None => go (close (w_cs s (Some t)) i p) [S6 h]
                    | Some _ => go (close (close s i t) i p) [S6 h] end
  | S6 h, Ok => go (close s i h) []                                                         (* line 83 *)
  (* Token.cpp 91-140 *)
  | L0, Ok => go s (match cl s with Some _ => [] | None => [L1] end)
  | L1, Ok => go (alloc s KCur) [L2 (nx s)]                                                 (* line 101 *)
  | L1, Fail => go (bad s) []
  | L2 h, Ok => match el s with                                                             (* line 107 *)
                | Limited => go s [L4 None h]
                | Full => go s [L3 h]
                | Default => go (close s i h) [] end
  | L2 h, Fail => go (close (bad s) i h) []
  | L3 h, Ok => go (let s' := alloc s (KLnk (is_sys c)) in if is_sys c then s' else say s' i EPlain) [L4 (Some h) (nx s)]   (* line 121 *)
  | L3 h, Fail => go (close (bad s) i h) []
  | L4 h t, Ok => match cl s with                                                           (* line 131 *)
                  | None => go (close' (w_cl s (Some t)) i h) []
                  | Some _ => go (close' (close s i t) i h) [] end
  (* Token.cpp 142-176 *)
  | I0, Ok => go s (match ci s with Some _ => [] | None => [I1] end)
  | I1, Ok => go s [S0; I2]
  | I2, Ok => match cs s with None => go s [] | Some h => go (alloc s (KImp (genuine (kd (opn s) h)))) [I3 (nx s)] end       (* line 157 *)
  | I2, Fail => go (bad s) []
  | I3 h, Ok => match ci s with None => go (w_ci s (Some h)) [] | Some _ => go (close s i h) [] end                          (* line 168 *)
  (* Process.cpp 46-59 *)
  | Q0, Ok => go (match se s with None => w_se s (Some (el s)) | Some _ => s end) [Q1]      (* line 46, GetTokenElevationType 18-31 *)
  | Q0, Fail => match se s with None => go (bad (w_se s (Some Default))) [Q1] | Some _ => None end
  | Q1, Ok => go s (match se s with Some Full => [I0; Q2] | _ => [Q9] end)
  | Q2, Ok => go s (match ci s with Some m => [Q3 m] | None => [Q9] end)
  (* ThreadImpersonationScope.h 17-29 *)
  | Q3 m, Ok => match c with None => go s [Q4 m None] | Some t => go (alloc s (KPrev t)) [Q4 m (Some (nx s))] end
  | Q3 m, Fail => match c with None => None | Some _ => go (bad s) [Q5 None false] end
  | Q4 m p, Ok => Some (s, Some (Sys (genuine (kd (opn s) m))), [Q5 p true])
  | Q4 m p, Fail => go (bad s) [Q5 p false]
  (* Process.cpp 63-111 *)
  | Q5 p b, Ok => go (say s i (EPriv c)) [L0; Q6 p b]
  | Q6 p b, Ok => match cl s with
                  | None => go s [Q8 p b Fallback]
                  | Some h => match kd (opn s) h with Some (KLnk false) => None | _ => go (alloc s KDup) [Q7 p b (nx s)] end end
  | Q6 p b, Fail => match cl s with None => None | Some _ => go (bad s) [Q8 p b Fallback] end
  | Q7 p b x, Ok => go (close (say s i (EProc true c)) i x) [Q8 p b (Return true)]
  | Q7 p b x, Denied => go (close (bad s) i x) [Q8 p b Fallback]
  | Q7 p b x, Fail => go (close (bad s) i x) [Q8 p b (Return false)]
  (* ThreadImpersonationScope.h 34-45 *)
  | Q8 p b n, Ok =>
      Some (match n with Fallback => close' s i p | Return r => say (close' s i p) i (ERet r) end,
            (if b then tok_of (opn s) p else c), match n with Fallback => [Q9] | Return _ => [] end)
  | Q8 p true n, Fail =>
      go (let s1 := close' (say s i EKeep) i p in match n with Fallback => s1 | Return r => say s1 i (ERet r) end) (match n with Fallback => [Q9] | Return _ => [] end)
  (* Process.cpp 114-126 *)
  | Q9, Ok => go (say (say s i (EProc (match el s with Full => false | _ => true end) c)) i (ERet true)) []
  | Q9, Fail => go (say (bad s) i (ERet false)) []
  | _, _ => None
  end.
Inductive call := GetSystemToken | GetLimitedToken | GetImpersonationSystemToken | LowPrivilegeCreateProcess.
Definition entry (c : call) : frame := match c with GetSystemToken => S0 | GetLimitedToken => L0 | GetImpersonationSystemToken => I0 | LowPrivilegeCreateProcess => Q0 end.
(** [Go c u]: a thread with its own token [u], or none, makes a call. *)
Inductive act := Go (c : call) (u : option nat) | Step (i : nat) (a : ans).
Definition exec (s : st) (a : act) : option st :=
  match a with
  | Go c u => Some (w_ag s (ag s ++ [AG (option_map User u) (option_map User u) [entry c]]))
  | Step i a =>
      match nth_error (ag s) i with
      | Some (AG o c (f :: k)) => match body s i c f a with Some (s', c', l) => Some (w_ag s' (set (ag s) i (AG o c' (l ++ k)))) | None => None end
      | _ => None
      end
  end.
Fixpoint run (s : st) (l : list act) : option st := match l with [] => Some s | a :: r => match exec s a with Some s' => run s' r | None => None end end.
