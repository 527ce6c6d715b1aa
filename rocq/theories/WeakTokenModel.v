(** Model of cancellation tokens made from weak pointers: CancellationToken::FromPtr
    (include/YY/Base/Threading/CancellationToken.h 58-125), the default Register (38-48),
    ThrowIfCancellationRequested (50-56) and CancellationTokenSource::Create (133-199, its
    handlers: C49), on RefValue, RefPtr and WeakPtr (include/YY/Base/Memory/RefPtr.h 28-113,
    132-165, 276-281; WeakPtr.h 23-150).

    Simplified: one step is one call; ObserverPtr and std::weak_ptr are treated like WeakPtr
    (a block with a count of owners and a count of watchers; for an ObserverPtr the block is
    its observer data); RefPtrs held anywhere (variables, tasks) are one number per object;
    that memory from operator new goes to free is not looked at. *)
From Coq Require Import List Bool Arith.
From Verif Require Import Slots Threads.
Import ListNotations.

(** A user's object, a CancellationTokenSource, or a token that watches an object. *)
Inductive kind := Data | Source (cancelled : bool) | Tok (target : option nat).
(** [strong], [weak]: uRef and uWeakRef; [dead]: its destructor has been called; [freed]: its
    memory has been given back; [held], [wheld]: how many RefPtrs and WeakPtrs users have. *)
Record obj := Ob { knd : kind; strong : nat; weak : nat; dead : bool; freed : bool; held : nat; wheld : nat }.
Inductive op :=
| New | Create                         (* of an object, of a CancellationTokenSource *)
| FromPtr (target : option nat)
| Copy (i : nat) | Drop (i : nat)      (* of a RefPtr *)
| Weak (i : nat) | WeakDrop (i : nat)  (* a WeakPtr of a living object; its destructor *)
| WeakGet (i : nat)
| Cancel (i : nat)
| Ask (i : nat)                        (* IsCancellationRequested *)
| Register (i : nat).

(** Not possible for the user; memory is touched that has been given back; done, with an
    answer. *)
Inductive res := No | Bad | Yes (s : list obj) (b : bool).

(** RefValue::RefValue (35-39) with the first RefPtr by RefPtr::FromPtr (276-281). *)
Definition fresh (k : kind) : obj := Ob k 1 1 false false 1 0.
(** RefPtr from a plain pointer (141-146): AddRef of what [new] has made with one reference already. *)
Definition adopt (k : kind) : obj :=
  let x := fresh k in Ob k (S (strong x)) (weak x) (dead x) (freed x) (held x) (wheld x).

(** ReleaseWeak (76-87). *)
Definition ReleaseWeak (s : list obj) (i : nat) : option (list obj) :=
  match nth_error s i with
  | Some x => if freed x || (weak x =? 0) then None
              else Some (set s i (Ob (knd x) (strong x) (weak x - 1) (dead x) (weak x =? 1) (held x) (wheld x)))
  | None => None
  end.
(** Release (51-63): the destructor, for a token with that of its WeakPtr, then ReleaseWeak. *)
Definition Release (s : list obj) (i : nat) : option (list obj) :=
  match nth_error s i with
  | Some x =>
      if freed x || (strong x =? 0) then None
      else
        let s1 := set s i (Ob (knd x) (strong x - 1) (weak x) (strong x =? 1) (freed x) (held x) (wheld x)) in
        if strong x =? 1 then
          match match knd x with Tok (Some j) => ReleaseWeak s1 j | _ => Some s1 end with
          | Some s2 => ReleaseWeak s2 i
          | None => None
          end
        else Some s1
  | None => None
  end.
(** IsExpired of RefValue (109-112) and of WeakPtr (111-114). *)
Definition IsExpired (s : list obj) (j : option nat) : option bool :=
  match j with
  | None => Some true
  | Some j => match nth_error s j with
              | Some x => if freed x then None else Some (strong x =? 0)
              | None => None
              end
  end.
(** IsCancellationRequested (72-75, 95-98, 118-121, 143-146). *)
Definition IsCancellationRequested (s : list obj) (k : kind) : option bool :=
  match k with Source c => Some c | Tok j => IsExpired s j | Data => None end.

Definition give (x : obj) (st we he wh : nat) : obj := Ob (knd x) st we (dead x) (freed x) he wh.

Definition step (s : list obj) (o : op) : res :=
  match o with
  | New => Yes (s ++ [fresh Data]) false
  | Create => Yes (s ++ [fresh (Source false)]) false                 (* 198 *)
  | FromPtr None => Yes (s ++ [adopt (Tok None)]) false
  | FromPtr (Some j) =>
      match nth_error s j with
      | Some x => if (held x =? 0) && (wheld x =? 0) then No
                  else if freed x then Bad
                  else Yes (set s j (give x (strong x) (S (weak x)) (held x) (wheld x)) ++ [adopt (Tok (Some j))]) false (* 78, 101, 124 *)
      | None => No
      end
  | Copy i =>
      match nth_error s i with
      | Some x => if held x =? 0 then No else if freed x then Bad
                  else Yes (set s i (give x (S (strong x)) (weak x) (S (held x)) (wheld x))) false
      | None => No
      end
  | Drop i =>
      match nth_error s i with
      | Some x => if held x =? 0 then No
                  else match Release (set s i (give x (strong x) (weak x) (held x - 1) (wheld x))) i with Some s' => Yes s' false | None => Bad end
      | None => No
      end
  | Weak i =>
      match nth_error s i with
      | Some x => if held x =? 0 then No else if freed x then Bad
                  else Yes (set s i (give x (strong x) (S (weak x)) (held x) (S (wheld x)))) false
      | None => No
      end
  | WeakDrop i =>
      match nth_error s i with
      | Some x => if wheld x =? 0 then No
                  else match ReleaseWeak (set s i (give x (strong x) (weak x) (held x) (wheld x - 1))) i with Some s' => Yes s' false | None => Bad end
      | None => No
      end
  | WeakGet i =>                                                        (* WeakPtr::Get 73-82, TryAddRef 89-103 *)
      match nth_error s i with
      | Some x => if wheld x =? 0 then No else if freed x then Bad
                  else if strong x =? 0 then Yes s false
                  else Yes (set s i (give x (S (strong x)) (weak x) (S (held x)) (wheld x))) true
      | None => No
      end
  | Cancel i =>
      match nth_error s i with
      | Some x => if held x =? 0 then No else if freed x then Bad
                  else match knd x with
                       | Source c => Yes (set s i (Ob (Source true) (strong x) (weak x) (dead x) (freed x) (held x) (wheld x))) (negb c)
                       | _ => No
                       end
      | None => No
      end
  | Ask i =>
      match nth_error s i with
      | Some x => if held x =? 0 then No else if freed x then Bad
                  else match knd x with
                       | Data => No
                       | k => match IsCancellationRequested s k with Some b => Yes s b | None => Bad end
                       end
      | None => No
      end
  | Register i =>
      match nth_error s i with
      | Some x => if held x =? 0 then No else if freed x then Bad
                  else match knd x with
                       | Data => No
                       | Source c => Yes s (negb c)                     (* 148-162 *)
                       | Tok _ => Yes s false                           (* 38-42 *)
                       end
      | None => No
      end
  end.
(** Calls, one after the other. *)
Fixpoint run (s : list obj) (l : list op) : res :=
  match l with
  | [] => Yes s false
  | o :: l => match step s o with Yes s' _ => run s' l | r => r end
  end.
