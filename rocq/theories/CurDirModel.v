(** Model of Path::GetCurrentDirectory (src/YY/Base/IO/Path.cpp 576-620) with the part of
    StringBase it uses: LockBuffer, UnlockBuffer (include/YY/Base/Strings/String.h 266-334),
    AllocStringData and ReallocStringData (1108-1158).

    Simplified: a character is a number; sizes do not wrap; GetCurrentDirectoryW is as
    documented: given [n] places it writes the directory and a zero if they fit and returns the
    length, else it returns the number of places needed and leaves the places alone; 0 is a
    failure. Other threads may change the directory between the calls. *)
From Coq Require Import List ZArith Arith Bool.
Import ListNotations.

(** [Text t k]: the string [t] is returned after call number [k] (from 0); an empty string after
    a failure; assert (String.h 325) fails; memory is written that is not the string's; more
    answers are needed. *)
Inductive res := Text (t : list Z) (k : nat) | Failed | Assert | Crash | Running.

(** ::GetCurrentDirectoryW; None: it may write behind the end of the buffer. *)
Definition sys (d : option (list Z)) (n : nat) (buf : list Z) : option (nat * list Z) :=
  if length buf <? n then None else
  match d with
  | None => Some (0, buf)
  | Some d => if length d <? n then Some (length d, d ++ 0%Z :: skipn (S (length d)) buf) else Some (S (length d), buf)
  end.

(** uCapacity (0: the static empty string), uSize and the buffer of uCapacity + 1 places. *)
Record str := Str { cap : nat; size : nat; buf : list Z }.
Definition empty : str := Str 0 0 [0%Z].
Definition round16 (n : nat) : nat := (n + 15) / 16 * 16.
Definition grow (s : str) (c : nat) : str := Str c (size s) (buf s ++ repeat 0%Z (c - cap s)).
(** LockBuffer of a string that is not shared (or is the empty one); [mem]: Alloc and ReAlloc
    succeed. *)
Definition LockBuffer (mem : bool) (s : str) (n : nat) : option str :=
  let n := if n <? size s then size s else n in
  if (n =? 0) && (cap s =? 0) then Some s
  else if cap s =? 0 then if mem then Some (grow s (round16 (S n) - 1)) else None
  else if cap s <? n then
    let c := cap s + cap s / 2 in
    if mem then Some (grow s (round16 (if c <? S n then S n else c) - 1)) else None
  else Some s.
Definition put0 (b : list Z) (i : nat) : list Z := firstn i b ++ 0%Z :: skipn (S i) b.
(** UnlockBuffer(n); None: the assertion fails. *)
Definition UnlockBuffer (debug : bool) (s : str) (n : nat) : option str :=
  if cap s <? n then if debug then None else Some (Str (cap s) (cap s) (put0 (buf s) (cap s)))
  else Some (Str (cap s) n (put0 (buf s) n)).
Definition text (s : str) : list Z := firstn (size s) (buf s).

(** 593-615: the loop, with what each round meets; [k]: calls made before. *)
Fixpoint loop (debug : bool) (k : nat) (s : str) (cch : nat) (l : list (bool * option (list Z))) : res :=
  match l with
  | [] => Running
  | (mem, d) :: l =>
      match LockBuffer mem s cch with
      | None => Failed                                              (* 596-599 *)
      | Some s =>
          match sys d cch (buf s) with
          | None => Crash
          | Some (n, b) =>
              match UnlockBuffer debug (Str (cap s) (size s) b) n with
              | None => Assert
              | Some s => if n =? 0 then Failed
                          else if n <=? cch then Text (text s) k
                          else loop debug (S k) s n l
              end
          end
      end
  end.
(** 579-592. *)
Definition GetCurrentDirectory (debug : bool) (first : option (list Z)) (l : list (bool * option (list Z))) : res :=
  match sys first 512 (repeat 0%Z 512) with
  | None => Crash
  | Some (n, b) => if n =? 0 then Failed
                   else if n <=? 512 then Text (firstn n b) 0
                   else loop debug 1 empty n l
  end.
