(** Formatted text: AppendFormatV, AppendFormat, FormatV and Format (String.h 47-131) with
    GetStringFormatLength and FormatStringV (tchar.h 98-168), for char strings and, on Windows, wide ones.

    A format is a list of characters and conversions, an argument is the text its conversion gives.
    [win] selects the C library of Visual C++, where a va_list is a pointer that the caller keeps; otherwise
    va_list is an array (System V, AArch64), which vsnprintf moves on to the next argument.
    [None] is undefined behaviour.
    Simplified: one string object that is not locked; other holders of a shared buffer keep it during the
    call; sizes do not wrap; a conversion takes one argument. *)
From Coq Require Import ZArith List Bool.
Import ListNotations.

Definition INT_MAX : Z := 2147483647%Z.

Inductive item := Ch (c : Z) | Conv.
Inductive arg :=
| Val (l : list Z)      (* a number or a foreign text *)
| Bad                   (* an argument that cannot be converted: the call returns -1 *)
| Self.                 (* %s with the szString of the object itself *)

(** Whose buffer it is: that of GetEmtpyStringData, which is a const object (String.h 1158-1171), the
    object's own, or one with other holders. *)
Inductive kind := Static | Own | Shared.
Record str := Str { kd : kind; cap : nat; txt : list Z }.

(** IsShared: the reference count of the const object is the greatest number (String.h 1168). *)
Definition IsShared (s : str) : bool := match kd s with Own => false | _ => true end.

(** (n + 15) & ~15. *)
Definition round16 (n : nat) : nat := 16 * ((n + 15) / 16).

(** What a printf function gives; [own] is what the object's buffer holds, if it may be read. *)
Inductive printed := Text (l : list Z) (rest : list arg) | Error | Undefined.
Fixpoint printf (own : option (list Z)) (f : list item) (a : list arg) : printed :=
  match f with
  | [] => Text [] a
  | Ch c :: f => match printf own f a with Text l r => Text (c :: l) r | e => e end
  | Conv :: f =>
      match a with
      | [] => Undefined
      | Bad :: _ => Error
      | Val t :: a => match printf own f a with Text l r => Text (t ++ l) r | e => e end
      | Self :: a =>
          match own with
          | None => Undefined
          | Some t => match printf own f a with Text l r => Text (t ++ l) r | e => e end
          end
      end
  end.

(** LockBuffer(n), String.h 266-311, for n not below the size. [Some None]: null. *)
Definition LockBuffer (oom : bool) (s : str) (n : nat) : option (option str) :=
  if (n =? 0)%nat && (cap s =? 0)%nat then Some (Some s)
  else if IsShared s then
    (* CloneStringData, String.h 1087-1107: of nothing it is the const object *)
    if (n =? 0)%nat then Some (Some (Str Static 0 []))
    else if oom then Some None else Some (Some (Str Own (round16 (n + 1) - 1) (txt s)))
  else if (cap s <? n)%nat then
    if oom then Some None
    else Some (Some (Str Own (round16 (max (cap s + cap s / 2) (n + 1)) - 1) (txt s)))
  else Some (Some s).

Inductive code := S_OK | E_INVALIDARG | E_OUTOFMEMORY.

Section Format.
  Variable win : bool.
  Variable junk : list Z.               (* what lies behind in the buffer *)

  (** String.h 51-80, when [f] is not null; line 55-56 otherwise. *)
  Definition AppendFormatV (oom : bool) (s : str) (f : option (list item)) (a : list arg) : option (code * str) :=
    match f with
    | None => Some (E_INVALIDARG, s)
    | Some f =>
        (* 61: GetStringFormatLength, -1 when the length is no int *)
        match printf (Some (txt s)) f a with
        | Undefined => None
        | Error => Some (E_INVALIDARG, s)
        | Text l rest =>
            let n := length l in
            if (INT_MAX <? Z.of_nat n)%Z then Some (E_INVALIDARG, s)
            else
              match LockBuffer oom s (length (txt s) + n) with
              | None => None
              | Some None => Some (E_OUTOFMEMORY, s)
              | Some (Some s1) =>
                  (* 69: the sum of int, and the terminator *)
                  if (Z.of_nat n =? INT_MAX)%Z then None
                  else match kd s1 with
                  | Static => None
                  | _ =>
                      (* the same va_list again; the old buffer of an own string is gone or overlaps *)
                      match printf (match kd s with Own => None | _ => Some (txt s) end) f (if win then a else rest) with
                      | Undefined => None
                      | Error => Some (E_INVALIDARG, s1)
                      | Text l2 _ =>
                          (* at most n characters and a terminator are written; the count returned is that
                             of the whole text; UnlockBuffer, 313-334, cuts it to the capacity *)
                          let all := txt s ++ firstn n l2 ++ 0%Z :: junk in
                          Some (S_OK, Str (kd s1) (cap s1) (firstn (min (cap s1) (length (txt s) + length l2)) all))
                      end
                  end
              end
        end
    end.

  (** Clear, String.h 346-360: the characters of an own buffer end at 0 now. *)
  Definition Clear (s : str) : str := if IsShared s then Str Static 0 [] else Str Own (cap s) [].

  (** The arguments are made before the call: in a buffer that is not its own the object's text stays. *)
  Definition made (s : str) (a : list arg) : list arg :=
    map (fun x => match x with Self => if IsShared s then Val (txt s) else Self | x => x end) a.

  (** String.h 82-97: va_start and va_end around AppendFormatV. *)
  Definition AppendFormat (oom : bool) (s : str) (f : option (list item)) (a : list arg) : option (code * str) :=
    match f with
    | None => Some (E_INVALIDARG, s)
    | Some _ => AppendFormatV oom s f (made s a)
    end.

  (** String.h 113-131 (and 99-111). *)
  Definition Format (oom : bool) (s : str) (f : option (list item)) (a : list arg) : option (code * str) :=
    match f with
    | None => Some (E_INVALIDARG, s)
    | Some _ => AppendFormatV oom (Clear s) f (made s a)
    end.
End Format.
