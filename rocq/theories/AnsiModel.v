(** * Conversions between ANSI code pages and UTF-16

    src/YY/Base/Strings/StringTransform.cpp 122-361: the [Transform] overloads
    that have an ANSI string on one side, on Windows.

    What the system does is a parameter: [enc] and [dec] say what text a code
    page has for a text in UTF-16 and back, [junk] what a failed call leaves in
    the buffer it was given, [lock] how large a buffer [LockBuffer] hands out.
    Simplifications: a character is an integer; [LockBuffer] (String.h
    266-311) is represented by the capacity it ends with, its sharing of
    buffers is in [StringModel]; the conversions between Unicode forms are in
    [UtfModel], here they are a parameter of the two-step conversions; the
    exceptions of [UnlockBuffer] cannot occur because every lock is paired. *)

From Coq Require Import ZArith List Lia Bool.
Import ListNotations.
Local Open Scope Z_scope.

(** HRESULT: the results these functions give; [Status e] is
    [HRESULT_From_LSTATUS(e)] (ErrorCode.h 41-50) of an [e] that is not
    ERROR_SUCCESS. *)
Inductive hres := Sok | Epointer | Eunexpected | Eoom | Status (e : Z).

Definition hstatus (e : Z) : hres := if e =? 0 then Sok else Status e.

(** [FAILED(hr)] *)
Definition bad (h : hres) : bool := match h with Sok => false | _ => true end.

(** INT_MAX, ERROR_INSUFFICIENT_BUFFER, 2^64 *)
Definition int_max : Z := 2147483647.
Definition insufficient : Z := 122.
Definition u64 : Z := 18446744073709551616.

(** What the system has for a text: the converted text, or an error. *)
Inductive sys := Text (l : list Z) | Fault (e : Z).

(** A string: characters and, for an ANSI string, its code page
    (String.h 506-509). *)
Record str := Str { txt : list Z; page : Z }.

Definition zlen (l : list Z) : Z := Z.of_nat (length l).

(** What a call of the system does with an output buffer of [out]
    characters: it fills it, it fails and may leave something behind, or, for
    an output size of 0, it says how much it would need and writes nothing. *)
Inductive called := Wrote (l : list Z) | Failed (e : Z) (left : list Z) | Asked (n : Z).

Section Ansi.

Variable enc : Z -> list Z -> sys.
Variable dec : Z -> list Z -> sys.
Variable junk : list Z -> Z -> list Z.
(** attempt number, characters asked for; the capacity got, or no memory *)
Variable lock : nat -> Z -> option Z.
(** SIZE_MAX of the platform *)
Variable size_max : Z.

(** WideCharToMultiByte and MultiByteToWideChar: the documented contract. *)
Definition call (answer : sys) (src : list Z) (out : Z) : called :=
  match answer with
  | Fault e => Failed e (junk src out)
  | Text b =>
      if out =? 0 then Asked (zlen b)
      else if zlen b <=? out then Wrote b
      else Failed insufficient (junk src out)
  end.

(** [UnlockBuffer(n)] (String.h 313-335): the text is the first [n]
    characters of the buffer. *)
Definition unlock (buf : list Z) (n : Z) (d : str) : str :=
  Str (firstn (Z.to_nat n) buf) (page d).

(** What the buffer holds after a call wrote at offset [old], and the number
    the call returned. *)
Definition after (old : list Z) (c : called) : list Z * Z :=
  match c with
  | Wrote b => (old ++ b, zlen b)
  | Failed _ j => (old ++ j, 0)
  | Asked n => (old ++ repeat 0 (Z.to_nat n), n)
  end.

Definition last_error (c : called) : Z :=
  match c with Failed e _ => e | _ => 0 end.

(** StringTransform.cpp 174-209: the loop; [None] only when the model's bound
    on the number of turns is used up. *)
Fixpoint grow (fuel : nat) (k : nat) (src : list Z) (d : str) (want : Z)
  : option (hres * str) :=
  match fuel with
  | O => None
  | S fuel' =>
      if size_max <=? want then Some (Eoom, d)                (* 176-179 *)
      else
        match lock k want with                                (* 181-185 *)
        | None => Some (Eoom, d)
        | Some cap =>
            let room := cap - zlen (txt d) in                 (* 187-189 *)
            let out := if int_max <? room then int_max else room in (* 190-191 *)
            let c := call (enc (page d) src) src out in       (* 193 *)
            let '(buf, n) := after (txt d) c in
            let d' := unlock buf (zlen (txt d) + n) d in      (* 194 *)
            if negb (n =? 0) then Some (Sok, d')              (* 196-199, 211 *)
            else
              let e := last_error c in                        (* 201 *)
              if negb (e =? insufficient) then Some (hstatus e, d') (* 203-206 *)
              else grow fuel' (S k) src d' ((cap * 2) mod u64) (* 208 *)
        end
  end.

(** StringTransform.cpp 154-212: UTF-16 to ANSI; [None] for the pointer is
    null. *)
Definition to_ansi (fuel : nat) (src : list Z) (d : option str)
  : option (hres * option str) :=
  match d with
  | None => Some (Epointer, None)                             (* 156-157 *)
  | Some d =>
      if zlen src =? 0 then Some (Sok, Some d)                (* 159-161 *)
      else if int_max <? zlen src then Some (Eunexpected, Some d) (* 164-165 *)
      else match grow fuel 0 src d ((zlen (txt d) + zlen src * 2) mod u64) with
           | Some (h, d') => Some (h, Some d')
           | None => None
           end                                                (* 167-211 *)
  end.

(** StringTransform.cpp 287-312: ANSI to UTF-16; [src] carries the code page
    of the view. *)
Definition to_wide (src : str) (d : option str) : hres * option str :=
  match d with
  | None => (Epointer, None)                                  (* 289-290 *)
  | Some d =>
      if zlen (txt src) =? 0 then (Sok, Some d)               (* 292-294 *)
      else if int_max <? zlen (txt src) then (Eunexpected, Some d) (* 297-298 *)
      else match lock 0 (zlen (txt d) + zlen (txt src)) with  (* 303-305 *)
           | None => (Eoom, Some d)
           | Some _ =>
               let c := call (dec (page src) (txt src)) (txt src) (zlen (txt src)) in
               let '(buf, n) := after (txt d) c in            (* 306-308 *)
               (Sok, Some (unlock buf (zlen (txt d) + n) d))  (* 310-311 *)
           end
  end.

(** StringTransform.cpp 137-151, 215-252: the other Unicode forms go through a
    UTF-16 string. [uni] is the conversion of the source to UTF-16. *)
Definition to_ansi_via (fuel : nat) (uni : hres * list Z) (d : option str)
  : option (hres * option str) :=
  match d with
  | None => Some (Epointer, None)
  | Some d0 =>
      let '(h, w) := uni in
      if bad h then Some (h, Some d0) else to_ansi fuel w d
  end.

(** StringTransform.cpp 255-270, 315-361: from ANSI to the other Unicode forms;
    [uni w d] appends the UTF-16 text [w] to [d] in the form wanted. *)
Definition from_ansi_via (uni : list Z -> str -> hres * str) (src : str)
    (d : option str) : hres * option str :=
  match d with
  | None => (Epointer, None)
  | Some d0 =>
      if zlen (txt src) =? 0 then (Sok, Some d0)
      else match to_wide src (Some (Str [] 0)) with
           | (h, Some t) =>
               if bad h then (h, Some d0)
               else let '(h', d') := uni (txt t) d0 in (h', Some d')
           | (h, None) => (h, Some d0)
           end
  end.

(** StringTransform.cpp 122-127, String.h 450-473: ANSI view to ANSI. *)
Definition view_to_ansi (src : str) (d : option str) : hres * option str :=
  match d with
  | None => (Epointer, None)
  | Some d =>
      if zlen (txt src) =? 0 then (Sok, Some d)
      else match lock 0 (zlen (txt d) + zlen (txt src)) with
           | None => (Eoom, Some d)
           | Some _ => (Sok, Some (Str (txt d ++ txt src) (page d)))
           end
  end.

(** StringTransform.cpp 129-135, String.h 475-488: an ANSI string to an empty one
    shares the buffer, code page included (391-409); otherwise it is appended.
    The source is not locked. *)
Definition ansi_to_ansi (src : str) (d : option str) : hres * option str :=
  match d with
  | None => (Epointer, None)
  | Some d0 =>
      if zlen (txt src) =? 0 then (Sok, Some d0)
      else if zlen (txt d0) =? 0 then (Sok, Some src)
      else view_to_ansi src d
  end.

End Ansi.
