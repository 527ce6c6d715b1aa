(** The string forms of the path functions: Path.cpp 316-324, 356-366, 383-391, 405-413, 427-435 and
    443-447.  They call the view form on the string's own characters and cut the string down to the
    place of the view, which they compute from addresses.

    Here the view forms (PathModel.v has their texts) give views with addresses.  An address counts
    characters from address 0; the characters of the string begin at [b].  A string is its text (what
    sharing does to Slice and Remove is in StringModel.v, C21). *)
From Coq Require Import ZArith List Bool.
From Verif Require Import Word PathModel.
Import ListNotations.
Local Open Scope Z_scope.

Inductive ptr := Null | At (a : Z).
Definition addr (p : ptr) : Z := match p with Null => 0 | At a => a end.

(** StringView.h 30-60: [sString] and [cchString]; the default view is null. *)
Record view := View { vp : ptr; vn : nat }.
Definition null_view : view := View Null 0.

(** sString + n; nothing is added to a null pointer in the code below. *)
Definition plus (p : ptr) (n : nat) : ptr := match p with Null => Null | At a => At (a + Z.of_nat n) end.

(** StringView.h 122-130. *)
Definition vend (v : view) : ptr := plus (vp v) (vn v).

(** StringView.h 545-555, and 533-543 with a length that is never too small. *)
Definition Substring (v : view) (start len : nat) : view :=
  if (start <? vn v)%nat then View (plus (vp v) start) (min (vn v - start) len)
  else View (plus (vp v) (vn v)) 0.

(** The difference of two pointers, converted to size_t.  By the standard it is undefined when only one of
    them is null ([strict]); the compilers subtract the addresses. *)
Definition diff (strict : bool) (p q : ptr) : option Z :=
  match p, q with
  | At a, At c => Some (u64 (a - c))
  | Null, Null => Some 0
  | _, _ => if strict then None else Some (u64 (addr p - addr q))
  end.

(** String.h 806-851, the text. *)
Definition Remove (p : list Z) (start count : Z) : list Z :=
  if Z.of_nat (length p) <=? start then p
  else
    let c := Z.min count (Z.of_nat (length p) - start) in
    firstn (Z.to_nat start) p ++ skipn (Z.to_nat (start + c)) p.

(** String.h 853-873. *)
Definition Slice (p : list Z) (st en : Z) : list Z :=
  if Z.of_nat (length p) <=? u64 (st + en) then []
  else
    let p := if en =? 0 then p else Remove p (u64 (Z.of_nat (length p) - en)) en in
    if st =? 0 then p else Remove p 0 st.

Section Forms.
  Variable win : bool.
  Variable strict : bool.
  Variable b : Z.                        (* where the characters of the string are *)
  Variable p : list Z.                   (* its text *)

  (** GetStringView. *)
  Definition full : view := View (At b) (length p).
  (** The text of a view of the string. *)
  Definition text (v : view) : list Z :=
    match vp v with Null => [] | At a => firstn (vn v) (skipn (Z.to_nat (a - b)) p) end.

  (** Path.cpp 264-314: the default view stays when there is no root. *)
  Definition GetPathRoot_v : view :=
    if (root_len win p =? 0)%nat then null_view else Substring full 0 (root_len win p).

  (** Path.cpp 331-354. *)
  Definition RemoveFileSpec_v : view * bool :=
    match p with
    | [] => (full, false)
    | _ =>
        if Nat.eqb (vn GetPathRoot_v) (length p) then (full, false)
        else match LastIndex (sep win) p (vn GetPathRoot_v) with
             | Some k => (Substring full 0 k, true)
             | None => (GetPathRoot_v, true)
             end
    end.

  (** Path.cpp 368-381. *)
  Definition GetFileName_v : view :=
    match p with
    | [] => null_view
    | _ => match LastIndex (sep win) p (vn GetPathRoot_v) with
           | None => full
           | Some k => Substring full (k + 1) (length p)
           end
    end.

  (** Path.cpp 393-403. *)
  Definition GetExtension_v : view :=
    match LastIndex (is 46) (text GetFileName_v) 0 with
    | Some k => Substring GetFileName_v k (vn GetFileName_v)
    | None => null_view
    end.

  (** Path.cpp 415-425. *)
  Definition GetFileNameWithoutExtension_v : view :=
    match LastIndex (is 46) (text GetFileName_v) 0 with
    | Some k => Substring GetFileName_v k (vn GetFileName_v)
    | None => GetFileName_v
    end.

  (** [_szPath.Slice(v.begin() - _szPath.begin(), _szPath.end() - v.end())]. *)
  Definition cut (v : view) : option (list Z) :=
    match diff strict (vp v) (vp full), diff strict (vend full) (vend v) with
    | Some st, Some en => Some (Slice p st en)
    | _, _ => None
    end.
  (** 318-323, 385-390, 407-412, 429-434. *)
  Definition form (v : view) : option (list Z) := if (vn v =? 0)%nat then Some [] else cut v.

  (** Path.cpp 316-324. *)
  Definition GetPathRoot_s : option (list Z) := form GetPathRoot_v.
  (** Path.cpp 356-366. *)
  Definition RemoveFileSpec_s : option (list Z * bool) :=
    if snd RemoveFileSpec_v
    then match cut (fst RemoveFileSpec_v) with Some q => Some (q, true) | None => None end
    else Some (p, false).
  (** Path.cpp 383-391. *)
  Definition GetFileName_s : option (list Z) := form GetFileName_v.
  (** Path.cpp 405-413. *)
  Definition GetExtension_s : option (list Z) := form GetExtension_v.
  (** Path.cpp 427-435. *)
  Definition GetFileNameWithoutExtension_s : option (list Z) := form GetFileNameWithoutExtension_v.
  (** Path.cpp 443-447. *)
  Definition GetDirectoryPath_s : option (list Z) :=
    match RemoveFileSpec_s with Some (q, _) => Some q | None => None end.
End Forms.
