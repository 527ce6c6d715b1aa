(** Model of src/YY/Base/IO/Path.cpp (class [Path], include/YY/Base/IO/Path.h).

    A path is a list of characters (numbers).  [win] selects the Windows build; otherwise
    it is the Linux build.  A [uStringView] result is given as the list of its characters;
    the searches and substrings of views are those proved for [SpanModel.v] (C14-C18), here
    written on lists.
    Simplifications: memory suffices; sizes do not wrap; the current directory is an
    argument. *)
From Coq Require Import ZArith Lia Bool List.
From Verif Require Import CompareModel.
Import ListNotations.
Local Open Scope Z_scope.

(** A chain [GetLength() >= n && test0(p[0]) && ... && test(n-1)(p[n-1])]. *)
Fixpoint starts (ts : list (Z -> bool)) (p : list Z) : bool :=
  match ts with
  | [] => true
  | t :: ts' => match p with [] => false | c :: p' => t c && starts ts' p' end
  end.
Definition is (c d : Z) : bool := d =? c.
Definition either (a b c : Z) : bool := (c =? a) || (c =? b).
Definition any (c : Z) : bool := true.

(** Path.cpp:26-29 and 31-34. *)
Definition IsAlphaChar (c : Z) : bool := ((65 <=? c) && (c <=? 90)) || ((97 <=? c) && (c <=? 122)).
Definition IsHexDigit (c : Z) : bool :=
  ((48 <=? c) && (c <=? 57)) || ((65 <=? c) && (c <=? 70)) || ((97 <=? c) && (c <=? 102)).

(** '?' or '.'. *)
Definition qdot : Z -> bool := either 63 46.

(** The last position of a character that passes [t], from position [n] on:
    [LastIndexOfAny] (StringView.h:495-505), [LastIndexOf] (318-331). *)
Fixpoint last_from (t : Z -> bool) (p : list Z) (i : nat) : option nat :=
  match p with
  | [] => None
  | c :: r => match last_from t r (S i) with
              | Some k => Some k
              | None => if t c then Some i else None
              end
  end.
Definition LastIndex (t : Z -> bool) (p : list Z) (n : nat) : option nat := last_from t (skipn n p) n.

Section Path.
  Variable win : bool.

  (** Path.h:47-69 and Path.cpp:15-24. *)
  Definition dirsep : Z := if win then 92 else 47.
  Definition sep (c : Z) : bool := (win && (c =? 92)) || (c =? 47).

  (** [GetLength() > k && IsDirectorySeparatorChar(p[k])]. *)
  Definition sep_at (k : nat) (p : list Z) : bool :=
    match nth_error p k with Some c => sep c | None => false end.

  (** Path.cpp:36-68. *)
  Definition TryParseUncPath (p : list Z) : nat :=
    if starts [sep; sep] p then
      if starts [any; any; qdot] p then
        if win && starts [any; any; any; sep; either 85 117; either 78 110; either 67 99; sep] p then 8 else 0
      else 2
    else 0.

  (** Path.cpp:143-225 (Windows only). *)
  Definition volume_guid : list (Z -> bool) :=
    [sep; sep; qdot; sep; either 86 118; either 79 111; either 76 108; either 85 117; either 77 109; either 69 101; is 123]
    ++ repeat IsHexDigit 8 ++ [is 45] ++ repeat IsHexDigit 4 ++ [is 45] ++ repeat IsHexDigit 4 ++ [is 45]
    ++ repeat IsHexDigit 4 ++ [is 45] ++ repeat IsHexDigit 12 ++ [is 125].
  Definition TryParseVolumePath (p : list Z) : nat :=
    if starts [IsAlphaChar; is 58] p then 2
    else if starts [sep; sep; qdot; sep; IsAlphaChar; is 58] p then 6
    else if starts volume_guid p && (Nat.eqb (length p) 48 || sep_at 48 p) then 48
    else 0.

  (** Path.cpp:286-292: the characters passed until [n] separators are behind. *)
  Fixpoint skip_seps (n : nat) (l : list Z) : nat :=
    match n with
    | O => 0
    | S n' => match l with [] => 0 | c :: r => S (skip_seps (if sep c then n' else n) r) end
    end.

  (** Path.cpp:264-314: the length of the root ... *)
  Definition root_len (p : list Z) : nat :=
    match p with
    | [] => 0
    | c :: r =>
        if sep c && (match r with [] => true | d :: _ => negb (sep d) end) then 1
        else
          let u := TryParseUncPath p in
          if negb (Nat.eqb u 0) then u + skip_seps 2 (skipn u p)
          else if win then
            let v := TryParseVolumePath p in
            if negb (Nat.eqb v 0) then (if sep_at v p then v + 1 else v) else 0
          else 0
    end%nat.
  Definition GetPathRoot (p : list Z) : list Z := firstn (root_len p) p.

  (** Path.cpp:326-329. *)
  Definition IsPathRooted (p : list Z) : bool := negb (Nat.eqb (length (GetPathRoot p)) 0).

  (** Path.cpp:331-354. *)
  Definition RemoveFileSpec (p : list Z) : list Z * bool :=
    match p with
    | [] => (p, false)
    | _ =>
        if Nat.eqb (length (GetPathRoot p)) (length p) then (p, false)
        else match LastIndex sep p (length (GetPathRoot p)) with
             | Some k => (firstn k p, true)
             | None => (GetPathRoot p, true)
             end
    end.

  (** Path.cpp:368-381. *)
  Definition GetFileName (p : list Z) : list Z :=
    match p with
    | [] => []
    | _ => match LastIndex sep p (length (GetPathRoot p)) with
           | None => p
           | Some k => skipn (k + 1) p
           end
    end.
  (** Path.cpp:393-403. *)
  Definition GetExtension (p : list Z) : list Z :=
    match LastIndex (is 46) (GetFileName p) 0 with
    | Some k => skipn k (GetFileName p)
    | None => []
    end.
  (** Path.cpp:415-425. *)
  Definition GetFileNameWithoutExtension (p : list Z) : list Z :=
    match LastIndex (is 46) (GetFileName p) 0 with
    | Some k => skipn k (GetFileName p)
    | None => GetFileName p
    end.
  (** Path.cpp:437-441. *)
  Definition GetDirectoryPath (p : list Z) : list Z := fst (RemoveFileSpec p).

  (** Path.cpp:449-471; [None] is the access to [_sPath[0]] of an empty view (line 462). *)
  Definition IsPathFullyQualified (p : list Z) : option bool :=
    if negb (Nat.eqb (TryParseUncPath p) 0) then Some true
    else if win then
      let v := TryParseVolumePath p in
      if negb (Nat.eqb v 0) then Some (Nat.eqb v (length p) || sep_at v p) else Some false
    else match p with
         | [] => None
         | c :: r => Some (sep c && (match r with [] => true | d :: _ => negb (sep d) end))
         end.

  Fixpoint drop_seps (l : list Z) : list Z :=
    match l with [] => [] | c :: r => if sep c then drop_seps r else l end.
  Definition ends_with_sep (l : list Z) : bool := match rev l with [] => false | c :: _ => sep c end.

  (** Path.cpp:473-527.  [shared] says whether the buffer of [base] has other holders:
      then [LockBuffer] (String.h:266-311) exchanges it for an unshared one whose length is
      0 (CloneStringData, String.h:1087-1106, does not copy it; see C21), so that the text
      is lost. *)
  Definition Append (shared : bool) (base x : list Z) : list Z :=
    match x with
    | [] => base
    | c :: r =>
        if negb (Nat.eqb (TryParseUncPath x) 0) then x
        else if win && negb (Nat.eqb (TryParseVolumePath x) 0) then x
        else if negb win && (sep c && (match r with [] => true | d :: _ => negb (sep d) end)) then x
        else match drop_seps x with
             | [] => base
             | y =>
                 let b := if shared then [] else base in
                 (match b with
                  | [] => []
                  | _ => if ends_with_sep b then b else b ++ [dirsep]
                  end) ++ y
             end
    end.

  (** [CompareI] (StringView.h:220-244) on texts of the same length: zero or not. *)
  Fixpoint differI (a b : list Z) : bool :=
    match a, b with
    | x :: a', y :: b' => if CharUpperAsASCII x =? CharUpperAsASCII y then differI a' b' else true
    | _, _ => false
    end.
  Fixpoint drop_end (l : list Z) : list Z :=
    match l with
    | [] => []
    | c :: r => match drop_end r with [] => if sep c then [] else [c] | r' => c :: r' end
    end.
  (** Path.cpp:228-262; the last line returns the result of the comparison as a bool. *)
  Definition strip_dev (l : list Z) : list Z := if starts [sep; sep; qdot; sep] l then skipn 4 l else l.
  Definition IsSameVolume (l r : list Z) : bool :=
    let l := drop_end (strip_dev l) in
    let r := drop_end (strip_dev r) in
    if negb (Nat.eqb (length l) (length r)) then false else differI l r.

  (** Path.cpp:529-574 with the current directory [cwd] (unshared). *)
  Definition GetFullPath (cwd p : list Z) : list Z :=
    match p with
    | [] => []
    | c :: _ =>
        match IsPathFullyQualified p with
        | Some true => p
        | _ =>
            match cwd with
            | [] => []
            | _ =>
                let v := TryParseVolumePath p in
                if win && negb (Nat.eqb v 0) then
                  match GetPathRoot cwd with
                  | [] => []
                  | rt =>
                      let base := if IsSameVolume rt (firstn v p) then cwd else firstn v p in
                      Append false base (skipn v p)
                  end
                else if win && sep c then
                  match GetPathRoot cwd with
                  | [] => []
                  | rt => Append false rt p
                  end
                else Append false cwd p
            end
        end
    end.
End Path.
