(** Model of text comparison: include/YY/Base/tchar.h:81-94, 172-397 and
    include/YY/Base/Strings/StringView.h:158-244.

    Characters are integers.  [sub] is the built-in subtraction of two characters
    converted to [int]: exact for 8- and 16-bit characters (integer promotion), modulo
    2^32 and reinterpreted as signed for [char32_t].  A text is a [span Z]; a
    NUL-terminated string is a position in a block, i.e. a span whose length is not
    used.  [None] is a read outside the block. *)
From Coq Require Import ZArith Lia Bool List.
From Verif Require Import Word SpanModel.
Import ListNotations.
Local Open Scope Z_scope.

(** [int(a - b)] for [char]/[wchar_t] (promotion to [int] first). *)
Definition sub_int (a b : Z) : Z := a - b.
(** [int(a - b)] for [char32_t] (unsigned 32-bit arithmetic, then conversion to [int]). *)
Definition s32 (x : Z) : Z := if u32 x <? 2147483648 then u32 x else u32 x - W32.
Definition sub_u32 (a b : Z) : Z := s32 (a - b).

(** tchar.h:87-94: [CharUpperAsASCII]. *)
Definition CharUpperAsASCII (c : Z) : Z :=
  if (97 <=? c) && (c <=? 122) then c - 97 + 65 else c.

Section Compare.
  (** [sub]: character subtraction; [up]: [CharUpperAsASCII] for the "I" functions, the
      identity for the others. *)
  Variable sub : Z -> Z -> Z.
  Variable up : Z -> Z.

  (** The loops of StringView.h:166-171, 181-186 and 210-215, 225-230: [n] more rounds
      from index [i]; [inl r] is an early return. *)
  Fixpoint cmp_loop (a b : span Z) (i : Z) (n : nat) : option (Z + Z) :=
    match n with
    | O => Some (inr i)
    | S n' =>
        match rd a i, rd b i with
        | Some x, Some y =>
            let r := sub (up x) (up y) in
            if negb (r =? 0) then Some (inl r) else cmp_loop a b (i + 1) n'
        | _, _ => None
        end
    end.

  (** StringView.h:176-200 (and 220-244). *)
  Definition ViewCompare (a b : span Z) : option Z :=
    match cmp_loop a b 0 (Z.to_nat (Z.min (sp_len a) (sp_len b))) with
    | None => None
    | Some (inl r) => Some r
    | Some (inr _) =>
        if sp_len b <? sp_len a then Some 1
        else if sp_len a <? sp_len b then Some (-1)
        else Some 0
    end.

  (** StringView.h:158-174 (and 202-218): comparison with a NUL-terminated string; the
      last character is compared without [up].  A null pointer is not modelled here. *)
  Definition ViewCompareZ (a z : span Z) : option Z :=
    match cmp_loop a z 0 (Z.to_nat (sp_len a)) with
    | None => None
    | Some (inl r) => Some r
    | Some (inr i) => match rd z i with None => None | Some y => Some (sub 0 y) end
    end.

  (** tchar.h:188-198 (and 355-365): comparison of two NUL-terminated strings; [fuel]
      bounds the rounds, running out of it is [None]. *)
  Fixpoint zcmp_loop (a b : span Z) (i : Z) (fuel : nat) : option Z :=
    match fuel with
    | O => None
    | S f =>
        match rd a i, rd b i with
        | Some x, Some y =>
            let r := sub (up x) (up y) in
            if negb (r =? 0) then Some r
            else if x =? 0 then Some 0
            else zcmp_loop a b (i + 1) f
        | _, _ => None
        end
    end.

  (** tchar.h:173-199 (and 344-366) for two different non-null pointers. *)
  Definition StringCompareZ (a b : span Z) (fuel : nat) : option Z := zcmp_loop a b 0 fuel.

  (** tchar.h:378-397: counted, case-insensitive. *)
  Definition StringCompareIN (a b : span Z) (count : Z) : option Z :=
    match cmp_loop a b 0 (Z.to_nat count) with
    | None => None
    | Some (inl r) => Some r
    | Some (inr _) => Some 0
    end.

  (** tchar.h:281-284: [for (; _uCount && *l == *r; ...); return *l - *r;] the final
      subtraction also runs when the loop ended because [_uCount] reached zero. *)
  Fixpoint eq_loop (a b : span Z) (i : Z) (n : nat) : option Z :=
    match n with
    | O => Some i
    | S n' =>
        match rd a i, rd b i with
        | Some x, Some y => if x =? y then eq_loop a b (i + 1) n' else Some i
        | _, _ => None
        end
    end.

  (** tchar.h:269-285: the generic counted comparison (used for [char32_t]). *)
  Definition StringCompareN (a b : span Z) (count : Z) : option Z :=
    if count =? 0 then Some 0
    else match eq_loop a b 0 (Z.to_nat count) with
         | None => None
         | Some i => match rd a i, rd b i with
                     | Some x, Some y => Some (sub x y)
                     | _, _ => None
                     end
         end.
End Compare.
