(** The bit operators of the enumerations of flags: YY.h 52-103, applied to TaskRunnerStyle and
    TaskEntryStyle (TaskRunner.h 26-46, underlying type int) and to ShareMode and Access (File.h 21-40,
    underlying type uint32_t).  A value of an enumeration is the number of its underlying type. *)
From Coq Require Import ZArith Bool.
From Verif Require Import Word InterlockedModel.
Local Open Scope Z_scope.

(** std::underlying_type of the enumeration: int or uint32_t. *)
Inductive under := Int | UInt.

(** The conversion of a number to the type: modulo 2^32; int with the two's complement. *)
Definition conv (u : under) (x : Z) : Z :=
  match u with
  | UInt => u32 x
  | Int => if u32 x <? 2147483648 then u32 x else u32 x - W32
  end.

(** The numbers the type has. *)
Definition fits (u : under) (x : Z) : Prop :=
  match u with
  | UInt => 0 <= x < W32
  | Int => - 2147483648 <= x < 2147483648
  end.

(** YY.h 60-65 (and 53-58): operator| (operator|= writes the same value). *)
Definition op_or (u : under) (l r : Z) : Z := conv u (Z.lor l r).

(** YY.h 74-78 (and 67-72): operator&. *)
Definition op_and (u : under) (l r : Z) : Z := conv u (Z.land l r).

(** YY.h 87-91 (and 80-85): operator^. *)
Definition op_xor (u : under) (l r : Z) : Z := conv u (Z.lxor l r).

(** YY.h 93-97: operator~. *)
Definition op_not (u : under) (l : Z) : Z := conv u (Z.lnot l).

(** YY.h 99-103: HasFlags, the conversion of the number l & r to bool. *)
Definition HasFlags (u : under) (l r : Z) : bool := negb (conv u (Z.land l r) =? 0).

(** TaskRunner.h 26-33. *)
Definition Sequenced : Z := 1.
Definition FixedThread : Z := 2.

(** TaskRunner.h 37-44. *)
Definition Sync : Z := 1.
Definition Canceled : Z := 4.

(** TaskRunner.h 99-102. *)
Definition IsCanceled (fStyle : Z) : bool := HasFlags Int fStyle Canceled.

(** TaskRunner.cpp 72-75: Cancel sets the bit number 2 of fStyle, read as int32_t, and goes on only when
    it was clear; the word BitSet works on is the bit pattern, the result is read as int again. *)
Definition cancel_bit (fStyle : Z) : option (bool * Z) :=
  match BitSet32 2 (u32 fStyle) with
  | Some (old, w) => Some (negb old, conv Int w)
  | None => None
  end.
