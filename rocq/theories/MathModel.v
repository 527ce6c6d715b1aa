(** Model of include/YY/Base/Utils/MathUtils.h and of the portable bit counters of
    src/YY/Base/Threading/ParallelTaskRunnerImpl.hpp.

    Operands are [Z]; unsigned 64-bit arithmetic is made explicit with [u64] at every
    operation that can wrap. Division by zero and signed overflow are undefined in C++:
    functions that can reach them return [None]. *)
From Coq Require Import ZArith Bool List.
From Verif Require Import Word.
Import ListNotations.
Local Open Scope Z_scope.

(** MathUtils.h 17-33, the portable [_umul128]: result (low, high). *)
Definition umul128 (a b : Z) : Z * Z :=
  let alo := u32 a in
  let ahi := u32 (Z.shiftr a 32) in
  let blo := u32 b in
  let bhi := u32 (Z.shiftr b 32) in
  let low := u64 (alo * blo) in
  let mid1 := u64 (alo * bhi) in
  let mid2 := u64 (ahi * blo) in
  let high := u64 (ahi * bhi) in
  let carry := u64 (u64 (Z.shiftr low 32 + u32 mid1) + u32 mid2) in
  let hi := u64 (u64 (u64 (high + Z.shiftr mid1 32) + Z.shiftr mid2 32) + Z.shiftr carry 32) in
  (Z.lor (Z.land low 4294967295) (u64 (Z.shiftl carry 32)), hi).

(** One digit step of [_udiv128] (lines 47-49): shift the remainder by 32 bits (64-bit
    wrap), bring down the next 32-bit digit, divide. Result (quotient digit, remainder). *)
Definition udiv_digit (rem digit d : Z) : Z * Z :=
  let r := Z.lor (u64 (Z.shiftl rem 32)) digit in
  (u32 (r / d), r mod d).

(** MathUtils.h 39-61, the portable [_udiv128]: result (quotient, remainder); [None] is
    the division by zero. [*(uint64_t* )_Ret] reads _Ret[0] and _Ret[1] on a little
    endian machine. *)
Definition udiv128 (hi lo d : Z) : option (Z * Z) :=
  if d =? 0 then None else
  let r3 := Z.shiftr hi 32 mod d in
  let '(_, r2) := udiv_digit r3 (Z.land hi 4294967295) d in
  let '(q1, r1) := udiv_digit r2 (Z.shiftr lo 32) d in
  let '(q0, r0) := udiv_digit r1 (Z.land lo 4294967295) d in
  Some (Z.lor (Z.shiftl q1 32) q0, r0).

(** The AMD64 intrinsics used instead (lines 15 and 37). [_udiv128] is the DIV
    instruction, which traps ([None]) for a zero divisor or a quotient over 64 bits.
    The semantics of the two instructions is part of the trusted base. *)
Definition umul128_intrin (a b : Z) : Z * Z := ((a * b) mod W64, (a * b) / W64).
Definition udiv128_intrin (hi lo d : Z) : option (Z * Z) :=
  if (d =? 0) || (d <=? hi) then None
  else Some ((hi * W64 + lo) / d, (hi * W64 + lo) mod d).

(** MathUtils.h 64-83, [UMulDiv64], over either pair of primitives. *)
Definition UMulDiv64_with (mul : Z -> Z -> Z * Z) (div : Z -> Z -> Z -> option (Z * Z))
    (n num den : Z) : option Z :=
  let '(lo, hi) := mul n num in
  match div hi lo den with
  | None => None
  | Some (q, r) =>
      Some (if r =? 0 then q else if den <=? u64 (r * 2) then u64 (q + 1) else q)
  end.

Definition UMulDiv64 := UMulDiv64_with umul128_intrin udiv128_intrin.
Definition UMulDiv64_portable := UMulDiv64_with umul128 udiv128.

(** MathUtils.h 92-119. *)
Definition UMulDiv64Fast (n num den : Z) : option Z :=
  if num =? 0 then Some 0
  else if den <? num then
    if den =? 0 then None else Some (u64 (n * (num / den)))
  else if num <? den then
    let d := den / num in
    let q := n / d in
    Some (if d <=? u64 ((n mod d) * 2) then u64 (q + 1) else q)
  else Some n.

(** A signed 64-bit result; overflow is undefined behaviour. *)
Definition chk (x : Z) : option Z :=
  if (- W63 <=? x) && (x <? W63) then Some x else None.

Definition bind {A B} (o : option A) (f : A -> option B) : option B :=
  match o with Some a => f a | None => None end.

(** [if (x < 0) { x *= -1; flag = !flag; }] (lines 138-148 and 158-162). *)
Definition strip_sign (x : Z) (neg : bool) : option (Z * bool) :=
  if x <? 0 then bind (chk (x * -1)) (fun y => Some (y, negb neg)) else Some (x, neg).

(** MathUtils.h 128-177. C++ division truncates towards zero: [Z.quot] / [Z.rem]. *)
Definition MulDiv64Fast (n num den : Z) : option Z :=
  if num =? 0 then Some 0 else
  bind (strip_sign num false) (fun '(num, neg) =>
  bind (strip_sign den neg) (fun '(den, neg) =>
  bind
    (if den <? num then
       if den =? 0 then None
       else bind (chk (n * (Z.quot num den))) (fun r => Some (r, neg))
     else if num <? den then
       bind (strip_sign n neg) (fun '(n, neg) =>
       let d := Z.quot den num in
       let q := Z.quot n d in
       bind (chk (Z.rem n d * 2)) (fun twice =>
       if d <=? twice then bind (chk (q + 1)) (fun q' => Some (q', neg))
       else Some (q, neg)))
     else Some (n, neg))
    (fun '(r, neg) => if neg then chk (r * -1) else Some r))).

(** ParallelTaskRunnerImpl.hpp 18-26: one line of [BitsCount32], and the function. *)
Definition swar (wrap : Z -> Z) (m k x : Z) : Z :=
  wrap (Z.land x m + Z.land (Z.shiftr x k) m).

Definition BitsCount32 (x : Z) : Z :=
  let x := swar u32 0x55555555 1 x in
  let x := swar u32 0x33333333 2 x in
  let x := swar u32 0x0f0f0f0f 4 x in
  let x := swar u32 0x00ff00ff 8 x in
  swar u32 0x0000ffff 16 x.

(** ParallelTaskRunnerImpl.hpp 28-37. *)
Definition BitsCount64 (x : Z) : Z :=
  let x := swar u64 0x5555555555555555 1 x in
  let x := swar u64 0x3333333333333333 2 x in
  let x := swar u64 0x0f0f0f0f0f0f0f0f 4 x in
  let x := swar u64 0x00ff00ff00ff00ff 8 x in
  let x := swar u64 0x0000ffff0000ffff 16 x in
  u32 (swar u64 0x00000000ffffffff 32 x).
