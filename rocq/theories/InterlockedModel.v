(** Model of include/YY/Base/Sync/Interlocked.h.

    A word is the integer of its bits, [0 <= w < 2^32] or [2^64]; the casts between the signed and
    the unsigned type keep the bits.  The functions BitSet and BitReset are modelled in their
    portable form (the [#else] branches); the intrinsics of the [_MSC_VER] branches are taken to
    do what their documentation says.  [None] is undefined behaviour or a call that does not
    return.
    Memory is sequentially consistent; an intrinsic is one step. *)
From Coq Require Import ZArith Lia Bool List.
From Verif Require Import Slots.
Import ListNotations.
Local Open Scope Z_scope.

(** [const uint32_t mark = 1 << _uOffset] (226, 246, 288, 309): a shift of a 32-bit int by 32 or
    more is undefined. *)
Definition mark (off : Z) : option Z := if off <? 32 then Some (Z.shiftl 1 off) else None.
(** [~mark] of a [uint32_t]. *)
Definition not32 (m : Z) : Z := 2 ^ 32 - 1 - m.

(** 221-230. *)
Definition BitSet32 (off w : Z) : option (bool * Z) :=
  match mark off with
  | Some m => Some (negb (Z.land w m =? 0), Z.lor w m)
  | None => None
  end.
(** 237-250: the same text on a 64-bit word. *)
Definition BitSet64 (off w : Z) : option (bool * Z) :=
  match mark off with
  | Some m => Some (negb (Z.land w m =? 0), Z.lor w m)
  | None => None
  end.
(** 283-292. *)
Definition BitReset32 (off w : Z) : option (bool * Z) :=
  match mark off with
  | Some m => Some (negb (Z.land w m =? 0), Z.land w (not32 m))
  | None => None
  end.
(** 299-313: [~mark] is a [uint32_t] and is widened to 64 bits with zeros. *)
Definition BitReset64 (off w : Z) : option (bool * Z) :=
  match mark off with
  | Some m => Some (negb (Z.land w m =? 0), Z.land w (not32 m))
  | None => None
  end.
(** The overloads of BitReset and whom they call: 294-297, 315-318, 320-323, 325-328, 330-333,
    335-338. *)
Inductive ovl := VU32 | U32 | VU64 | U64 | VI32 | I32 | VI64 | I64.
Definition callee (o : ovl) : option ovl :=
  match o with
  | VU32 | VU64 => None
  | U32 => Some VU32
  | U64 => Some VU64
  | VI32 => Some VI32     (* reinterpret_cast<volatile int32_t*> *)
  | I32 => Some I32       (* const_cast<int32_t*> *)
  | VI64 => Some VU64
  | I64 => Some VI64
  end.
(** A call with [fuel] frames of stack. *)
Fixpoint BitReset (fuel : nat) (o : ovl) (off w : Z) : option (bool * Z) :=
  match fuel with
  | O => None
  | S f =>
      match callee o with
      | Some o' => BitReset f o' off w
      | None => match o with VU32 => BitReset32 off w | _ => BitReset64 off w end
      end
  end.

(** 127-148 and the casts of 155-173: add and fetch. *)
Definition Add (bits : Z) (x w : Z) : Z * Z := let w' := (w + x) mod 2 ^ bits in (w', w').
(** 195-213 for unsigned types: the addend is [~x + 1]. *)
Definition Subtract (bits : Z) (x w : Z) : Z * Z := Add bits ((2 ^ bits - 1 - x + 1) mod 2 ^ bits) w.
(** 175-193 for signed types: [int32_t(~x) + 1] is computed in a signed type. *)
Definition SubtractSigned (bits : Z) (x w : Z) : option (Z * Z) :=
  let n := - x - 1 in                                     (* ~x *)
  if n + 1 =? 2 ^ (bits - 1) then None else Some (Add bits ((n + 1) mod 2 ^ bits) w).

(** * Competing updates of one 32-bit word *)
Inductive req :=
| ROr (v : Z)           (* BitOr,  555-569 *)
| RXor (v : Z)          (* BitXor, 586-600 *)
| RAnd (v : Z)          (* BitAnd, 607-621 *)
| RBitSet (off : Z)     (* 221-230 *)
| RBitReset (off : Z)   (* 283-292 *)
| RAdd (v : Z).         (* 155-158 *)

(** What the exchange of the loop writes, computed from the value read before. *)
Definition loop_value (r : req) (last : Z) : option Z :=
  match r with
  | ROr v => Some (Z.lor last v)
  | RXor v => Some (Z.lxor last v)
  | RAnd v => Some (Z.land last v)
  | _ => None
  end.
(** The single step of the others: result and new word. *)
Definition atomic (r : req) (w : Z) : option (Z * Z) :=
  match r with
  | RBitSet off => match BitSet32 off w with Some (b, w') => Some (Z.b2z b, w') | None => None end
  | RBitReset off => match BitReset32 off w with Some (b, w') => Some (Z.b2z b, w') | None => None end
  | RAdd v => Some (Add 32 v w)
  | _ => None
  end.

(** A thread: the calls still to make, [_iLastVlaue] while it is in a loop, the finished calls
    with their results, and how often its exchange failed. *)
Record thr := THR { todo : list req; last : option Z; fin : list (req * Z); fails : nat }.
(** [log] (ghost): the updates in the order in which they happened: thread, call, old word. *)
Record st := ST { word : Z; thrs : list thr; log : list (nat * req * Z) }.
Definition init (w : Z) (progs : list (list req)) : st := ST w (map (fun p => THR p None [] 0) progs) [].

(** One step of thread [i]. *)
Definition step (i : nat) (s : st) : option st :=
  match nth_error (thrs s) i with
  | Some (THR (r :: rest) l f n) =>
      match loop_value r 0 with
      | None =>
          match atomic r (word s) with
          | Some (x, w') => Some (ST w' (set (thrs s) i (THR rest None (f ++ [(r, x)]) n)) (log s ++ [(i, r, word s)]))
          | None => None
          end
      | Some _ =>
          match l with
          | None =>                                              (* the load before the loop *)
              Some (ST (word s) (set (thrs s) i (THR (r :: rest) (Some (word s)) f n)) (log s))
          | Some c =>                                            (* CompareExchange *)
              if word s =? c then
                Some (ST (match loop_value r c with Some v => v | None => c end)
                         (set (thrs s) i (THR rest None (f ++ [(r, c)]) n)) (log s ++ [(i, r, word s)]))
              else Some (ST (word s) (set (thrs s) i (THR (r :: rest) (Some (word s)) f (S n))) (log s))
          end
      end
  | _ => Some s
  end.
Fixpoint run (l : list nat) (s : st) : option st :=
  match l with [] => Some s | i :: r => match step i s with Some s' => run r s' | None => None end end.
