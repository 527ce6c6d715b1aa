(** Model of CompareExchangeTwoPoints (include/YY/Base/Sync/Interlocked.h 460-481).

    A pointer is the unsigned integer of its bits.  A pair of pointers is what the two words hold,
    the one at the lower address first.  Both processors are little-endian.  The 64-bit and the
    128-bit exchange are single steps that do what their documentation says.
    Not modelled: the alignment that the exchange of 128 bits needs. *)
From Coq Require Import ZArith Bool List.
From Verif Require Import Slots.
Import ListNotations.
Local Open Scope Z_scope.

Definition pair_eqb (a b : Z * Z) : bool := (fst a =? fst b) && (snd a =? snd b).

(** [*reinterpret_cast<int64_t*>(p)] of two 32-bit words (472, 474): a signed integer. *)
Definition load64 (p : Z * Z) : Z :=
  let u := fst p + snd p * 2 ^ 32 in if u <? 2 ^ 63 then u else u - 2 ^ 64.
(** [*reinterpret_cast<int64_t*>(p) = v] (475). *)
Definition store64 (v : Z) : Z * Z := (v mod 2 ^ 32, (v / 2 ^ 32) mod 2 ^ 32).
(** CompareExchange of 64 bits (426-433): the previous value and the new one. *)
Definition CompareExchange64 (dst exch comparand : Z) : Z * Z :=
  (dst, if dst =? comparand then exch else dst).

(** Result, the destination after, [_pComparandResult] after. *)
Definition answer : Type := bool * (Z * Z) * (Z * Z).

(** 470-476, for [_X86_] and [_ARM_]. *)
Definition Two32 (dst exch comparand : Z * Z) : answer :=
  let iComparand := load64 comparand in
  let '(iPreValue, dst') := CompareExchange64 (load64 dst) (load64 exch) iComparand in
  (iPreValue =? iComparand, store64 dst', store64 iPreValue).

(** InterlockedCompareExchange128(Destination, ExchangeHigh, ExchangeLow, ComparandResult): the
    original value of the destination is written to ComparandResult in either case. *)
Definition CompareExchange128 (dst : Z * Z) (high low : Z) (comparand : Z * Z) : answer :=
  if pair_eqb dst comparand then (true, (low, high), dst) else (false, dst, dst).
(** 478-479. *)
Definition Two64 (dst exch comparand : Z * Z) : answer :=
  CompareExchange128 dst (snd exch) (fst exch) comparand.

(** * Competing updates of one pair

    The loop the interface is made for:
    [do { exch = f(comparand); } while (!CompareExchangeTwoPoints(dst, exch, comparand));]
    The first comparand is loaded one word at a time, so it may be torn: it is any pair. *)
Section Compete.
Variable Two : Z * Z -> Z * Z -> Z * Z -> answer.

Record thr := THR { todo : list (Z * Z -> Z * Z); comparand : option (Z * Z); missed : nat }.
(** [log] (ghost): the updates in the order in which they took effect. *)
Record st := ST { dst : Z * Z; thrs : list thr; log : list (nat * (Z * Z -> Z * Z)) }.
Definition init (p : Z * Z) (progs : list (list (Z * Z -> Z * Z))) : st :=
  ST p (map (fun l => THR l None 0) progs) [].

(** One step of thread [i]; [torn] is what its two loads see, if it is about to load. *)
Definition step (i : nat) (torn : Z * Z) (s : st) : st :=
  match nth_error (thrs s) i with
  | Some (THR (f :: rest) None n) =>
      ST (dst s) (set (thrs s) i (THR (f :: rest) (Some torn) n)) (log s)
  | Some (THR (f :: rest) (Some c) n) =>
      let '(ok, d, c') := Two (dst s) (f c) c in
      if ok then ST d (set (thrs s) i (THR rest None n)) (log s ++ [(i, f)])
      else ST d (set (thrs s) i (THR (f :: rest) (Some c') (S n))) (log s)
  | _ => s
  end.
Definition run (l : list (nat * (Z * Z))) (s : st) : st :=
  fold_left (fun s x => step (fst x) (snd x) s) l s.
End Compete.
