(** Model of [BitMap<uBits>] (include/YY/Base/Containers/BitMap.h) and of the bit
    operations it uses (include/YY/Base/Sync/Interlocked.h:221-318), Windows/AMD64 path;
    the portable paths of [BitFind] and [BitReset] are modelled too.

    [arrBits] is a list of 64-bit words.  The members are single-threaded here
    (each bit operation is atomic in the code; C48 covers concurrent use). *)
From Coq Require Import ZArith Lia Bool List.
From Verif Require Import Word.
Import ListNotations.
Local Open Scope Z_scope.

(** BitMap.h:144-145. *)
Record bitmap := mkbm { bm_words : list Z; bm_count : Z }.

(** BitMap.h:144, 150-154: [(uBits + 63) / 64] zero words. *)
Definition bm_init (ubits : Z) : bitmap :=
  mkbm (repeat 0 (Z.to_nat ((ubits + 64 - 1) / 64))) 0.

Fixpoint set_nth (l : list Z) (k : nat) (v : Z) : list Z :=
  match l, k with
  | [], _ => []
  | _ :: t, O => v :: t
  | x :: t, S k' => x :: set_nth t k' v
  end.

(** [_interlockedbittestandset64] (Interlocked.h:237-250): the bit offset selects the word
    [off / 64] from the base address and the bit [off mod 64] in it; returns the old bit. *)
Definition BitSet (ws : list Z) (off : Z) : list Z * bool :=
  let k := Z.to_nat (off / 64) in
  let w := nth k ws 0 in
  (set_nth ws k (Z.setbit w (off mod 64)), Z.testbit w (off mod 64)).

(** [_interlockedbittestandreset64] (Interlocked.h:299-313). *)
Definition BitReset (ws : list Z) (off : Z) : list Z * bool :=
  let k := Z.to_nat (off / 64) in
  let w := nth k ws 0 in
  (set_nth ws k (Z.clearbit w (off mod 64)), Z.testbit w (off mod 64)).

(** [_bittest64] (BitMap.h:40-49, 64-69). *)
Definition BitGet (ws : list Z) (off : Z) : bool :=
  Z.testbit (nth (Z.to_nat (off / 64)) ws 0) (off mod 64).

(** [_BitScanForward64]: index of the lowest set bit. *)
Fixpoint ctz_pos (p : positive) : Z :=
  match p with
  | xO q => 1 + ctz_pos q
  | _ => 0
  end.
Definition bsf (w : Z) : option Z :=
  match w with
  | Zpos p => Some (ctz_pos p)
  | _ => None
  end.

(** BitMap.h:101-115: [BitFind] on a 64-bit word, Windows path. *)
Definition BitFind64 (w i : Z) : Z :=
  match bsf (Z.shiftr w i) with
  | Some n => i + n
  | None => -1
  end.

(** BitMap.h:166-188. *)
Definition SetItem (b : bitmap) (i : Z) (v : bool) : bitmap * bool :=
  if v then
    let '(ws, old) := BitSet (bm_words b) i in
    (mkbm ws (if negb old then u32 (bm_count b + 1) else bm_count b), old)
  else
    let '(ws, old) := BitReset (bm_words b) i in
    (mkbm ws (if old then u32 (bm_count b - 1) else bm_count b), old).

(** BitMap.h:190-195. *)
Definition GetItem (b : bitmap) (i : Z) : bool := BitGet (bm_words b) i.

(** BitMap.h:156-164. *)
Definition GetSize (b : bitmap) : Z := bm_count b.
Definition IsEmpty (b : bitmap) : bool := bm_count b =? 0.

(** BitMap.h:214-221: the loop over the following words. *)
Fixpoint find_blocks (bf : Z -> Z -> Z) (ws : list Z) (k : Z) : Z :=
  match ws with
  | [] => -1
  | w :: t => let r := bf w 0 in
              if 0 <=? r then r + k * 64 else find_blocks bf t (k + 1)
  end.

(** BitMap.h:202-224. [bf] is the [BitFind] of the platform. *)
Definition FindWith (bf : Z -> Z -> Z) (ubits : Z) (b : bitmap) (i : Z) : Z :=
  if ubits <=? i then -1
  else
    let k := i / 64 in
    let r := bf (nth (Z.to_nat k) (bm_words b) 0) (i mod 64) in
    if 0 <=? r then r + k * 64
    else find_blocks bf (skipn (S (Z.to_nat k)) (bm_words b)) (k + 1).
Definition Find := FindWith BitFind64.

(** BitMap.h:71-96, 116-135: the portable [BitFind]s.  A shift by 32 or more of a 32-bit
    word is undefined; the model uses the shift count modulo 32 (x86). *)
Definition BitFind32_portable (w i : Z) : Z :=
  match bsf (Z.shiftr w (i mod 32)) with
  | Some n => n + i
  | None => -1
  end.
Definition BitFind64_portable (w i : Z) : Z :=
  let high :=
    let r := BitFind32_portable (w / W32) (u32 (i - 32)) in
    if 0 <=? r then r + 32 else 0 (* return false *) in
  if i <? 32 then
    let r := BitFind32_portable (w mod W32) i in
    if 0 <=? r then r else high
  else high.

(** Interlocked.h:308-312: the portable 64-bit [BitReset]: the mask [~_fRemoveMark] is a
    32-bit value, so it is zero-extended. *)
Definition BitReset64_portable (w off : Z) : Z * bool :=
  let mark := u32 (Z.shiftl 1 off) in
  (Z.land w (W32 - 1 - mark), negb (Z.land w mark =? 0)).
