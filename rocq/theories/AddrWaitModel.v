(** WaitEqualOnAddress: src/YY/Base/Sync/Sync.cpp 16-93.

    Time is counted in the units of TimeSpan (100 ns), and the performance counter runs at that rate, so that the
    conversions of TickCount are the identity (they are the subject of C37) and do not wrap.  The memory is a function
    [val] from the moment to the value at the address: other threads may write anything at any time.  What happens in
    one round of the loop is chosen by the environment: how long each step takes, how long WaitOnAddress blocks and what
    it returns. *)
From Coq Require Import ZArith List Bool.
Import ListNotations.
Open Scope Z_scope.

Definition UINT32_MAX : Z := 4294967295.
Definition INT64_MAX : Z := 9223372036854775807.
Definition MS : Z := 10000.
(** TimeSpan::GetTotalMilliseconds, TimeSpan.h 97-100. *)
Definition total_ms (span : Z) : Z := Z.quot span MS.

(** One round: [d0] until the value is read, [d1] until the clock is read, [d2] until WaitOnAddress is entered; it then
    blocks for [dw] and returns [ok]. *)
Record round := RD { d0 : Z; d1 : Z; d2 : Z; dw : Z; ok : bool }.

(** What WaitOnAddress promises (documentation of Windows): FALSE only when the given number of milliseconds has passed,
    and never for INFINITE, which is UINT32_MAX.  It may return TRUE at any time (woken, value differs, spurious). *)
Definition honest (ms : Z) (r : round) : Prop :=
  0 <= d0 r /\ 0 <= d1 r /\ 0 <= d2 r /\ 0 <= dw r /\ (ok r = false -> ms <> UINT32_MAX /\ ms * MS <= dw r).

(** The result and the moment of the return; [None]: still inside after the given rounds. *)
Inductive res := Ret (b : bool) (t : Z) | Still (t : Z).

(** The milliseconds that are passed to WaitOnAddress, Sync.cpp 52-53. *)
Definition left_ms (expire now : Z) : Z :=
  let ms := total_ms (expire - now) in if ms <=? 0 then 0 else Z.min ms UINT32_MAX.

Section Wait.
Variable val : Z -> Z.
Variable cmp : Z.

(** Sync.cpp 28-37, the loop for GetMax. *)
Fixpoint forever (t : Z) (l : list round) : res :=
  match l with
  | [] => Still t
  | r :: l =>
      let t := t + d0 r in
      if val t =? cmp then Ret true t else forever (t + d1 r + d2 r + dw r) l
  end.
(** Sync.cpp 42-57, the loop with a time-out. *)
Fixpoint timed (expire t : Z) (l : list round) : res :=
  match l with
  | [] => Still t
  | r :: l =>
      let t := t + d0 r in
      if val t =? cmp then Ret true t
      else
        let t := t + d1 r in
        if expire <? t then Ret false t
        else
          let t := t + d2 r + dw r in
          if ok r then timed expire t l else Ret false t
  end.
(** Sync.cpp 16-59, called at [t]; the first reading of the clock (line 41) happens at once. *)
Definition wait (span t : Z) (l : list round) : res :=
  if total_ms span <=? 0 then match l with r :: _ => Ret (val (t + d0 r) =? cmp) (t + d0 r) | [] => Still t end
  else if span =? INT64_MAX then forever t l
  else timed (t + span) t l.

(** Every round keeps the promise of WaitOnAddress for the time-out it is called with. *)
Fixpoint honest_timed (expire t : Z) (l : list round) : Prop :=
  match l with
  | [] => True
  | r :: l => honest (left_ms expire (t + d0 r + d1 r)) r /\ honest_timed expire (t + d0 r + d1 r + d2 r + dw r) l
  end.
Definition honest_wait (span t : Z) (l : list round) : Prop :=
  if total_ms span <=? 0 then Forall (fun r => 0 <= d0 r) l
  else if span =? INT64_MAX then Forall (honest UINT32_MAX) l
  else honest_timed (t + span) t l.
End Wait.

(** The entry with a size, Sync.cpp 61-93: [bytes] is what is read at the address, as a number of [size] bytes. *)
Definition supported (size : Z) : bool := (size =? 1) || (size =? 2) || (size =? 4) || (size =? 8).
Definition wait_size (bytes : Z -> Z) (cmp size span t : Z) (l : list round) : res :=
  if supported size then wait (fun t => bytes t mod 2 ^ (8 * size)) (cmp mod 2 ^ (8 * size)) span t l else Ret false t.
