(** Models of the small value types: Utils/Version.h, SafeCast.h, Time/TimeSpan.h,
    Time/TickCount.h and Time/DataTime.h. *)
From Coq Require Import ZArith Bool List.
From Verif Require Import Word MathModel.
Import ListNotations.
Local Open Scope Z_scope.

(** ** include/YY/Base/Utils/Version.h *)

(** Version.h 37-43: constructor of the union; [uRevision] is the lowest 16 bits of
    [uInternalValue] on a little endian machine (lines 19-27). *)
Definition Version_make (major minor build revision : Z) : Z :=
  u16 major * 2 ^ 48 + u16 minor * 2 ^ 32 + u16 build * 2 ^ 16 + u16 revision.

(** Version.h 21-27: the 16-bit views. *)
Definition Version_major (v : Z) : Z := u16 (Z.shiftr v 48).
Definition Version_minor (v : Z) : Z := u16 (Z.shiftr v 32).
Definition Version_build (v : Z) : Z := u16 (Z.shiftr v 16).
Definition Version_revision (v : Z) : Z := u16 v.

(** Version.h 51-54, and the pre C++20 operators 62-85. [Version_ne_cpp17] is what line
    84 says: it returns [>]. In C++20 mode (56-60) [<=>] and [==] generate the others. *)
Definition Version_eq (a b : Z) : bool := a =? b.
Definition Version_lt (a b : Z) : bool := a <? b.
Definition Version_le (a b : Z) : bool := a <=? b.
Definition Version_ge (a b : Z) : bool := b <=? a.
Definition Version_gt (a b : Z) : bool := b <? a.
Definition Version_ne_cpp17 (a b : Z) : bool := b <? a.
Definition Version_cmp_cpp20 (a b : Z) : comparison := (a ?= b).
Definition Version_ne_cpp20 (a b : Z) : bool := negb (Version_eq a b).

(** ** include/YY/Base/SafeCast.h *)

(** SafeCast.h 31-39, int32_t to uint8_t. [None] is the [false] result. *)
Definition SafeCast_i32_u8 (x : Z) : option Z :=
  if (255 <? x) || (x <? 0) then None else Some (u8 x).
(** SafeCast.h 42-50, uint32_t to uint16_t. *)
Definition SafeCast_u32_u16 (x : Z) : option Z :=
  if (65535 <? x) || (x <? 0) then None else Some (u16 x).
(** SafeCast.h 19-28: throwing wrapper, [inr E_INVALIDARG] is the exception. *)
Definition E_INVALIDARG : Z := 0x80070057.
Definition SafeCast_throw (f : Z -> option Z) (x : Z) : Z + Z :=
  match f x with Some y => inl y | None => inr E_INVALIDARG end.

(** ** include/YY/Base/Time/Common.h 10-14 and TimeSpan.h 31 *)
Definition kMicrosecondsPerMillisecond : Z := 1000.
Definition kMillisecondsPerSecond : Z := 1000.
Definition kSecondsPerMinute : Z := 60.
Definition kMinutesPerHour : Z := 60.
Definition kHoursPerDay : Z := 24.
Definition kTicksPerMicrosecond : Z := 10.
(** TimeSpan.h 47-50. *)
Definition TimeSpan_TicksPerSecond : Z :=
  kMillisecondsPerSecond * kMicrosecondsPerMillisecond * kTicksPerMicrosecond.

(** ** include/YY/Base/Time/TimeSpan.h. A TimeSpan is its tick count (int64_t); signed
    overflow is [None] (undefined behaviour). *)

(** A left-associated product [n * k1 * k2 ...] of int64_t, each step checked. *)
Fixpoint mulchain (n : Z) (ks : list Z) : option Z :=
  match ks with
  | [] => Some n
  | k :: r => bind (chk (n * k)) (fun m => mulchain m r)
  end.

(** TimeSpan.h 57-85. *)
Definition TimeSpan_FromMicroseconds n := mulchain n [kTicksPerMicrosecond].
Definition TimeSpan_FromMilliseconds n := mulchain n [kMicrosecondsPerMillisecond; kTicksPerMicrosecond].
Definition TimeSpan_FromSeconds n :=
  mulchain n [kMillisecondsPerSecond; kMicrosecondsPerMillisecond; kTicksPerMicrosecond].
Definition TimeSpan_FromMinutes n :=
  mulchain n [kSecondsPerMinute; kMillisecondsPerSecond; kMicrosecondsPerMillisecond; kTicksPerMicrosecond].
Definition TimeSpan_FromHours n :=
  mulchain n [kMinutesPerHour; kSecondsPerMinute; kMillisecondsPerSecond; kMicrosecondsPerMillisecond; kTicksPerMicrosecond].
Definition TimeSpan_FromDays n :=
  mulchain n [kHoursPerDay; kMinutesPerHour; kSecondsPerMinute; kMillisecondsPerSecond; kMicrosecondsPerMillisecond; kTicksPerMicrosecond].

(** TimeSpan.h 92-120 (truncating signed division). *)
Definition TimeSpan_GetTotalMicroseconds t := Z.quot t kTicksPerMicrosecond.
Definition TimeSpan_GetTotalMilliseconds t := Z.quot t (kMicrosecondsPerMillisecond * kTicksPerMicrosecond).
Definition TimeSpan_GetTotalSeconds t :=
  Z.quot t (kMillisecondsPerSecond * kMicrosecondsPerMillisecond * kTicksPerMicrosecond).
Definition TimeSpan_GetTotalMinutes t :=
  Z.quot t (kSecondsPerMinute * kMillisecondsPerSecond * kMicrosecondsPerMillisecond * kTicksPerMicrosecond).
Definition TimeSpan_GetTotalHours t :=
  Z.quot t (kMinutesPerHour * kSecondsPerMinute * kMillisecondsPerSecond * kMicrosecondsPerMillisecond * kTicksPerMicrosecond).
Definition TimeSpan_GetTotalDays t :=
  Z.quot t (kHoursPerDay * kMinutesPerHour * kSecondsPerMinute * kMillisecondsPerSecond * kMicrosecondsPerMillisecond * kTicksPerMicrosecond).

(** TimeSpan.h 124-158 (pre C++20); line 152 makes [>] the same as [>=]. *)
Definition TimeSpan_eq (a b : Z) : bool := a =? b.
Definition TimeSpan_lt (a b : Z) : bool := a <? b.
Definition TimeSpan_le (a b : Z) : bool := a <=? b.
Definition TimeSpan_ge (a b : Z) : bool := b <=? a.
Definition TimeSpan_gt_cpp17 (a b : Z) : bool := b <=? a.
Definition TimeSpan_ne (a b : Z) : bool := negb (a =? b).
Definition TimeSpan_cmp_cpp20 (a b : Z) : comparison := (a ?= b).

(** TimeSpan.h 160-170. *)
Definition TimeSpan_sub (a b : Z) : option Z := chk (a - b).
Definition TimeSpan_add (a b : Z) : option Z := chk (a + b).

(** ** include/YY/Base/Time/TickCount.h. A TickCount is [uTicks]; [f] is the frequency
    returned by QueryPerformanceFrequency (lines 60-73), a parameter of every function. *)

(** TickCount.h 92-120: int64_t products converted to uint64_t. *)
Definition TickCount_FromMicroseconds (f n : Z) : option Z :=
  bind (chk (n * Z.quot f (kMillisecondsPerSecond * kMicrosecondsPerMillisecond))) (fun x => Some (u64 x)).
Definition TickCount_FromMilliseconds (f n : Z) : option Z :=
  bind (chk (n * Z.quot f kMillisecondsPerSecond)) (fun x => Some (u64 x)).
Definition TickCount_FromSeconds (f n : Z) : option Z :=
  bind (mulchain n [f]) (fun x => Some (u64 x)).
Definition TickCount_FromMinutes (f n : Z) : option Z :=
  bind (mulchain n [f; kSecondsPerMinute]) (fun x => Some (u64 x)).
Definition TickCount_FromHours (f n : Z) : option Z :=
  bind (mulchain n [f; kSecondsPerMinute; kMinutesPerHour]) (fun x => Some (u64 x)).
Definition TickCount_FromDays (f n : Z) : option Z :=
  bind (mulchain n [f; kSecondsPerMinute; kMinutesPerHour; kHoursPerDay]) (fun x => Some (u64 x)).

(** unsigned division, [None] when the divisor is zero *)
Definition udiv (a b : Z) : option Z := if b =? 0 then None else Some (a / b).

(** TickCount.h 135-167: the int64_t divisor is converted to uint64_t. *)
Definition TickCount_GetTotalMicroseconds (f t : Z) : option Z :=
  udiv t (u64 (Z.quot f (kMillisecondsPerSecond * kMicrosecondsPerMillisecond))).
Definition TickCount_GetTotalMilliseconds (f t : Z) : option Z :=
  udiv t (u64 (Z.quot f kMillisecondsPerSecond)).
Definition TickCount_GetTotalSeconds (f t : Z) : option Z := udiv t (u64 f).
Definition TickCount_GetTotalMinutes (f t : Z) : option Z :=
  bind (mulchain f [kSecondsPerMinute]) (fun d => udiv t (u64 d)).
Definition TickCount_GetTotalHours (f t : Z) : option Z :=
  bind (mulchain f [kSecondsPerMinute; kMinutesPerHour]) (fun d => udiv t (u64 d)).
Definition TickCount_GetTotalDays (f t : Z) : option Z :=
  bind (mulchain f [kSecondsPerMinute; kMinutesPerHour; kHoursPerDay]) (fun d => udiv t (u64 d)).

(** TickCount.h 208-213 and 222-227; the signed span is converted to uint64_t. *)
Definition TickCount_add (f t span : Z) : option Z :=
  bind (UMulDiv64Fast (u64 span) (u64 f) TimeSpan_TicksPerSecond) (fun x => Some (u64 (t + x))).
Definition TickCount_sub (f t span : Z) : option Z :=
  bind (UMulDiv64Fast (u64 span) (u64 f) TimeSpan_TicksPerSecond) (fun x => Some (u64 (t - x))).
(** TickCount.h 236-242: difference, clamped to INT64_MAX. *)
Definition TickCount_diff (f a b : Z) : option Z :=
  let neg := a <? b in
  bind (UMulDiv64Fast (if neg then u64 (b - a) else u64 (a - b)) TimeSpan_TicksPerSecond (u64 f))
    (fun d => let d := Z.min d (W63 - 1) in Some (if neg then - d else d)).

(** ** include/YY/Base/Time/DataTime.h. A UtcDataTime (or LocalDataTime) is [uTicks],
    100 ns since 1601; UINT64_MAX is the invalid default (line 28). *)
Definition kUnixEpoch : Z := 116444736000000000.

(** DataTime.h 71-79 (and 226-236). [time_t] is 64 bit. *)
Definition FromUnixTimestamp (t : Z) : Z :=
  if t =? -1 then U64MAX else u64 (u64 (u64 t * 10000000) + kUnixEpoch).
(** DataTime.h 85-94 (and 242-251). *)
Definition ToUnixTimestamp (x : Z) : Z :=
  if 0x8000000000000000 <=? x then -1
  else if x <? kUnixEpoch then -1
  else (x - kUnixEpoch) / 10000000.
(** DataTime.h 135-152 and 161-164 (and 292-321). *)
Definition DataTime_add (x span : Z) : Z := u64 (x + u64 span).
Definition DataTime_sub (x span : Z) : Z := u64 (x - u64 span).
Definition DataTime_diff (a b : Z) : Z := s64 (u64 (a - b)).

(** src/YY/Base/Time/DataTime.cpp 11-75, over the Windows calls as parameters:
    [ft2st] FileTimeToSystemTime, [st2ft] SystemTimeToFileTime (on failure the target
    keeps its default UINT64_MAX: its result is ignored, DataTime.h 41-44, 193-197),
    [u2l] SystemTimeToTzSpecificLocalTimeEx, [l2u] TzSpecificLocalTimeToSystemTimeEx.
    A SYSTEMTIME is left abstract. *)
Section TimeZone.
  Variable SYSTEMTIME : Type.
  Variable ft2st : Z -> option SYSTEMTIME.
  Variable st2ft : SYSTEMTIME -> option Z.
  Variable u2l l2u : SYSTEMTIME -> option SYSTEMTIME.

  Definition from_systemtime (s : SYSTEMTIME) : Z :=
    match st2ft s with Some x => x | None => U64MAX end.

  (** DataTime.cpp 22-42 and 55-75 share this shape; exceptions give the invalid time. *)
  Definition convert (tz : SYSTEMTIME -> option SYSTEMTIME) (ticks : Z) : Z :=
    match ft2st ticks with
    | None => U64MAX
    | Some s =>
        match tz s with
        | None => U64MAX
        | Some s' => u64 (from_systemtime s' + ticks mod (kTicksPerMicrosecond * kMicrosecondsPerMillisecond))
        end
    end.
  Definition ToLocalDataTime := convert u2l.
  Definition ToUtcDataTime := convert l2u.
End TimeZone.
