(** Model of the timing wheel, class [ThreadTaskRunnerTimerManger]
    (src/YY/Base/Threading/ThreadTaskRunnerTimerManger.h).

    A [Timer] is a name and its expiry [uExpire] in ticks.  Every bucket is a
    [SingleLinkedList] (a queue, see C70), here a list; the bit maps are those of
    BitMapModel.v.  [tpm] is the number of ticks per millisecond, the divisor of
    [TickCount::GetTotalMilliseconds] (TickCount.h:143-146).  [IsCanceled] of a timer is
    the field [canc]; it can change between any two calls.
    Simplifications: times are below 2^63 ms, so the [uint64_t] arithmetic does not wrap
    except where [u64] is written; the local pending list is returned instead of being
    dispatched one by one (the members of the object are up to date before the first
    dispatch, lines 371-381, so that a callback which sets further timers is a later
    operation of the history). *)
From Coq Require Import ZArith Lia Bool List.
From Verif Require Import Word BitMapModel.
Import ListNotations.
Local Open Scope Z_scope.

Record timer := mkt { tid : nat; texp : Z }.

(** Lines 46-58: a wheel with its bit map. *)
Record wheel := mkw { bk : Z -> list timer; bmp : bitmap }.
Definition w_init (n : Z) : wheel := mkw (fun _ => []) (bm_init n).
Definition updz (f : Z -> list timer) (i : Z) (l : list timer) : Z -> list timer :=
  fun j => if j =? i then l else f j.

(** [arrTimingWheelN[i].Push(t); oTimingWheelNBitMap.SetItem(i, true)] (85-87, 92-94, ...). *)
Definition w_push (w : wheel) (i : Z) (t : timer) : wheel :=
  mkw (updz (bk w) i (bk w i ++ [t])) (fst (SetItem (bmp w) i true)).
(** Moving a whole bucket out and [SetItem(i, false)] (153-154, ...); also the pop loops
    of FetchTimingWheel1/2, which empty the bucket before clearing its bit (468-497). *)
Definition w_clear (w : wheel) (i : Z) : wheel :=
  mkw (updz (bk w) i []) (fst (SetItem (bmp w) i false)).

(** Lines 38-58. *)
Record tm := mktm { last : Z; base : Z; w1 : wheel; w2 : wheel; w3 : wheel;
                    oth : list timer; canc : nat -> bool }.
Definition set_w1 s w := mktm (last s) (base s) w (w2 s) (w3 s) (oth s) (canc s).
Definition set_w2 s w := mktm (last s) (base s) (w1 s) w (w3 s) (oth s) (canc s).
Definition set_w3 s w := mktm (last s) (base s) (w1 s) (w2 s) w (oth s) (canc s).
Definition set_oth s l := mktm (last s) (base s) (w1 s) (w2 s) (w3 s) l (canc s).
Definition set_last s t := mktm t (base s) (w1 s) (w2 s) (w3 s) (oth s) (canc s).
Definition set_base s b := mktm (last s) b (w1 s) (w2 s) (w3 s) (oth s) (canc s).

Definition kTick : Z := 8.
Definition kN1 : Z := 128.
Definition kN2 : Z := 64.
Definition kN3 : Z := 64.

Section Timer.
Variable tpm : Z.

(** TickCount.h:143-146. *)
Definition ms (t : Z) : Z := t / tpm.
Definition ems (t : timer) : Z := ms (texp t).

(** Lines 61-66; [now] is [TickCount::GetNow()]. *)
Definition tm_init (now : Z) : tm :=
  mktm now (ms now - ms now mod kTick) (w_init kN1) (w_init kN2) (w_init kN3) [] (fun _ => false).

(** The three ways of putting a timer into a wheel; [nb] is its number of 8 ms blocks. *)
Definition put1 (s : tm) (nb : Z) (t : timer) : tm := set_w1 s (w_push (w1 s) (nb mod kN1) t).
Definition put2 (s : tm) (nb : Z) (t : timer) : tm := set_w2 s (w_push (w2 s) (nb / kN1 mod kN2) t).
Definition put3 (s : tm) (nb : Z) (t : timer) : tm := set_w3 s (w_push (w3 s) (nb / kN1 / kN2 mod kN3) t).

(** Lines 68-109 (for a non-null timer); second result: dispatched timers. *)
Definition SetTimer (s : tm) (t : timer) : tm * list timer :=
  let span := ems t - base s in
  if texp t <=? last s then (s, [t])
  else
    let nb := u64 (base s + span - 1) / kTick in
    if span <=? kTick * kN1 then (put1 s nb t, [])
    else if span <=? kTick * kN1 * kN2 then (put2 s nb t, [])
    else if span <=? kTick * kN1 * kN2 * kN3 then (put3 s nb t, [])
    else (set_oth s (oth s ++ [t]), []).

(** The scan [for (i = i0; ; i += inc) { i = Find(i); if (i < 0 || i >= limit) break; move
    bucket i to the pending list; SetItem(i, false); }] of lines 144-155, 161-172, 188-196,
    and so on; where the code has no limit, [limit] is the number of buckets.  [fuel]
    bounds the rounds; running out of it is [None]. *)
Fixpoint flush (n inc limit : Z) (fuel : nat) (i : Z) (w : wheel) (pend : list timer)
  : option (wheel * list timer) :=
  match fuel with
  | O => None
  | S f =>
      let k := Find n (bmp w) i in
      if k <? 0 then Some (w, pend)
      else if limit <=? k then Some (w, pend)
      else flush n inc limit f (k + inc) (w_clear w k) (pend ++ bk w k)
  end.
Definition fuel_for (n : Z) : nat := Z.to_nat (n + 2).
Definition flush_all (n : Z) (w : wheel) (pend : list timer) := flush n 1 n (fuel_for n) 0 w pend.

(** Lines 141-173 (and 214-241, 296-322): the buckets from [si] up to [ei], wrapping
    round at the end of the wheel. *)
Definition flush_cyc (n inc si ei : Z) (w : wheel) (pend : list timer) : option (wheel * list timer) :=
  match flush n inc (if si <=? ei then ei else n) (fuel_for n) si w pend with
  | None => None
  | Some (w', pend') => if ei <? si then flush n 1 ei (fuel_for n) 0 w' pend' else Some (w', pend')
  end.

(** Lines 551-598: FetchTimingWheel3; [cur] in milliseconds.  The loop runs over the
    former content of [arrTimingWheelOthers]. *)
Fixpoint refill3 (cur : Z) (l : list timer) (s : tm) (pend new : list timer) : tm * list timer * list timer :=
  match l with
  | [] => (s, pend, new)
  | t :: r =>
      if canc s (tid t) || (ems t <=? cur) then refill3 cur r s (pend ++ [t]) new
      else
        let d := ems t - (cur - cur mod kTick) in
        let nb := (ems t - 1) / kTick in
        if d <=? kTick * kN1 then refill3 cur r (put1 s nb t) pend new
        else if d <=? kTick * kN1 * kN2 then refill3 cur r (put2 s nb t) pend new
        else if d <=? kTick * kN1 * kN2 * kN3 then refill3 cur r (put3 s nb t) pend new
        else refill3 cur r s pend (new ++ [t])
  end.
Definition Fetch3 (cur : Z) (s : tm) (pend : list timer) : tm * list timer :=
  let '(s', pend', new) := refill3 cur (oth s) (set_oth s []) pend [] in
  (set_oth s' (oth s' ++ new), pend').

(** Lines 500-549: FetchTimingWheel2; the last case is the one with [assert(false)]. *)
Fixpoint refill2 (cur : Z) (l : list timer) (s : tm) (pend : list timer) : tm * list timer :=
  match l with
  | [] => (s, pend)
  | t :: r =>
      if canc s (tid t) || (ems t <=? cur) then refill2 cur r s (pend ++ [t])
      else
        let d := ems t - (cur - cur mod kTick) in
        let nb := (ems t - 1) / kTick in
        if d <=? kTick * kN1 then refill2 cur r (put1 s nb t) pend
        else if d <=? kTick * kN1 * kN2 then refill2 cur r (put2 s nb t) pend
        else refill2 cur r s (pend ++ [t])
  end.
Definition Fetch2 (i3 cur : Z) (s : tm) (pend : list timer) : tm * list timer :=
  let b := i3 mod kN2 in
  let '(s, pend) := if b =? 0 then Fetch3 cur s pend else (s, pend) in
  refill2 cur (bk (w3 s) b) (set_w3 s (w_clear (w3 s) b)) pend.

(** Lines 453-498: FetchTimingWheel1. *)
Fixpoint refill1 (cur : Z) (l : list timer) (s : tm) (pend : list timer) : tm * list timer :=
  match l with
  | [] => (s, pend)
  | t :: r =>
      if canc s (tid t) || (ems t <=? cur) then refill1 cur r s (pend ++ [t])
      else
        let d := ems t - (cur - cur mod kTick) in
        let nb := (ems t - 1) / kTick in
        if d <=? kTick * kN1 then refill1 cur r (put1 s nb t) pend
        else refill1 cur r s (pend ++ [t])
  end.
Definition Fetch1 (i2 cur : Z) (s : tm) (pend : list timer) : tm * list timer :=
  let b := i2 mod kN2 in
  let '(s, pend) := if b =? 0 then Fetch2 (i2 / kN2) cur s pend else (s, pend) in
  refill1 cur (bk (w2 s) b) (set_w2 s (w_clear (w2 s) b)) pend.

(** Lines 134-178: less than one turn of the first wheel. *)
Definition branch1 (first fin cur : Z) (s : tm) : option (tm * list timer) :=
  let si := first mod kN1 in
  let ei := fin mod kN1 in
  match flush_cyc kN1 0 si ei (w1 s) [] with
  | None => None
  | Some (w, pend) =>
      let s := set_w1 s w in
      Some (if ei <? si then Fetch1 (first / kN1 + 1) cur s pend else (s, pend))
  end.

(** Lines 179-251. *)
Definition branch2 (first fin cur : Z) (s : tm) : option (tm * list timer) :=
  match flush_all kN1 (w1 s) [] with
  | None => None
  | Some (w, pend) =>
      let s := set_w1 s w in
      let sb := first / kN1 in
      let eb := fin / kN1 in
      if sb =? eb then Some (s, pend)
      else
        let sb := sb + 1 in
        let si := sb mod kN2 in
        let ei := eb mod kN2 in
        match (if sb =? eb then Some (w2 s, pend) else flush_cyc kN2 1 si ei (w2 s) pend) with
        | None => None
        | Some (w', pend) =>
            let '(s, pend) := Fetch1 eb cur (set_w2 s w') pend in
            Some (if ei <? si then Fetch2 (first / kN1 / kN2 + 1) cur s pend else (s, pend))
        end
  end.

(** Lines 252-330. *)
Definition branch3 (first fin cur : Z) (s : tm) : option (tm * list timer) :=
  match flush_all kN1 (w1 s) [] with
  | None => None
  | Some (w, pend) =>
      let s := set_w1 s w in
      match flush_all kN2 (w2 s) pend with
      | None => None
      | Some (w, pend) =>
          let s := set_w2 s w in
          let sb := first / kN1 / kN2 in
          let eb := fin / kN1 / kN2 in
          if sb =? eb then Some (s, pend)
          else
            let sb := sb + 1 in
            let si := sb mod kN3 in
            let ei := eb mod kN3 in
            match flush_cyc kN3 1 si ei (w3 s) pend with
            | None => None
            | Some (w, pend) =>
                let '(s, pend) := Fetch2 eb cur (set_w3 s w) pend in
                Some (if ei <? si then Fetch3 cur s pend else (s, pend))
            end
      end
  end.

(** Lines 331-368. *)
Definition branch4 (cur : Z) (s : tm) : option (tm * list timer) :=
  match flush_all kN1 (w1 s) [] with
  | None => None
  | Some (w, pend) =>
      match flush_all kN2 (w2 s) pend with
      | None => None
      | Some (w', pend) =>
          match flush_all kN3 (w3 s) pend with
          | None => None
          | Some (w'', pend) => Some (Fetch3 cur (set_w3 (set_w2 (set_w1 s w) w') w'') pend)
          end
      end
  end.

(** Lines 111-384: ProcessingTimerTasks at tick count [now]; the result is the pending
    list, in the order in which it is dispatched. *)
Definition Process (s : tm) (now : Z) : option (tm * list timer) :=
  if now <=? last s then Some (s, [])
  else
    let s := set_last s now in
    let cur := ms now in
    let span := cur - base s in
    if span =? 0 then Some (s, [])
    else
      let first := base s / kTick in
      let fin := (base s + span) / kTick in
      if first =? fin then Some (s, [])
      else
        match (if span <? kTick * kN1 then branch1 first fin cur s
               else if span <? kTick * kN1 * kN2 then branch2 first fin cur s
               else if span <? kTick * kN1 * kN2 * kN3 then branch3 first fin cur s
               else branch4 cur s) with
        | None => None
        | Some (s, pend) => Some (set_base s (cur - cur mod kTick), pend)
        end.

(** Lines 386-448: GetMinimumWakeupTickCount; [None] is [TickCount::GetMax()], otherwise
    the argument of [TickCount::FromMilliseconds]. *)
Definition MinimumWakeup (s : tm) : option Z :=
  let b2 := kTick * kN1 in
  let b3 := b2 * kN2 in
  let b4 := b3 * kN3 in
  let n1 := base s / kTick in
  let n2 := n1 / kN1 in
  let n3 := n2 / kN2 in
  let others := match oth s with [] => None | _ => Some (base s + b4) end in
  let wheel3 :=
    if IsEmpty (bmp (w3 s)) then others
    else
      let b := base s - base s mod b4 in
      let f := Find kN3 (bmp (w3 s)) ((n3 + 1) mod kN3) in
      if 0 <=? f then Some (b + f * b3) else Some (b + kN3 * b3) in
  let wheel2 :=
    if IsEmpty (bmp (w2 s)) then wheel3
    else
      let b := base s - base s mod b3 in
      let f := Find kN2 (bmp (w2 s)) ((n2 + 1) mod kN2) in
      if 0 <? f then Some (b + f * b2) else Some (b + kN2 * b2) in
  if IsEmpty (bmp (w1 s)) then wheel2
  else
    let i := n1 mod kN1 in
    let f := Find kN1 (bmp (w1 s)) i in
    if 0 <=? f then Some (base s + (f - i + 1) * kTick) else Some (base s + (kN1 - i) * kTick).

(** Histories.  [OCancel] is [Timer::Cancel] (the timer stays in its wheel). *)
Inductive op := OSet (t : timer) | OCancel (i : nat) | OProcess (now : Z).

(** Result: the dispatched timers, each with the manager's clock and whether the timer
    was cancelled at that moment. *)
Definition event := (timer * Z * bool)%type.
Definition stamp (s : tm) (l : list timer) : list event := map (fun t => (t, last s, canc s (tid t))) l.
Definition step (s : tm) (o : op) : option (tm * list event) :=
  match o with
  | OSet t => let '(s', l) := SetTimer s t in Some (s', stamp s' l)
  | OCancel i => Some (mktm (last s) (base s) (w1 s) (w2 s) (w3 s) (oth s)
                            (fun j => if Nat.eqb j i then true else canc s j), [])
  | OProcess now => match Process s now with
                    | None => None
                    | Some (s', l) => Some (s', stamp s' l)
                    end
  end.
Fixpoint runs (s : tm) (ops : list op) : option (tm * list event) :=
  match ops with
  | [] => Some (s, [])
  | o :: r => match step s o with
              | None => None
              | Some (s1, e1) => match runs s1 r with
                                 | None => None
                                 | Some (s2, e2) => Some (s2, e1 ++ e2)
                                 end
              end
  end.
End Timer.
