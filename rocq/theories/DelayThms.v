(** Property theorems C131-C133: delays, periodic timers and time-outs. *)
From Coq Require Import ZArith Lia Bool List ZifyBool.
From Verif Require Import Word MathModel ValueModel DelayModel DelayProofs.
Import ListNotations.
Local Open Scope Z_scope.

(** ** What the system does with the answer.
    Times are readings of the performance counter with [f] ticks per second. A posted task
    runs at some time after it was posted; a timer-queue timer fires no sooner than its due
    time in (real) milliseconds, and one with the due time INFINITE never fires. *)
Definition happens (f now2 : Z) (a : armed) (T : Z) : Prop :=
  match a with
  | Refused => False
  | Posted at_ => at_ <= T
  | Pool due => due <> 4294967295 /\ due * f <= 1000 * (T - now2)
  end.

(** [T] is at most one millisecond and one counter tick before [d] units of 100 ns have
    passed since [now0]; multiplied by [10^7 f] / ticks: *)
Definition not_early (f now0 d T : Z) : Prop :=
  (d - 10000) * f < 10000000 * (T - now0) + 10000000.
(** the same, also allowing as much again as the calls took between the clock readings *)
Definition nearly_not_early (f now0 now2 d T : Z) : Prop :=
  (d - 10000) * f < 10000000 * (T - now0) + 10000000 + 10000000 * (now2 - now0).

(** Counters below 10 MHz or at a multiple of 10 MHz. *)
Definition even_counter (f : Z) : Prop := f < 10000000 \/ f mod 10000000 = 0.

(** Arithmetic with nothing else in the context. *)
Lemma ar_pool : forall d f s due e t c, 0 < f -> s < 10000 * (due + 1) -> 0 <= s ->
  2 * (d * f) <= 2 * (c * (M * e)) + 2 * (s * f) + f + M ->
  due * f <= 1000 * t -> (d - 10000) * f < 10000000 * t + c * (M * e) + M.
Proof.
  intros d f s due e t c Hf Hs Hs0 H HT. unfold M in *.
  assert (s * f <= (10000 * due + 9999) * f) by (apply Z.mul_le_mono_nonneg_r; lia). lia.
Qed.

Lemma ar_post : forall d f s e t c, 0 < f -> s < 10000 ->
  2 * (d * f) <= 2 * (c * (M * e)) + 2 * (Z.max s 0 * f) + f + M ->
  0 <= t -> (d - 10000) * f < 10000000 * t + c * (M * e) + M.
Proof.
  intros d f s e t c Hf Hs H Ht. unfold M in *.
  assert (Z.max s 0 * f <= 9999 * f) by (apply Z.mul_le_mono_nonneg_r; lia). lia.
Qed.

(** What SetTimerInternal does with an expiry time [d] after [now0]. *)
Lemma arm_spec : forall f d now0 now1 now2, 0 < f < 2 ^ 63 -> fits f now0 d ->
  now0 <= now1 <= now2 -> now2 < 2 ^ 64 ->
  exists expire a, TickCount_add f now0 d = Some expire /\
    SetTimerInternal f false expire now1 now2 = Some a /\ a <> Refused /\
    (forall t, a = Posted t -> now1 <= t <= now2) /\
    (forall due, a = Pool due -> 1 <= due <= UINT32_MAX /\ 2 * (10000 * due) <= 2 * d + 10000000 / f) /\
    (forall T, happens f now2 a T ->
       nearly_not_early f now0 now2 d T /\ (even_counter f -> not_early f now0 d T)).
Proof.
  intros f d now0 now1 now2 Hf Hfit Hn Hn2.
  destruct (left_bounds f now0 now1 d Hf Hfit ltac:(lia)) as (x & s1 & Ea & Hx & E1 & Hs1 & U1 & L1 & K1).
  destruct (left_bounds f now0 now2 d Hf Hfit ltac:(lia)) as (x' & s2 & Ea' & _ & E2 & Hs2 & U2 & L2 & K2).
  rewrite Ea in Ea'. assert (x' = x) by (injection Ea'; lia). subst x'. clear Ea'.
  exists (now0 + x). assert (H0 : 0 <= now0) by (destruct Hfit; assumption).
  assert (HM : 0 <= M * (now2 - now1) /\ 0 <= M * (now1 - now0)) by (unfold M; lia).
  assert (Hpost : forall s n, n = now1 \/ n = now2 -> s < 10000 ->
     2 * (d * f) <= 4 * (M * (n - now0)) + 2 * (Z.max s 0 * f) + f + M ->
     (f < M \/ f mod M = 0 -> 2 * (d * f) <= 2 * (M * (n - now0)) + 2 * (Z.max s 0 * f) + f + M) ->
     forall T, n <= T ->
     nearly_not_early f now0 now2 d T /\ (even_counter f -> not_early f now0 d T)).
  { intros s n Hnn Hz L K T HT. clear L1 K1 L2 K2 U1 U2 Ea E1 E2.
    unfold nearly_not_early, not_early, even_counter. split.
    - pose proof (ar_post d f s (n - now0) 0 2 ltac:(lia) Hz ltac:(lia) ltac:(lia)) as G. unfold M in *. lia.
    - intros Hev. specialize (K Hev).
      pose proof (ar_post d f s (n - now0) 0 1 ltac:(lia) Hz ltac:(lia) ltac:(lia)) as G. unfold M in *. lia. }
  unfold SetTimerInternal. rewrite E1. cbn [bind].
  destruct (Z.eqb_spec (now0 + x) 0) as [Z0|Z0].
  { exists (Posted now1). split; [exact Ea|]. split; [reflexivity|]. split; [discriminate|].
    split; [intros t [= <-]; lia|]. split; [discriminate|].
    cbn [happens]. apply (Hpost s1 now1); [lia| |assumption|assumption].
    destruct (diff_bounds f (now0 + x) now1 Hf ltac:(lia) ltac:(lia)) as (s & Es & _ & Q & _).
    rewrite E1 in Es. injection Es as <-. specialize (Q ltac:(lia)). lia. }
  destruct (Z.leb_spec (TimeSpan_GetTotalMilliseconds s1) 0) as [Z1|Z1].
  { exists (Posted now1). split; [exact Ea|]. split; [reflexivity|]. split; [discriminate|].
    split; [intros t [= <-]; lia|]. split; [discriminate|].
    cbn [happens]. apply (Hpost s1 now1); [lia|apply ms_zero; exact Z1|assumption|assumption]. }
  unfold dispatch_timer. rewrite E2. cbn [bind].
  destruct (Z.leb_spec (TimeSpan_GetTotalMilliseconds s2) 0) as [Z2|Z2].
  { exists (Posted now2). split; [exact Ea|]. split; [reflexivity|]. split; [discriminate|].
    split; [intros t [= <-]; lia|]. split; [discriminate|].
    cbn [happens]. apply (Hpost s2 now2); [lia|apply ms_zero; exact Z2|assumption|assumption]. }
  eexists. split; [exact Ea|]. split; [reflexivity|]. split; [discriminate|]. split; [discriminate|].
  destruct (ms_pos _ Z2) as (P2 & Q2).
  set (ms := TimeSpan_GetTotalMilliseconds s2) in *. clearbody ms.
  assert (Pms : 1 <= ms) by lia.
  split.
  { intros due [= <-]. unfold M in *. unfold UINT32_MAX. lia. }
  intros T HT. cbn [happens] in HT. unfold UINT32_MAX in HT. destruct HT as [HI HT].
  assert (Emin : Z.min ms 4294967295 = ms) by lia. rewrite Emin in HT.
  rewrite Z.max_l in L2, K2 by lia. clear L1 K1 U1 U2 Ea E1 E2 Hpost.
  unfold nearly_not_early, not_early, even_counter. split.
  - pose proof (ar_pool d f s2 ms (now2 - now0) (T - now2) 2 ltac:(lia) ltac:(lia) ltac:(lia) ltac:(lia) HT) as G.
    unfold M in *. lia.
  - intros Hev. specialize (K2 Hev).
    pose proof (ar_pool d f s2 ms (now2 - now0) (T - now2) 1 ltac:(lia) ltac:(lia) ltac:(lia) ltac:(lia) HT) as G.
    unfold M in *. lia.
Qed.

(** ** C131: delayed tasks *)

(** A delay that is not negative and whose end still is a 64-bit counter value: the task
    is accepted; what is asked of the system is at most the delay (and half a counter
    tick); and whenever the task runs, at most one millisecond and one tick of the delay
    are missing. For counters above 10 MHz that are not a multiple of it, the time between
    the clock readings can be missing once more. Missing from the claim "a task never runs
    before its delay has passed, and does run": the last millisecond
    ([C131_early_refuted]), delays of 49.7 days and more ([C131_never_refuted]), delays
    that do not fit ([C131_wrap_refuted]), negative delays on slow counters
    ([C131_negative_refuted]). *)
Theorem C131_delay_partial : forall f d now0 now1 now2,
  0 < f < 2 ^ 63 -> 0 <= now0 -> 0 <= d < 2 ^ 63 -> now0 + d * (f / 10000000 + 1) + 1 < 2 ^ 64 ->
  now0 <= now1 <= now2 -> now2 < 2 ^ 64 ->
  exists a, PostDelayTask f d now0 now1 now2 = Some a /\
    (forall t, a = Posted t -> now1 <= t <= now2) /\
    (forall due, a = Pool due -> 1 <= due <= 4294967295 /\ 2 * (10000 * due) <= 2 * d + 10000000 / f) /\
    a <> Refused /\
    (forall T, happens f now2 a T ->
       nearly_not_early f now0 now2 d T /\ (even_counter f -> not_early f now0 d T)).
Proof.
  intros f d now0 now1 now2 Hf H0 Hd Hfit Hn Hn2.
  destruct (arm_spec f d now0 now1 now2 Hf ltac:(repeat split; assumption || lia) Hn Hn2)
    as (ex & a & Ea & Es & R & P & Q & T).
  exists a. unfold PostDelayTask. rewrite Ea. cbn [bind]. auto.
Qed.
Print Assumptions C131_delay_partial.

Example C131_case : PostDelayTask 10000000 15000000 1000 1010 1020 = Some (Pool 1499) /\
  PostDelayTask 3579545 15000000 1000 1010 1020 = Some (Pool 1499) /\
  PostDelayTask 10000000 15000 1000 7000 7010 = Some (Posted 7000) /\
  PostDelayTask 10000000 15000 1000 5000 7000 = Some (Posted 7000).
Proof. vm_compute. auto. Qed.

(** Delays up to 49.7 days (less half a counter tick) do happen: what is asked of the
    system is not INFINITE. *)
Theorem C131_happens : forall f d now0 now1 now2 a,
  0 < f < 2 ^ 63 -> 0 <= now0 -> now0 + d * (f / 10000000 + 1) + 1 < 2 ^ 64 ->
  0 <= d -> 2 * d + 10000000 / f < 2 * (10000 * 4294967295) ->
  now0 <= now1 <= now2 -> now2 < 2 ^ 64 ->
  PostDelayTask f d now0 now1 now2 = Some a ->
  exists T, happens f now2 a T.
Proof.
  intros f d now0 now1 now2 a Hf H0 Hfit Hd Hmost Hn Hn2 HP.
  assert (0 <= 10000000 / f) by (apply Z.div_pos; lia).
  destruct (C131_delay_partial f d now0 now1 now2 Hf H0 ltac:(lia) Hfit Hn Hn2) as (a' & E & P & Q & R & _).
  rewrite HP in E. injection E as <-.
  destruct a as [|t|due]; [congruence| |].
  - exists t. cbn. lia.
  - exists (now2 + due * f). unfold happens. destruct (Q due eq_refl) as [Q1 Q2]. split; [lia|].
    assert (0 <= due * f) by (apply Z.mul_nonneg_nonneg; lia). lia.
Qed.
Print Assumptions C131_happens.

(** A delay that is zero or negative runs at once if the counter has at least 10 MHz and
    has run for longer than the delay is negative. *)
Theorem C131_at_once : forall f d now0 now1 now2,
  10000000 <= f < 2 ^ 63 -> 0 <= now0 < 2 ^ 64 -> - 2 ^ 63 < d <= 0 -> 0 <= now0 + d * (f / 10000000) ->
  now0 <= now1 < 2 ^ 64 ->
  PostDelayTask f d now0 now1 now2 = Some (Posted now1).
Proof.
  intros f d now0 now1 now2 Hf H0 Hd Hfit Hn.
  assert (Hk : 1 <= f / 10000000) by (apply Z.div_le_lower_bound; lia).
  assert (Hle : d * (f / 10000000) <= 0) by (apply Z.mul_nonpos_nonneg; lia).
  destruct (TickThms.C37_TickCount_fast_counter f now0 d Hf H0 ltac:(lia) ltac:(lia))
    as (t & Ea & Et & _ & _).
  unfold PostDelayTask. rewrite Ea. cbn [bind]. unfold SetTimerInternal.
  destruct (t =? 0); [reflexivity|].
  destruct (diff_bounds f t now1 ltac:(lia) ltac:(lia) ltac:(lia)) as (s & Es & _ & Q & _).
  rewrite Es. cbn [bind]. pose proof (ms_neg s (Q ltac:(lia))).
  destruct (Z.leb_spec (TimeSpan_GetTotalMilliseconds s) 0); [reflexivity|lia].
Qed.
Print Assumptions C131_at_once.

(** REFUTED: the last millisecond is not waited for; a delay of 0.9999 ms is none. *)
Theorem C131_early_refuted : exists f d now0 now1 now2 T,
  f = 10000000 /\ 0 < d /\ now0 <= now1 <= now2 /\
  PostDelayTask f d now0 now1 now2 = Some (Posted now1) /\
  happens f now2 (Posted now1) T /\ T < now0 + d.
Proof. exists 10000000, 9999, 1000, 1000, 1000, 1000. vm_compute. repeat split; auto; discriminate. Qed.
Print Assumptions C131_early_refuted.

(** REFUTED: every delay of 2^32 - 1 ms (49.7 days) or more that fits is handed to the
    timer queue as INFINITE when the clock stands still, so the task never runs. *)
Theorem C131_never_refuted : forall f d now,
  10000000 <= f < 2 ^ 63 -> 0 < now -> 4294967295 * 10000 <= d < 2 ^ 63 ->
  now + d * (f / 10000000 + 1) + 1 < 2 ^ 64 ->
  PostDelayTask f d now now now = Some (Pool 4294967295) /\
  (forall T, ~ happens f now (Pool 4294967295) T).
Proof.
  intros f d now Hf H0 Hd Hfit. split; [|intros T [A _]; congruence].
  assert (Hk : 1 <= f / 10000000) by (apply Z.div_le_lower_bound; lia).
  assert (Hle : 0 <= d * (f / 10000000)) by (apply Z.mul_nonneg_nonneg; lia).
  destruct (TickThms.C37_TickCount_fast_counter f now d Hf ltac:(lia) ltac:(lia) ltac:(lia))
    as (t & Ea & Et & A & _ & Ed & _).
  unfold PostDelayTask. rewrite Ea. cbn [bind]. unfold SetTimerInternal, dispatch_timer. rewrite Ed. cbn [bind].
  destruct (Z.eqb_spec t 0); [lia|]. rewrite !ms_floor by lia.
  assert (4294967295 <= d / 10000) by (apply Z.div_le_lower_bound; lia).
  destruct (Z.leb_spec (d / 10000) 0); [lia|]. rewrite Z.min_r by (unfold UINT32_MAX; lia). reflexivity.
Qed.
Print Assumptions C131_never_refuted.

Example C131_case_never : PostDelayTask 10000000 (50 * 86400 * 10000000) 1000 1000 1000 = Some (Pool 4294967295).
Proof. reflexivity. Qed.

(** REFUTED: TimeSpan::GetMax() as the delay wraps round on a 20 MHz counter and the task
    runs at once. *)
Theorem C131_wrap_refuted : exists f d now, f = 20000000 /\ d = 2 ^ 63 - 1 /\ 0 < now /\
  PostDelayTask f d now now now = Some (Posted now).
Proof. exists 20000000, (2 ^ 63 - 1), 1000. vm_compute. repeat split; auto. Qed.
Print Assumptions C131_wrap_refuted.

(** REFUTED: a negative delay on a counter below 10 MHz never runs. *)
Theorem C131_negative_refuted : exists f d now, 0 < f < 10000000 /\ d < 0 /\ 0 < now /\
  PostDelayTask f d now now now = Some (Pool 4294967295).
Proof. exists 3579545, (-10000000), 1000000000. vm_compute. repeat split; auto. Qed.
Print Assumptions C131_negative_refuted.

(** ** C132: periodic timers *)

(** One period: the callback started right after the reading [b0] in line 114, the timer
    was set again with the readings [b1], [b2], and the next callback reads the clock at
    [b0']. *)
Record beat := Beat { b0 : Z; b1 : Z; b2 : Z }.

(** A life of a periodic timer: the timer was set again by every run. *)
Inductive periods (f interval : Z) : list beat -> Prop :=
| P_one : forall b, periods f interval [b]
| P_next : forall b b' l a,
    RunTask f interval false true true false (b0 b) (b1 b) (b2 b) = Some (Again a) ->
    happens f (b2 b) a (b0 b') ->
    periods f interval (b' :: l) -> periods f interval (b :: b' :: l).

Definition sane (f interval : Z) (b : beat) : Prop :=
  0 <= b0 b <= b1 b /\ b1 b <= b2 b < 2 ^ 64 /\ b0 b + interval * (f / 10000000 + 1) + 1 < 2 ^ 64.

Lemma beat_apart : forall f interval b b' a, 0 < f < 2 ^ 63 -> even_counter f -> 0 <= interval < 2 ^ 63 ->
  sane f interval b ->
  RunTask f interval false true true false (b0 b) (b1 b) (b2 b) = Some (Again a) ->
  happens f (b2 b) a (b0 b') ->
  (interval - 10000) * f + 1 <= 10000000 * (b0 b' - b0 b) + 10000000.
Proof.
  intros f i b b' a Hf Hev Hi (S1 & S2 & S3) HR HH.
  destruct (arm_spec f i (b0 b) (b1 b) (b2 b) Hf ltac:(repeat split; assumption || lia) ltac:(lia) ltac:(lia))
    as (ex & a' & Ea & Es & R & P & Q & T).
  unfold RunTask in HR. rewrite Ea in HR. cbn [bind] in HR. rewrite Es in HR. cbn [bind] in HR.
  destruct (TimeSpan_GetTotalMilliseconds i <=? 0); [discriminate|]. injection HR as <-.
  destruct (T _ HH) as [_ T2]. specialize (T2 Hev). unfold not_early in T2. lia.
Qed.

(** Over any number of periods the callback starts on average no more often than once per
    interval less one millisecond and one counter tick; in particular a late callback is
    not made up for by the next ones coming closer together. *)
Theorem C132_spacing_partial : forall f interval l b, 0 < f < 2 ^ 63 -> even_counter f ->
  0 <= interval < 2 ^ 63 ->
  periods f interval (b :: l) -> Forall (sane f interval) (b :: l) ->
  Z.of_nat (length l) * ((interval - 10000) * f - 10000000 + 1)
    <= 10000000 * (b0 (last l b) - b0 b).
Proof.
  intros f i l. induction l as [|b' l IH]; intros b Hf Hev Hi HP HS.
  - cbn [length last Z.of_nat]. lia.
  - inversion HP as [|? ? ? a HR HH HP']; subst. inversion HS as [|? ? S1 S2]; subst.
    pose proof (beat_apart f i b b' a Hf Hev Hi S1 HR HH) as G.
    specialize (IH b' Hf Hev Hi HP' S2).
    replace (last (b' :: l) b) with (last l b') by (clear; revert b'; induction l as [|c l IH]; intros b'; [reflexivity|cbn; destruct l; [reflexivity|apply IH]]).
    cbn [length]. rewrite Nat2Z.inj_succ. set (g := (i - 10000) * f) in *. clearbody g. lia.
Qed.
Print Assumptions C132_spacing_partial.

(** Any frequency: the time from the beginning of each callback to the setting of the timer may be missing
    once more, no more than that. *)
Fixpoint busy_time (l : list beat) : Z :=
  match l with [] => 0 | b :: l => (b2 b - b0 b) + busy_time l end.

Theorem C132_any_partial : forall f interval l b, 0 < f < 2 ^ 63 -> 0 <= interval < 2 ^ 63 ->
  periods f interval (b :: l) -> Forall (sane f interval) (b :: l) ->
  Z.of_nat (length l) * ((interval - 10000) * f - 10000000 + 1)
    <= 10000000 * (b0 (last l b) - b0 b) + 10000000 * busy_time (b :: l).
Proof.
  intros f i l. induction l as [|b' l IH]; intros b Hf Hi HP HS.
  - inversion HS as [|? ? (S1 & S2 & _) _]; subst. cbn [length last Z.of_nat busy_time]. lia.
  - inversion HP as [|? ? ? a HR HH HP']; subst. inversion HS as [|? ? S1 S2]; subst.
    assert (G : (i - 10000) * f + 1 <= 10000000 * (b0 b' - b0 b) + 10000000 + 10000000 * (b2 b - b0 b)).
    { destruct S1 as (S1 & S1' & S3).
      destruct (arm_spec f i (b0 b) (b1 b) (b2 b) Hf ltac:(repeat split; assumption || lia) ltac:(lia) ltac:(lia))
        as (ex & a' & Ea & Es & R & P & Q & T).
      unfold RunTask in HR. rewrite Ea in HR. cbn [bind] in HR. rewrite Es in HR. cbn [bind] in HR.
      destruct (TimeSpan_GetTotalMilliseconds i <=? 0); [discriminate|]. injection HR as <-.
      destruct (T _ HH) as [T1 _]. unfold nearly_not_early in T1. lia. }
    specialize (IH b' Hf Hi HP' S2).
    replace (last (b' :: l) b) with (last l b') by (clear; revert b'; induction l as [|c l IH]; intros b'; [reflexivity|cbn; destruct l; [reflexivity|apply IH]]).
    cbn [length]. rewrite Nat2Z.inj_succ. change (busy_time (b :: b' :: l)) with ((b2 b - b0 b) + busy_time (b' :: l)).
    set (g := (i - 10000) * f) in *. clearbody g. lia.
Qed.
Print Assumptions C132_any_partial.

(** REFUTED for other frequencies, such as 19.2 MHz: with an interval of 1 s and a callback of 0.5 s the
    timer may fire 0.54 s after it fired, with a callback of 0.9 s at once. *)
Theorem C132_uneven_refuted : exists f interval b b' c c',
  f = 19200000 /\ interval = 10000000 /\
  periods f interval [b; b'] /\ sane f interval b /\ b2 b = b0 b + f / 2 /\ b0 b' = b0 b + f * 54 / 100 /\
  periods f interval [c; c'] /\ sane f interval c /\ b2 c = b0 c + f * 9 / 10 /\ b0 c' = b2 c.
Proof.
  exists 19200000, 10000000, (Beat 1000000 10600000 10600000), (Beat 11368000 11368000 11368000),
    (Beat 1000000 18280000 18280000), (Beat 18280000 18280000 18280000).
  assert (A : RunTask 19200000 10000000 false true true false 1000000 10600000 10600000 = Some (Again (Pool 40))) by (vm_compute; reflexivity).
  assert (B : RunTask 19200000 10000000 false true true false 1000000 18280000 18280000 = Some (Again (Posted 18280000))) by (vm_compute; reflexivity).
  split; [reflexivity|]. split; [reflexivity|]. split.
  { apply P_next with (a := Pool 40); [exact A | cbn; lia | apply P_one]. }
  split; [unfold sane; cbn [b0 b1 b2]; change (19200000 / 10000000) with 1; lia|]. split; [reflexivity|]. split; [reflexivity|]. split.
  { apply P_next with (a := Posted 18280000); [exact B | cbn; lia | apply P_one]. }
  split; [unfold sane; cbn [b0 b1 b2]; change (19200000 / 10000000) with 1; lia|]. split; reflexivity.
Qed.
Print Assumptions C132_uneven_refuted.

Example C132_case : periods 10000000 200000 [Beat 1000 2000 3000; Beat 201000 401000 401500; Beat 402000 402010 402020].
Proof.
  eapply P_next; [vm_compute; reflexivity|vm_compute; split; discriminate|].
  eapply P_next; [vm_compute; reflexivity|vm_compute; discriminate|]. apply P_one.
Qed.

(** REFUTED: the runs do not stay on a grid: a callback that starts 5 ms late is followed
    by one a whole interval later, not 5 ms sooner. *)
Theorem C132_drift_refuted : exists f interval grid late a,
  f = 10000000 /\ late = 50000 /\ interval = 200000 /\
  RunTask f interval false true true false (grid + late) (grid + late) (grid + late) = Some (Again a) /\
  (forall T, happens f (grid + late) a T -> grid + interval + late <= T).
Proof.
  exists 10000000, 200000, 1000000, 50000, (Pool 20).
  split; [reflexivity|]. split; [reflexivity|]. split; [reflexivity|]. split; [vm_compute; reflexivity|].
  intros T [_ H]. lia.
Qed.
Print Assumptions C132_drift_refuted.

(** The timer is only set again by a callback that ran to the end, returned true and was
    not cancelled meanwhile, on a runner that still exists. *)
Theorem C132_stops : forall f interval c again alive c' now0 now1 now2 a,
  RunTask f interval c again alive c' now0 now1 now2 = Some (Again a) ->
  c = false /\ 10000 <= interval /\ again = true /\ alive = true /\ (c' = true -> a = Refused).
Proof.
  intros f i c again alive c' now0 now1 now2 a H. unfold RunTask in H.
  destruct c; [discriminate|]. destruct (Z.leb_spec (TimeSpan_GetTotalMilliseconds i) 0) as [|L]; [discriminate|].
  pose proof (ms_pos _ L). destruct (TickCount_add f now0 i); [|discriminate]. cbn [bind] in H.
  destruct again; [|discriminate]. destruct alive; [|discriminate].
  split; [reflexivity|]. split; [lia|]. split; [reflexivity|]. split; [reflexivity|].
  intros ->. cbn in H. congruence.
Qed.
Print Assumptions C132_stops.

(** The first run, too, is at most a millisecond and a tick early. *)
Theorem C132_first_partial : forall f interval now0 now1 now2,
  0 < f < 2 ^ 63 -> even_counter f -> 0 <= now0 -> 10000 <= interval < 2 ^ 63 ->
  now0 + interval * (f / 10000000 + 1) + 1 < 2 ^ 64 ->
  now0 <= now1 <= now2 -> now2 < 2 ^ 64 ->
  exists a, CreateTimer f interval now0 now1 now2 = Some (Some a) /\
    (forall T, happens f now2 a T -> not_early f now0 interval T).
Proof.
  intros f i now0 now1 now2 Hf Hev H0 Hi Hfit Hn Hn2.
  destruct (arm_spec f i now0 now1 now2 Hf ltac:(repeat split; assumption || lia) Hn Hn2)
    as (ex & a & Ea & Es & R & P & Q & T).
  exists a. unfold CreateTimer. rewrite Ea. cbn [bind]. rewrite Es. cbn [bind].
  rewrite ms_floor by lia. assert (1 <= i / 10000) by (apply Z.div_le_lower_bound; lia).
  destruct (Z.leb_spec (i / 10000) 0); [lia|]. split; [reflexivity|].
  intros t Ht. apply (T t Ht). exact Hev.
Qed.
Print Assumptions C132_first_partial.

(** An interval under one millisecond gives no timer. *)
Theorem C132_null : forall f interval now0 now1 now2, interval < 10000 ->
  CreateTimer f interval now0 now1 now2 = Some None.
Proof.
  intros. unfold CreateTimer.
  destruct (Z.leb_spec (TimeSpan_GetTotalMilliseconds interval) 0) as [|L]; [reflexivity|].
  pose proof (ms_pos _ L). lia.
Qed.
Print Assumptions C132_null.

(** ** C133: time-outs *)

Definition times_out (f now1 : Z) (w : waiting) (T : Z) : Prop :=
  match w with
  | Polled => now1 <= T
  | Registered ms => ms <> 4294967295 /\ ms * f <= 1000 * (T - now1)
  end.

(** WaitTask rounds down to milliseconds: every time-out below 49.7 days. *)
Theorem C133_wait_task : forall d, 0 <= d < 4294967295 * 10000 ->
  10000 * WaitTask_ms d <= d < 10000 * (WaitTask_ms d + 1) /\ WaitTask_ms d <> 4294967295.
Proof.
  intros d Hd. unfold WaitTask_ms. rewrite ms_floor by lia. unfold UINT32_MAX.
  pose proof (Z.div_mod d 10000 ltac:(lia)). pose proof (Z.mod_pos_bound d 10000 ltac:(lia)).
  assert (d / 10000 < 4294967295) by (apply Z.div_lt_upper_bound; lia).
  destruct (Z.leb_spec (d / 10000) 0); [lia|].
  destruct (Z.ltb_spec 4294967295 (d / 10000)); lia.
Qed.
Print Assumptions C133_wait_task.

(** The default, TimeSpan::GetMax(), waits without limit; a negative one does not wait. *)
Theorem C133_wait_task_ends : WaitTask_ms (2 ^ 63 - 1) = 4294967295 /\
  forall d, d <= 0 -> WaitTask_ms d = 0.
Proof.
  split; [reflexivity|]. intros d H. unfold WaitTask_ms. pose proof (ms_neg d H).
  destruct (Z.leb_spec (TimeSpan_GetTotalMilliseconds d) 0); [reflexivity|lia].
Qed.
Print Assumptions C133_wait_task_ends.

(** REFUTED: a time-out of 49.7 days or more is no time-out. *)
Theorem C133_wait_task_refuted : forall d, 4294967295 * 10000 <= d -> WaitTask_ms d = 4294967295.
Proof.
  intros d H. unfold WaitTask_ms, UINT32_MAX. rewrite ms_floor by lia.
  assert (4294967295 <= d / 10000) by (apply Z.div_le_lower_bound; lia).
  destruct (Z.leb_spec (d / 10000) 0); [lia|]. destruct (Z.ltb_spec 4294967295 (d / 10000)); lia.
Qed.
Print Assumptions C133_wait_task_refuted.

(** A wait for an object with no time to wait is a poll. *)
Theorem C133_poll : forall f d now0 now1, 0 < f < 2 ^ 63 -> d <= 0 -> 0 <= now1 < 2 ^ 64 ->
  WaitForObject f d now0 now1 = Some Polled.
Proof.
  intros f d now0 now1 Hf Hd Hn. unfold WaitForObject, GetTimeout.
  destruct (Z.leb_spec d 0); [|lia]. cbn [bind]. unfold SetWait.
  destruct (diff_bounds f 0 now1 Hf ltac:(lia) Hn) as (s & Es & _ & Q & _).
  rewrite Es. cbn [bind]. pose proof (ms_neg s (Q ltac:(lia))).
  destruct (Z.leb_spec (TimeSpan_GetTotalMilliseconds s) 0); [reflexivity|lia].
Qed.
Print Assumptions C133_poll.

(** A time-out below 49.7 days that fits: the wait does not time out more than one
    millisecond and one counter tick before its time (for counters above 10 MHz that are no
    multiple of it: and once more the time between the readings). *)
Theorem C133_not_early_partial : forall f d now0 now1,
  0 < f < 2 ^ 63 -> 0 <= now0 -> 0 < d < 4294967295 * 10000 ->
  now0 + d * (f / 10000000 + 1) + 1 < 2 ^ 64 -> now0 <= now1 < 2 ^ 64 ->
  exists w, WaitForObject f d now0 now1 = Some w /\
    (forall ms, w = Registered ms -> 1 <= ms /\ 2 * (10000 * ms) <= 2 * d + 10000000 / f) /\
    (forall T, times_out f now1 w T ->
       nearly_not_early f now0 now1 d T /\ (even_counter f -> not_early f now0 d T)).
Proof.
  intros f d now0 now1 Hf H0 Hd Hfit Hn.
  destruct (left_bounds f now0 now1 d Hf ltac:(repeat split; assumption || lia) ltac:(lia))
    as (x & s & Ea & Hx & Es & Hs & U & L & K).
  unfold WaitForObject, GetTimeout.
  destruct (Z.leb_spec d 0); [lia|]. change (TimeSpan_FromMilliseconds UINT32_MAX) with (Some (4294967295 * 10000)).
  cbn [bind]. unfold TimeSpan_ge. destruct (Z.leb_spec (4294967295 * 10000) d); [lia|].
  rewrite Ea. cbn [bind]. unfold SetWait. rewrite Es. cbn [bind].
  assert (HM : 0 <= M * (now1 - now0)) by (unfold M; lia).
  destruct (Z.leb_spec (TimeSpan_GetTotalMilliseconds s) 0) as [Z1|Z1].
  - exists Polled. split; [reflexivity|]. split; [discriminate|]. cbn [times_out]. intros T HT.
    apply ms_zero in Z1. unfold nearly_not_early, not_early, even_counter. split.
    + pose proof (ar_post d f s (now1 - now0) 0 2 ltac:(lia) Z1 ltac:(lia) ltac:(lia)) as G. unfold M in *. lia.
    + intros Hev. specialize (K Hev).
      pose proof (ar_post d f s (now1 - now0) 0 1 ltac:(lia) Z1 ltac:(lia) ltac:(lia)) as G. unfold M in *. lia.
  - eexists. split; [reflexivity|]. destruct (ms_pos _ Z1) as (P2 & Q2).
    set (ms := TimeSpan_GetTotalMilliseconds s) in *. clearbody ms. assert (Pms : 1 <= ms) by lia.
    split; [intros m [= <-]; unfold M, UINT32_MAX in *; lia|].
    intros T HT. cbn [times_out] in HT. unfold UINT32_MAX in HT. destruct HT as [HI HT].
    assert (Emin : Z.min ms 4294967295 = ms) by lia. rewrite Emin in HT.
    rewrite Z.max_l in L, K by lia.
    unfold nearly_not_early, not_early, even_counter. split.
    + pose proof (ar_pool d f s ms (now1 - now0) (T - now1) 2 ltac:(lia) ltac:(lia) ltac:(lia) ltac:(lia) HT) as G.
      unfold M in *. lia.
    + intros Hev. specialize (K Hev).
      pose proof (ar_pool d f s ms (now1 - now0) (T - now1) 1 ltac:(lia) ltac:(lia) ltac:(lia) ltac:(lia) HT) as G.
      unfold M in *. lia.
Qed.
Print Assumptions C133_not_early_partial.

Example C133_case : WaitForObject 10000000 15000000 1000 1010 = Some (Registered 1499) /\
  WaitForObject 3579545 15000000 1000 1010 = Some (Registered 1499) /\ WaitTask_ms 15000 = 1.
Proof. vm_compute. auto. Qed.

(** A time-out of 49.7 days or more, TimeSpan::GetMax() among them, registers a wait
    without limit: for counters from 10 MHz to 100 GHz read while below 2^63, and for slower
    ones with less than 2^62 units of 100 ns since the start. *)
Theorem C133_forever : forall f d now0 now1, 0 < f <= 100000000000 -> 4294967295 * 10000 <= d ->
  0 <= now1 -> now1 * (10000000 / f + 1) + 10000000 < 2 ^ 62 ->
  WaitForObject f d now0 now1 = Some (Registered 4294967295).
Proof.
  intros f d now0 now1 Hf Hd Hn Hs. unfold WaitForObject, GetTimeout.
  destruct (Z.leb_spec d 0); [lia|]. change (TimeSpan_FromMilliseconds UINT32_MAX) with (Some (4294967295 * 10000)).
  cbn [bind]. unfold TimeSpan_ge. destruct (Z.leb_spec (4294967295 * 10000) d); [|lia].
  cbn [bind]. unfold SetWait.
  assert (Hq : 0 <= 10000000 / f) by (apply Z.div_pos; lia).
  assert (Hn1 : now1 < 2 ^ 62) by nia.
  assert (G : exists s, TickCount_diff f TickCount_GetMax now1 = Some s /\ 4294967295 * 10000 <= s).
  { destruct (Z.le_gt_cases M f) as [Hge|Hlt].
    - destruct (diff_bounds f TickCount_GetMax now1 ltac:(lia) ltac:(unfold TickCount_GetMax; lia) ltac:(lia))
        as (s & Es & Hs1 & _ & Hpos & D & _).
      exists s. split; [exact Es|].
      destruct (Z.eq_dec s (2 ^ 63 - 1)); [lia|].
      specialize (D ltac:(unfold TickCount_GetMax; lia) Hge ltac:(lia)).
      assert (Hk : f / M <= 10000) by (apply Z.div_le_upper_bound; unfold M; lia).
      assert (Hk1 : 1 <= f / M) by (apply Z.div_le_lower_bound; unfold M in *; lia).
      set (k := f / M) in *. clearbody k. unfold TickCount_GetMax in *.
      destruct (Z.lt_ge_cases s (4294967295 * 10000)); [|assumption]. exfalso.
      assert (0 <= s) by (apply Hpos; lia).
      assert (s * k <= 4294967295 * 10000 * 10000) by (apply Z.mul_le_mono_nonneg; lia). lia.
    - unfold TickCount_diff. unfold TickCount_GetMax.
      destruct (Z.ltb_spec 18446744073709551615 now1); [lia|].
      rewrite (TickThms.freq_u64 f) by lia. change TimeSpan_TicksPerSecond with TickThms.TPS.
      rewrite u64_id by (unfold is_u64, W64; lia).
      rewrite TickThms.fast_lo_back by (try (unfold is_u64, W64; lia); unfold TickThms.TPS, M in *; lia).
      cbn [bind]. eexists. split; [reflexivity|]. unfold TickThms.TPS.
      assert (Hk : 10000000 / f <= 10000000) by (apply Z.div_le_upper_bound; lia).
      assert (Hk1 : 1 <= 10000000 / f) by (apply Z.div_le_lower_bound; unfold M in *; lia).
      set (k := 10000000 / f) in *. clearbody k.
      assert (Eu : u64 ((18446744073709551615 - now1) * k) = (if k =? 0 then 0 else W64 - k * (1 + now1))).
      { destruct (Z.eqb_spec k 0); [subst; rewrite Z.mul_0_r; reflexivity|]. unfold u64. symmetry.
        apply Z.mod_unique with (k - 1); [left|unfold W64; lia].
        assert (0 <= k * now1) by (apply Z.mul_nonneg_nonneg; lia). unfold W64. lia. }
      rewrite Eu. destruct (Z.eqb_spec k 0); [lia|].
      assert (k * (1 + now1) <= 2 ^ 62 + 10000000) by lia. unfold W64, W63. lia. }
  destruct G as (s & -> & G). cbn [bind]. rewrite ms_floor by lia.
  assert (4294967295 <= s / 10000) by (apply Z.div_le_lower_bound; lia).
  destruct (Z.leb_spec (s / 10000) 0); [lia|]. rewrite Z.min_r by (unfold UINT32_MAX; lia). reflexivity.
Qed.
Print Assumptions C133_forever.
