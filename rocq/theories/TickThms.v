(** Property theorems C37: TickCount arithmetic for every performance counter frequency. *)
From Coq Require Import ZArith Lia Bool List.
From Coq Require Import ZifyBool.
From Verif Require Import Word MathModel MathProofs ValueModel.
Import ListNotations.
Local Open Scope Z_scope.

Definition TPS : Z := 10000000.

Lemma quot_ge1 : forall a b, 0 < b <= a -> 1 <= a / b.
Proof. intros. apply Z.div_le_lower_bound; lia. Qed.

Lemma freq_u64 : forall f, 0 < f < 2 ^ 63 -> u64 f = f.
Proof. intros. apply u64_id. unfold is_u64, W64. lia. Qed.

Lemma fast_hi : forall n f, is_u64 n -> 0 < f < 2 ^ 63 -> TPS <= f ->
  UMulDiv64Fast n f TPS = Some (u64 (n * (f / TPS))).
Proof.
  intros n f Hn Hf Hge. unfold UMulDiv64Fast, TPS in *.
  destruct (Z.eqb_spec f 0); [lia|].
  destruct (Z.ltb_spec 10000000 f).
  - destruct (Z.eqb_spec 10000000 0); [lia|reflexivity].
  - assert (f = 10000000) as -> by lia. cbn [Z.ltb Z.compare Pos.compare Pos.compare_cont].
    change (10000000 / 10000000) with 1. rewrite Z.mul_1_r, u64_id by assumption. reflexivity.
Qed.

Lemma fast_back : forall m f, is_u64 m -> 0 < f < 2 ^ 63 -> TPS <= f -> m mod (f / TPS) = 0 ->
  UMulDiv64Fast m TPS f = Some (m / (f / TPS)).
Proof.
  intros m f Hm Hf Hge Hdiv. unfold UMulDiv64Fast, TPS in *.
  destruct (Z.eqb_spec 10000000 0); [lia|].
  destruct (Z.ltb_spec f 10000000); [lia|].
  pose proof (quot_ge1 f 10000000 ltac:(lia)).
  destruct (Z.ltb_spec 10000000 f).
  - rewrite Hdiv. change (u64 (0 * 2)) with 0.
    destruct (Z.leb_spec (f / 10000000) 0); [lia|]. reflexivity.
  - assert (f = 10000000) as -> by lia. change (10000000 / 10000000) with 1. rewrite Z.div_1_r. reflexivity.
Qed.

Lemma fast_lo : forall n f, is_u64 n -> 0 < f < TPS -> 
  UMulDiv64Fast n f TPS = Some ((2 * n + TPS / f) / (2 * (TPS / f))).
Proof.
  intros n f Hn Hf. unfold UMulDiv64Fast, TPS in *.
  destruct (Z.eqb_spec f 0); [lia|].
  destruct (Z.ltb_spec 10000000 f); [lia|]. destruct (Z.ltb_spec f 10000000); [|lia].
  pose proof (quot_ge1 10000000 f ltac:(lia)) as Hk.
  assert (Hk2 : 10000000 / f <= 10000000) by (apply Z.div_le_upper_bound; lia).
  set (k := 10000000 / f) in *. clearbody k.
  unfold is_u64 in Hn. rewrite round_pos by lia.
  pose proof (Z.mod_pos_bound n k ltac:(lia)). pose proof (Z.div_mod n k ltac:(lia)).
  unfold u64. rewrite (Z.mod_small (n mod k * 2)) by (unfold W64; lia). rewrite (Z.mul_comm (n mod k)).
  f_equal. destruct (Z.leb_spec k (2 * (n mod k))); [|reflexivity].
  apply Z.mod_small. assert (0 <= n / k) by (apply Z.div_pos; lia).
  assert (k <> 1) by (intros ->; rewrite Z.mod_1_r in *; lia).
  split; [lia|]. unfold W64 in *. nia.
Qed.

Lemma fast_lo_back : forall m f, is_u64 m -> 0 < f < TPS ->
  UMulDiv64Fast m TPS f = Some (u64 (m * (TPS / f))).
Proof.
  intros m f Hm Hf. unfold UMulDiv64Fast, TPS in *.
  destruct (Z.eqb_spec 10000000 0); [lia|].
  destruct (Z.ltb_spec f 10000000); [|lia]. destruct (Z.eqb_spec f 0); [lia|]. reflexivity.
Qed.

(** C37 for counters of at least 10 MHz (every span, also negative): the addition moves by
    span * (f / 10 MHz) ticks, in the right direction, and the difference gives the span
    back exactly. *)
Theorem C37_TickCount_fast_counter : forall f t d,
  10000000 <= f < 2 ^ 63 -> 0 <= t < 2 ^ 64 -> - 2 ^ 63 < d < 2 ^ 63 ->
  0 <= t + d * (f / 10000000) < 2 ^ 64 ->
  exists t', TickCount_add f t d = Some t' /\
    t' = t + d * (f / 10000000) /\
    (0 <= d -> t <= t') /\ (d <= 0 -> t' <= t) /\
    TickCount_diff f t' t = Some d /\ TickCount_sub f t' d = Some t.
Proof.
  intros f t d Hf Ht Hd Hfit.
  pose proof (quot_ge1 f 10000000 ltac:(lia)) as Hk.
  assert (Hfu := freq_u64 f ltac:(lia)).
  set (k := f / 10000000) in *.
  assert (Eadd : UMulDiv64Fast (u64 d) (u64 f) TimeSpan_TicksPerSecond = Some (u64 (d * k))).
  { rewrite Hfu. change TimeSpan_TicksPerSecond with TPS.
    rewrite fast_hi by (try apply u64_range; unfold TPS; lia). f_equal.
    unfold u64. change (f / TPS) with k. apply Zmult_mod_idemp_l. }
  exists (t + d * k). unfold TickCount_add, TickCount_sub. rewrite Eadd. cbn [bind].
  assert (E1 : u64 (t + u64 (d * k)) = t + d * k).
  { unfold u64 at 2. unfold u64. rewrite Zplus_mod_idemp_r. apply Z.mod_small. exact Hfit. }
  assert (E2 : u64 (t + d * k - u64 (d * k)) = t).
  { unfold u64 at 2. unfold u64. rewrite Zminus_mod_idemp_r. rewrite Z.add_simpl_r. apply Z.mod_small. exact Ht. }
  rewrite E1, E2. split; [reflexivity|]. split; [reflexivity|].
  split; [nia|]. split; [nia|]. split; [|reflexivity].
  unfold TickCount_diff. rewrite Hfu. change TimeSpan_TicksPerSecond with TPS.
  change (2 ^ 64) with W64 in *. change (2 ^ 63) with W63 in *.
  destruct (Z.ltb_spec (t + d * k) t) as [Hneg|Hpos].
  - replace (t - (t + d * k)) with ((- d) * k) by ring.
    assert (is_u64 ((- d) * k)) by (unfold is_u64; nia). rewrite u64_id by assumption.
    rewrite fast_back; [|assumption|unfold W63 in *; lia|unfold TPS; lia|change (f/TPS) with k; apply Z_mod_mult].
    change (f / TPS) with k. rewrite Z.div_mul by lia. cbn [bind]. rewrite Z.min_l by lia. f_equal. lia.
  - replace (t + d * k - t) with (d * k) by ring.
    assert (is_u64 (d * k)) by (unfold is_u64; nia). rewrite u64_id by assumption.
    rewrite fast_back; [|assumption|unfold W63 in *; lia|unfold TPS; lia|change (f/TPS) with k; apply Z_mod_mult].
    change (f / TPS) with k. rewrite Z.div_mul by lia. cbn [bind]. rewrite Z.min_l by lia. reflexivity.
Qed.
Print Assumptions C37_TickCount_fast_counter.

Example C37_case_fast : TickCount_add 3579545000 1000000000000 (-20000000) = Some 992860000000 /\
  TickCount_diff 3579545000 992860000000 1000000000000 = Some (-20000000).
Proof. vm_compute. auto. Qed.

(** C37 for slower counters, spans that are not negative: the difference gives the span
    back up to half a counter period (k = 10 MHz / f ticks of 100 ns). Negative spans are
    refuted below. *)
Theorem C37_TickCount_slow_counter_partial : forall f t d,
  0 < f < 10000000 -> 0 <= t -> 0 <= d < 2 ^ 63 -> t + d + 1 < 2 ^ 64 ->
  exists t' d', TickCount_add f t d = Some t' /\ t <= t' /\
    TickCount_diff f t' t = Some d' /\ 2 * Z.abs (d' - d) <= 10000000 / f /\
    TickCount_sub f t' d = Some t.
Proof.
  intros f t d Hf Ht Hd Hfit.
  change (2 ^ 64) with W64 in *. change (2 ^ 63) with W63 in *.
  assert (Hu : u64 d = d) by (apply u64_id; unfold is_u64, W63, W64 in *; lia).
  assert (Hfu : u64 f = f) by (apply u64_id; unfold is_u64, W64 in *; lia).
  pose proof (quot_ge1 10000000 f ltac:(lia)) as Hk.
  assert (Hk2 : 10000000 / f <= 10000000) by (apply Z.div_le_upper_bound; lia).
  assert (Eadd : UMulDiv64Fast (u64 d) (u64 f) TimeSpan_TicksPerSecond
     = Some ((2 * d + 10000000 / f) / (2 * (10000000 / f)))).
  { rewrite Hu, Hfu. apply fast_lo; [unfold is_u64, W63, W64 in *; lia|exact Hf]. }
  assert (Hback : forall m, is_u64 m -> UMulDiv64Fast m TimeSpan_TicksPerSecond (u64 f)
     = Some (u64 (m * (10000000 / f)))).
  { intros. rewrite Hfu. apply fast_lo_back; assumption. }
  set (k := 10000000 / f) in *. clearbody k.
  set (n := (2 * d + k) / (2 * k)) in *.
  pose proof (Z.div_mod (2 * d + k) (2 * k) ltac:(lia)) as E. fold n in E.
  pose proof (Z.mod_pos_bound (2 * d + k) (2 * k) ltac:(lia)) as Hr.
  assert (Hn : 0 <= n) by (apply Z.div_pos; lia).
  assert (Hb : 2 * Z.abs (n * k - d) <= k) by nia.
  assert (Hnd : n <= d + 1) by nia.
  exists (t + n). exists (Z.min (n * k) (W63 - 1)).
  assert (E1 : u64 (t + n) = t + n) by (apply u64_id; unfold is_u64; lia).
  unfold TickCount_add, TickCount_sub, TickCount_diff. rewrite Eadd. cbn [bind]. rewrite E1.
  split; [reflexivity|]. split; [lia|].
  destruct (Z.ltb_spec (t + n) t); [lia|].
  replace (t + n - t) with n by lia. replace (t + n - n) with t by lia.
  assert (is_u64 n) by (unfold is_u64; lia).
  rewrite (u64_id n) by assumption. rewrite Hback by assumption. cbn [bind].
  rewrite (u64_id (n * k)) by (unfold is_u64, W63, W64 in *; nia).
  rewrite (u64_id t) by (unfold is_u64; lia).
  split; [reflexivity|]. split; [|reflexivity]. lia.
Qed.
Print Assumptions C37_TickCount_slow_counter_partial.

Example C37_case_slow : TickCount_add 3579545 1000 20000001 = Some 10001001 /\
  TickCount_diff 3579545 10001001 1000 = Some 20000002.
Proof. vm_compute. auto. Qed.

(** C37 refuted for slower counters and negative spans: the unsigned division turns
    "one microsecond earlier" into 2^64/10 ticks later (TickCount.h 211). *)
Theorem C37_TickCount_negative_refuted : exists f t d t',
  0 < f < 2 ^ 63 /\ 0 <= t < 2 ^ 64 /\ - 2 ^ 63 < d <= 0 /\
  TickCount_add f t d = Some t' /\ t < t'.
Proof.
  exists 1000000, 1000000000, (-10). eexists. vm_compute. repeat split; discriminate.
Qed.
Print Assumptions C37_TickCount_negative_refuted.

(** The step is not the span's duration in counter ticks unless f is a multiple of
    10 MHz: half of it is lost at 19.999 MHz. *)
Theorem C37_TickCount_duration_refuted : exists f t d t',
  10000000 <= f < 2 ^ 63 /\ 0 <= d /\ TickCount_add f t d = Some t' /\
  10000000 * (t' - t) * 19 < 10 * (d * f).
Proof.
  exists 19999000, 0, 10000000, 10000000. vm_compute. repeat split; discriminate.
Qed.
Print Assumptions C37_TickCount_duration_refuted.

(** Unit conversions are inverse for every frequency of at least one tick per unit, and
    trap (division by zero) below. *)
Theorem C37_TickCount_units : forall f n, 0 < f < 2 ^ 63 -> 0 <= n ->
  (1000 <= f -> n * (f / 1000) < 2 ^ 63 -> exists t, TickCount_FromMilliseconds f n = Some t /\
     TickCount_GetTotalMilliseconds f t = Some n) /\
  (1000000 <= f -> n * (f / 1000000) < 2 ^ 63 -> exists t, TickCount_FromMicroseconds f n = Some t /\
     TickCount_GetTotalMicroseconds f t = Some n) /\
  (n * f < 2 ^ 63 -> exists t, TickCount_FromSeconds f n = Some t /\ TickCount_GetTotalSeconds f t = Some n) /\
  (f < 1000 -> forall t, TickCount_GetTotalMilliseconds f t = None) /\
  (f < 1000000 -> forall t, TickCount_GetTotalMicroseconds f t = None).
Proof.
  intros f n Hf Hn. change (2 ^ 63) with W63 in *.
  unfold TickCount_FromMilliseconds, TickCount_GetTotalMilliseconds, TickCount_FromMicroseconds,
    TickCount_GetTotalMicroseconds, TickCount_FromSeconds, TickCount_GetTotalSeconds, mulchain, udiv,
    kMillisecondsPerSecond, kMicrosecondsPerMillisecond.
  change (1000 * 1000) with 1000000.
  rewrite !Z.quot_div_nonneg by lia.
  assert (D : forall k, 1 <= k < W63 -> n * k < W63 ->
    exists t, bind (chk (n * k)) (fun x => Some (u64 x)) = Some t /\ (if u64 k =? 0 then None else Some (t / u64 k)) = Some n).
  { intros k Hk Hnk. assert (0 <= n * k) by nia.
    rewrite chk_ok by (unfold is_s64; lia). cbn [bind]. eexists. split; [reflexivity|].
    rewrite !u64_id by (unfold is_u64, W63, W64 in *; lia).
    destruct (Z.eqb_spec k 0); [lia|]. f_equal. apply Z.div_mul. lia. }
  assert (L : forall c, 0 < c -> c <= f -> 1 <= f / c < W63).
  { intros c Hc Hcf. split; [apply Z.div_le_lower_bound; lia|]. apply Z.div_lt_upper_bound; nia. }
  split; [intros H H'; apply D; [apply L; lia|assumption]|].
  split; [intros H H'; apply D; [apply L; lia|assumption]|].
  split.
  { intros H. destruct (D f ltac:(lia) H) as (t & E1 & E2). exists t. split; [|exact E2].
    revert E1. unfold bind. destruct (chk (n * f)); auto. }
  split; intros H t; rewrite Z.div_small by lia; reflexivity.
Qed.
Print Assumptions C37_TickCount_units.
