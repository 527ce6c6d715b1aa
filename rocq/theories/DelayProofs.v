(** Bounds on TickCount sums and differences for every counter frequency. *)
From Coq Require Import ZArith Lia Bool List ZifyBool.
From Verif Require Import Word MathModel MathProofs ValueModel TickThms DelayModel.
Import ListNotations.
Local Open Scope Z_scope.

Definition M : Z := 10000000.

(** [now] plus [d] does not leave 64 bits. *)
Definition fits (f now d : Z) : Prop := 0 <= now /\ 0 <= d < 2 ^ 63 /\ now + d * (f / M + 1) + 1 < 2 ^ 64.

Lemma fast_back_gen : forall m f, is_u64 m -> 0 < f < 2 ^ 63 -> TPS <= f ->
  UMulDiv64Fast m TPS f = Some ((2 * m + f / TPS) / (2 * (f / TPS))).
Proof.
  intros m f Hm Hf Hge. unfold UMulDiv64Fast, TPS in *.
  destruct (Z.eqb_spec 10000000 0); [lia|].
  destruct (Z.ltb_spec f 10000000); [lia|].
  pose proof (quot_ge1 f 10000000 ltac:(lia)) as Hk.
  destruct (Z.ltb_spec 10000000 f).
  - assert (Hk2 : f / 10000000 <= 2 ^ 63 / 10000000) by (apply Z.div_le_mono; lia).
    change (2 ^ 63 / 10000000) with 922337203685 in Hk2.
    set (k := f / 10000000) in *. clearbody k.
    unfold is_u64 in Hm. rewrite round_pos by lia.
    pose proof (Z.mod_pos_bound m k ltac:(lia)). pose proof (Z.div_mod m k ltac:(lia)).
    unfold u64. rewrite (Z.mod_small (m mod k * 2)) by (unfold W64; lia). rewrite (Z.mul_comm (m mod k)).
    f_equal. destruct (Z.leb_spec k (2 * (m mod k))); [|reflexivity].
    apply Z.mod_small. assert (0 <= m / k) by (apply Z.div_pos; lia).
    assert (k <> 1) by (intros ->; rewrite Z.mod_1_r in *; lia).
    split; [lia|]. unfold W64 in *. nia.
  - assert (f = 10000000) as -> by lia. change (10000000 / 10000000) with 1. f_equal.
    change (2 * 1) with 2. apply Z.div_unique with 1; lia.
Qed.

(** The sum: [x] ticks later, where [x] stands for [d] units of 100 ns. *)
Lemma add_bounds : forall f now d, 0 < f < 2 ^ 63 -> fits f now d ->
  exists x, TickCount_add f now d = Some (now + x) /\ 0 <= x /\ now + x < 2 ^ 64 /\
    (M <= f -> x = d * (f / M)) /\
    (f < M -> 2 * d - M / f <= 2 * (x * (M / f)) <= 2 * d + M / f).
Proof.
  intros f now d Hf (Hn & Hd & Hfit). unfold M in *.
  change (2 ^ 64) with W64 in *. change (2 ^ 63) with W63 in *.
  assert (Hu : u64 d = d) by (apply u64_id; unfold is_u64, W63, W64 in *; lia).
  assert (Hfu : u64 f = f) by (apply freq_u64; exact Hf).
  unfold TickCount_add. rewrite Hu, Hfu. change TimeSpan_TicksPerSecond with TPS.
  destruct (Z.le_gt_cases TPS f) as [Hge|Hlt].
  - rewrite fast_hi by (try assumption; unfold is_u64, W63, W64 in *; lia).
    cbn [bind]. unfold TPS in *. pose proof (quot_ge1 f 10000000 ltac:(lia)) as Hk.
    set (k := f / 10000000) in *. clearbody k.
    assert (Hx : is_u64 (d * k)) by (unfold is_u64; nia).
    rewrite (u64_id (d * k)) by exact Hx. unfold is_u64 in Hx.
    rewrite u64_id by (unfold is_u64; nia).
    exists (d * k). repeat split; nia.
  - rewrite fast_lo by (unfold is_u64, W63, W64 in *; lia).
    cbn [bind]. unfold TPS in *. pose proof (quot_ge1 10000000 f ltac:(lia)) as Hk.
    rewrite (Z.div_small f 10000000) in Hfit by lia.
    set (k := 10000000 / f) in *. clearbody k.
    pose proof (Z.div_mod (2 * d + k) (2 * k) ltac:(lia)) as E.
    pose proof (Z.mod_pos_bound (2 * d + k) (2 * k) ltac:(lia)) as B.
    assert (0 <= (2 * d + k) / (2 * k)) by (apply Z.div_pos; lia).
    set (x := (2 * d + k) / (2 * k)) in *. clearbody x. set (r := (2 * d + k) mod (2 * k)) in *. clearbody r.
    assert (x <= d + 1) by nia.
    rewrite u64_id by (unfold is_u64; lia).
    exists x. repeat split; try nia.
Qed.

(** The difference. *)
Lemma diff_bounds : forall f a b, 0 < f < 2 ^ 63 -> 0 <= a < 2 ^ 64 -> 0 <= b < 2 ^ 64 ->
  exists s, TickCount_diff f a b = Some s /\ s < 2 ^ 63 /\
    (a <= b -> s <= 0) /\
    (b <= a -> 0 <= s) /\
    (b <= a -> M <= f -> s < 2 ^ 63 - 1 ->
       2 * (a - b) - f / M <= 2 * (s * (f / M)) <= 2 * (a - b) + f / M) /\
    (b <= a -> M <= f -> 2 * (s * (f / M)) <= 2 * (a - b) + f / M) /\
    (b <= a -> f < M -> (a - b) * (M / f) < 2 ^ 64 -> s = Z.min ((a - b) * (M / f)) (2 ^ 63 - 1)).
Proof.
  intros f a b Hf Ha Hb. unfold M in *.
  change (2 ^ 64) with W64 in *. change (2 ^ 63) with W63 in *.
  assert (Hfu : u64 f = f) by (apply freq_u64; exact Hf).
  unfold TickCount_diff. rewrite Hfu. change TimeSpan_TicksPerSecond with TPS.
  set (m := if a <? b then u64 (b - a) else u64 (a - b)).
  assert (Hm : is_u64 m /\ m = Z.abs (a - b)).
  { unfold m. destruct (Z.ltb_spec a b); rewrite u64_id by (unfold is_u64; lia); unfold is_u64; lia. }
  destruct Hm as [Hm Em]. clearbody m.
  destruct (Z.le_gt_cases TPS f) as [Hge|Hlt].
  - rewrite fast_back_gen by assumption. cbn [bind]. unfold TPS in *.
    pose proof (quot_ge1 f 10000000 ltac:(lia)) as Hk.
    set (k := f / 10000000) in *. clearbody k.
    pose proof (Z.div_mod (2 * m + k) (2 * k) ltac:(lia)) as E.
    pose proof (Z.mod_pos_bound (2 * m + k) (2 * k) ltac:(lia)) as B.
    assert (0 <= (2 * m + k) / (2 * k)) by (apply Z.div_pos; lia).
    set (x := (2 * m + k) / (2 * k)) in *. clearbody x. set (r := (2 * m + k) mod (2 * k)) in *. clearbody r.
    eexists. split; [reflexivity|].
    destruct (Z.ltb_spec a b).
    + assert (0 < W63) by (unfold W63; lia).
      repeat split; intros; try lia.
    + replace (a - b) with m by lia.
      assert (0 < W63) by (unfold W63; lia).
      destruct (Z.min_spec x (W63 - 1)) as [[HH ->]|[HH ->]]; repeat split; intros; try lia; nia.
  - rewrite fast_lo_back by (try assumption; lia). cbn [bind]. unfold TPS in *.
    pose proof (u64_range (m * (10000000 / f))) as R. unfold is_u64 in R.
    pose proof (quot_ge1 10000000 f ltac:(lia)) as Hk.
    set (k := 10000000 / f) in *. clearbody k.
    assert (Hu : m * k < W64 -> u64 (m * k) = m * k) by (intros; apply u64_id; unfold is_u64 in *; nia).
    set (x := u64 (m * k)) in *. clearbody x.
    assert (0 < W63) by (unfold W63; lia).
    eexists. split; [reflexivity|].
    destruct (Z.ltb_spec a b).
    + repeat split; intros; try lia.
    + replace (a - b) with m by lia. repeat split; intros; try lia.
Qed.

(** Arithmetic for the next lemma, with nothing else in the context. *)
Lemma ar_upper : forall s d k, 1 <= k -> 2 * (s * k) <= 2 * (d * k) + k -> s <= d.
Proof. intros s d k Hk H. destruct (Z.le_gt_cases s d); [assumption|]. exfalso. assert (d + 1 <= s) by lia. nia. Qed.

Lemma ar_fast : forall d s k r e f, 1 <= k -> 0 <= r < M -> 0 <= e -> f = M * k + r ->
  2 * (d * k) <= 2 * e + 2 * (s * k) + k -> 2 * (d * f) <= 4 * (M * e) + 2 * (s * f) + f.
Proof.
  intros d s k r e f Hk Hr He Ef H. unfold M in *.
  set (y := 2 * (d - s) - 1). assert (Y : y * k <= 2 * e) by (unfold y; lia).
  assert (G : y * f <= 4 * (10000000 * e)); [|unfold y in G; lia].
  clearbody y. clear H. subst f.
  destruct (Z.le_gt_cases y 0) as [L|L].
  - assert (y * (10000000 * k + r) <= 0) by (apply Z.mul_nonpos_nonneg; lia). lia.
  - assert (y * 1 <= y * k) by (apply Z.mul_le_mono_nonneg_l; lia).
    assert (y * r <= y * 10000000) by (apply Z.mul_le_mono_nonneg_l; lia). lia.
Qed.

Lemma ar_mult : forall d s k e f, f = M * k ->
  2 * (d * k) <= 2 * e + 2 * (s * k) + k -> 2 * (d * f) <= 2 * (M * e) + 2 * (s * f) + f.
Proof. intros d s k e f Ef H. unfold M in *. subst f. lia. Qed.

Lemma ar_slow : forall d s k e f, 0 < f -> k * f <= M -> 0 <= e ->
  2 * d - k <= 2 * s + 2 * (e * k) -> 2 * (d * f) <= 2 * (M * e) + 2 * (s * f) + M.
Proof.
  intros d s k e f Hf Hk He H. unfold M in *.
  assert (G : (2 * d - k) * f <= (2 * s + 2 * (e * k)) * f) by (apply Z.mul_le_mono_nonneg_r; lia).
  assert (G2 : e * (k * f) <= e * 10000000) by (apply Z.mul_le_mono_nonneg_l; lia). lia.
Qed.

(** What is left at [now] of a delay [d] counted from [now0], in units of 100 ns. *)
Lemma left_bounds : forall f now0 now d, 0 < f < 2 ^ 63 -> fits f now0 d ->
  now0 <= now < 2 ^ 64 ->
  exists x s, TickCount_add f now0 d = Some (now0 + x) /\ 0 <= x /\
    TickCount_diff f (now0 + x) now = Some s /\ s < 2 ^ 63 /\
    (s <= 0 \/ 2 * s <= 2 * d + M / f) /\
    2 * (d * f) <= 4 * (M * (now - now0)) + 2 * (Z.max s 0 * f) + f + M /\
    (f < M \/ f mod M = 0 ->
       2 * (d * f) <= 2 * (M * (now - now0)) + 2 * (Z.max s 0 * f) + f + M).
Proof.
  intros f now0 now d Hf Hfit Hnow.
  destruct (add_bounds f now0 d Hf Hfit) as (x & Ea & Hx & Hx2 & Hfast & Hslow).
  destruct Hfit as (Hn & Hd & Hw).
  destruct (diff_bounds f (now0 + x) now Hf ltac:(lia) ltac:(lia))
    as (s & Es & Hs & Hneg & Hpos & Dfast & Dfast2 & Dslow).
  exists x, s.
  split; [assumption|]. split; [assumption|]. split; [assumption|]. split; [assumption|].
  clear Ea Es Hw. assert (He : 0 <= now - now0) by lia.
  assert (HM : 0 < M) by (unfold M; lia).
  destruct (Z.le_gt_cases M f) as [Hge|Hlt].
  - specialize (Hfast Hge). clear Hslow Dslow.
    assert (Hk : 1 <= f / M) by (apply Z.div_le_lower_bound; lia).
    pose proof (Z.div_mod f M ltac:(lia)) as Ef.
    pose proof (Z.mod_pos_bound f M ltac:(lia)) as Bf.
    assert (Hq : 0 <= M / f) by (apply Z.div_pos; lia).
    set (k := f / M) in *. set (q := M / f) in *. set (r := f mod M) in *. clearbody k q r.
    set (e := now - now0) in *.
    assert (Em : now0 + x - now = d * k - e) by lia. clearbody e.
    assert (H0 : 2 * (d * k) <= 2 * e + 2 * (Z.max s 0 * k) + k /\ s <= d \/ s <= 0 /\ d * k <= e \/ s = d).
    { destruct (Z.le_gt_cases now (now0 + x)) as [Hl|Hl].
      - specialize (Hpos Hl). specialize (Dfast Hl Hge). specialize (Dfast2 Hl Hge).
        rewrite Em in *. rewrite Z.max_l by lia.
        assert (U : s <= d) by (apply (ar_upper s d k); lia).
        destruct (Z.eq_dec s (2 ^ 63 - 1)); [right; right; lia|].
        left. specialize (Dfast ltac:(lia)). lia.
      - right; left. specialize (Hneg ltac:(lia)). lia. }
    clear Dfast Dfast2 Hpos Hneg Hs Hfast Hx2 Hnow Em Hx.
    destruct H0 as [[H0 U]|[[U H0]|H0]].
    + split; [right; lia|]. split.
      * pose proof (ar_fast d (Z.max s 0) k r e f Hk Bf He Ef H0). lia.
      * intros [?|Hr]; [lia|]. subst r.
        pose proof (ar_mult d (Z.max s 0) k e f ltac:(lia) H0). lia.
    + split; [left; lia|]. rewrite Z.max_r by lia. split.
      * pose proof (ar_fast d 0 k r e f Hk Bf He Ef ltac:(lia)). lia.
      * intros [?|Hr]; [lia|]. subst r.
        pose proof (ar_mult d 0 k e f ltac:(lia) ltac:(lia)). lia.
    + subst s. rewrite Z.max_l by lia. split; [right; lia|].
      assert (0 <= M * e) by (apply Z.mul_nonneg_nonneg; lia). split; intros; lia.
  - specialize (Hslow Hlt). clear Hfast Dfast Dfast2.
    assert (Hk : 1 <= M / f) by (apply Z.div_le_lower_bound; lia).
    pose proof (Z.mul_div_le M f ltac:(lia)) as Hkf.
    set (k := M / f) in *. clearbody k.
    set (e := now - now0) in *.
    assert (Em : now0 + x - now = x - e) by lia.
    assert (Hek : 0 <= e * k) by (apply Z.mul_nonneg_nonneg; lia).
    assert (HMe : 0 <= M * e) by (apply Z.mul_nonneg_nonneg; lia).
    assert (Hkb : k <= M).
    { apply Z.le_trans with (1 * k); [lia|]. apply Z.le_trans with (f * k); [|lia].
      apply Z.mul_le_mono_nonneg_r; lia. }
    assert (Exk : (x - e) * k = x * k - e * k) by lia.
    assert (L : 2 * d - k <= 2 * Z.max s 0 + 2 * (e * k) /\ (s <= 0 \/ 2 * s <= 2 * d + k)).
    { destruct (Z.le_gt_cases now (now0 + x)) as [Hl|Hl].
      - specialize (Hpos Hl).
        assert (E2 : (now0 + x - now) * k < 2 ^ 64) by (rewrite Em, Exk; unfold M in *; lia).
        specialize (Dslow Hl ltac:(lia) E2). rewrite Em, Exk in Dslow. rewrite Z.max_l by lia. lia.
      - specialize (Hneg ltac:(lia)). rewrite Z.max_r by lia.
        assert (x * k <= e * k) by (apply Z.mul_le_mono_nonneg_r; lia). lia. }
    destruct L as [L U]. split; [exact U|].
    pose proof (ar_slow d (Z.max s 0) k e f ltac:(lia) ltac:(lia) He L). split; intros; lia.
Qed.

Lemma ms_floor : forall s, 0 <= s -> TimeSpan_GetTotalMilliseconds s = s / 10000.
Proof. intros s H. unfold TimeSpan_GetTotalMilliseconds. change (_ * _) with 10000. apply Z.quot_div_nonneg; lia. Qed.

Lemma ms_neg : forall s, s <= 0 -> TimeSpan_GetTotalMilliseconds s <= 0.
Proof.
  intros s H. unfold TimeSpan_GetTotalMilliseconds. change (_ * _) with 10000.
  replace s with (- (- s)) by lia. rewrite Z.quot_opp_l by lia.
  pose proof (Z.quot_pos (- s) 10000 ltac:(lia) ltac:(lia)). lia.
Qed.

Lemma ms_pos : forall s, 0 < TimeSpan_GetTotalMilliseconds s ->
  0 < s /\ 10000 * TimeSpan_GetTotalMilliseconds s <= s < 10000 * (TimeSpan_GetTotalMilliseconds s + 1).
Proof.
  intros s H. destruct (Z.le_gt_cases s 0) as [L|L]; [pose proof (ms_neg s L); lia|].
  rewrite ms_floor in * by lia. split; [lia|].
  pose proof (Z.div_mod s 10000 ltac:(lia)). pose proof (Z.mod_pos_bound s 10000 ltac:(lia)). lia.
Qed.

Lemma ms_zero : forall s, TimeSpan_GetTotalMilliseconds s <= 0 -> s < 10000.
Proof.
  intros s H. destruct (Z.lt_ge_cases s 10000) as [L|L]; [assumption|].
  rewrite ms_floor in H by lia. pose proof (Z.div_le_lower_bound s 10000 1 ltac:(lia) ltac:(lia)). lia.
Qed.
