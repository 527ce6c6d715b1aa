From Coq Require Import ZArith Lia Bool List.
From Verif Require Import Word MathModel.
Import ListNotations.
Local Open Scope Z_scope.

Lemma land_ffffffff : forall x, Z.land x 4294967295 = x mod W32.
Proof. intros x. change 4294967295 with (Z.ones 32). rewrite Z.land_ones by lia. reflexivity. Qed.

Lemma shiftr32 : forall x, Z.shiftr x 32 = x / W32.
Proof. intros. rewrite Z.shiftr_div_pow2 by lia. reflexivity. Qed.

Lemma shiftl32 : forall x, Z.shiftl x 32 = x * W32.
Proof. intros. rewrite Z.shiftl_mul_pow2 by lia. reflexivity. Qed.

Lemma lor32 : forall hi lo, 0 <= lo < W32 -> Z.lor (hi * W32) lo = hi * W32 + lo.
Proof. intros. apply (lor_disjoint_add hi lo 32); [lia|exact H]. Qed.

Lemma lor32' : forall hi lo, 0 <= lo < W32 -> Z.lor lo (hi * W32) = hi * W32 + lo.
Proof. intros. apply (lor_disjoint_add' hi lo 32); [lia|exact H]. Qed.

Lemma split32 : forall x, is_u64 x -> x = (x / W32) * W32 + x mod W32 /\
  0 <= x / W32 < W32 /\ 0 <= x mod W32 < W32.
Proof.
  intros x H. unfold is_u64 in H.
  pose proof (Z.div_mod x W32 ltac:(discriminate)).
  pose proof (Z.mod_pos_bound x W32 ltac:(reflexivity)).
  assert (0 <= x / W32 < W32).
  { split; [apply Z.div_pos; [lia|reflexivity]|].
    apply Z.div_lt_upper_bound; [reflexivity|]. unfold W64, W32 in *. lia. }
  lia.
Qed.

Lemma prod32 : forall a b, 0 <= a < W32 -> 0 <= b < W32 -> 0 <= a * b <= (W32-1)*(W32-1).
Proof. intros. nia. Qed.

Lemma umul128_lemma : forall a b, is_u64 a -> is_u64 b ->
  let '(lo, hi) := umul128 a b in
  is_u64 lo /\ is_u64 hi /\ hi * W64 + lo = a * b.
Proof.
  intros a b Ha Hb.
  destruct (split32 a Ha) as (Ea & HA & HAl).
  destruct (split32 b Hb) as (Eb & HB & HBl).
  unfold umul128. rewrite !shiftr32, land_ffffffff, shiftl32.
  unfold u32.
  rewrite (Z.mod_small (a / W32)) by lia. rewrite (Z.mod_small (b / W32)) by lia.
  set (a1 := a / W32) in *. set (a0 := a mod W32) in *.
  set (b1 := b / W32) in *. set (b0 := b mod W32) in *.
  pose proof (prod32 a0 b0 HAl HBl) as P00. pose proof (prod32 a0 b1 HAl HB) as P01.
  pose proof (prod32 a1 b0 HA HBl) as P10. pose proof (prod32 a1 b1 HA HB) as P11.
  assert (Eab : a * b = (a1*b1) * W64 + (a0*b1 + a1*b0) * W32 + a0*b0).
  { rewrite Ea, Eb. change W64 with (W32 * W32). ring. }
  rewrite Eab. clear Eab Ea Eb Ha Hb.
  set (p00 := a0*b0) in *. set (p01 := a0*b1) in *. set (p10 := a1*b0) in *. set (p11 := a1*b1) in *.
  clearbody p00 p01 p10 p11. clear - P00 P01 P10 P11.
  assert (B : (W32-1)*(W32-1) < W64) by reflexivity.
  unfold u64.
  rewrite (Z.mod_small p00) by lia. rewrite (Z.mod_small p01) by lia.
  rewrite (Z.mod_small p10) by lia. rewrite (Z.mod_small p11) by lia.
  assert (S : forall p, 0 <= p <= (W32-1)*(W32-1) -> p = (p/W32)*W32 + p mod W32
     /\ 0 <= p / W32 <= W32 - 2 /\ 0 <= p mod W32 < W32).
  { intros p Hp. pose proof (Z.div_mod p W32 ltac:(discriminate)).
    pose proof (Z.mod_pos_bound p W32 ltac:(reflexivity)).
    assert (0 <= p / W32) by (apply Z.div_pos; [lia|reflexivity]).
    assert (p / W32 < W32 - 1); [|lia].
    apply Z.div_lt_upper_bound; [reflexivity|]. unfold W32 in *; lia. }
  destruct (S _ P00) as (E00 & H00 & L00). destruct (S _ P01) as (E01 & H01 & L01).
  destruct (S _ P10) as (E10 & H10 & L10). destruct (S _ P11) as (E11 & H11 & L11).
  set (h00 := p00 / W32) in *. set (l00 := p00 mod W32) in *.
  set (h01 := p01 / W32) in *. set (l01 := p01 mod W32) in *.
  set (h10 := p10 / W32) in *. set (l10 := p10 mod W32) in *.
  clearbody h00 l00 h01 l01 h10 l10. clear S.
  rewrite (Z.mod_small (h00 + l01)) by (unfold W32, W64 in *; lia).
  rewrite (Z.mod_small (h00 + l01 + l10)) by (unfold W32, W64 in *; lia).
  set (c := h00 + l01 + l10).
  assert (Hc : 0 <= c < 3 * W32) by (unfold c, W32 in *; lia).
  pose proof (Z.div_mod c W32 ltac:(discriminate)) as Ec.
  pose proof (Z.mod_pos_bound c W32 ltac:(reflexivity)) as Hcm.
  assert (Hcd : 0 <= c / W32 < 3).
  { split; [apply Z.div_pos; [lia|reflexivity]|].
    apply Z.div_lt_upper_bound; [reflexivity|]. lia. }
  assert (Hlow : (c * W32) mod W64 = (c mod W32) * W32).
  { change W64 with (W32 * W32). rewrite Z.mul_mod_distr_r by discriminate. reflexivity. }
  rewrite Hlow, lor32' by lia.
  set (cd := c / W32) in *. set (cm := c mod W32) in *.
  assert (H0 : 0 <= p11 + h01 + h10 + cd < W64).
  { unfold W32, W64 in *. lia. }
  rewrite (Z.mod_small (p11 + h01)) by lia.
  rewrite (Z.mod_small (p11 + h01 + h10)) by lia.
  rewrite (Z.mod_small (p11 + h01 + h10 + cd)) by lia.
  unfold is_u64. unfold c in Ec. clearbody cd cm.
  unfold W32, W64 in *. lia.
Qed.

(** *** Division *)
Lemma udiv_digit_exact : forall rem digit d, 0 < d -> 0 <= rem < d -> rem < W32 ->
  0 <= digit < W32 ->
  udiv_digit rem digit d = ((rem * W32 + digit) / d, (rem * W32 + digit) mod d).
Proof.
  intros rem digit d Hd Hr Hr32 Hdig. unfold udiv_digit.
  rewrite shiftl32. unfold u64. rewrite (Z.mod_small (rem * W32)) by (unfold W32, W64 in *; lia).
  rewrite lor32 by lia.
  f_equal. unfold u32. apply Z.mod_small. split.
  - apply Z.div_pos; [|lia]. unfold W32 in *; lia.
  - apply Z.div_lt_upper_bound; [lia|]. nia.
Qed.

Lemma two_digits : forall r x y d, 0 < d ->
  ((r * W32 + x) / d) * W32 + ((((r * W32 + x) mod d) * W32 + y) / d) =
     (r * W64 + x * W32 + y) / d /\
  (((r * W32 + x) mod d) * W32 + y) mod d = (r * W64 + x * W32 + y) mod d.
Proof.
  intros r x y d Hd.
  pose proof (Z.div_mod (r*W32+x) d ltac:(lia)) as E.
  set (q := (r*W32+x)/d) in *. set (m := (r*W32+x) mod d) in *.
  assert (E2 : r * W64 + x * W32 + y = m * W32 + y + (q * W32) * d).
  { change W64 with (W32 * W32). nia. }
  rewrite E2, Z.div_add by lia. rewrite Z_mod_plus_full. split; [|reflexivity]. lia.
Qed.

Lemma udiv128_small : forall hi lo d, 0 < d <= W32 -> 0 <= hi < d -> is_u64 lo ->
  udiv128 hi lo d = Some ((hi * W64 + lo) / d, (hi * W64 + lo) mod d).
Proof.
  intros hi lo d Hd Hhi Hlo. unfold udiv128.
  destruct (Z.eqb_spec d 0); [lia|].
  rewrite !shiftr32, !land_ffffffff.
  rewrite (Z.div_small hi) by lia. rewrite (Z.mod_small hi) by lia.
  rewrite Z.mod_0_l by lia.
  rewrite udiv_digit_exact by (unfold W32 in *; lia).
  change (0 * W32 + hi) with hi. rewrite (Z.mod_small hi d) by lia.
  destruct (split32 lo Hlo) as (El & H1 & H0).
  rewrite udiv_digit_exact by lia.
  pose proof (Z.mod_pos_bound (hi * W32 + lo / W32) d ltac:(lia)).
  rewrite udiv_digit_exact by lia.
  destruct (two_digits hi (lo / W32) (lo mod W32) d ltac:(lia)) as [Q R].
  rewrite R. rewrite shiftl32, lor32.
  2:{ split; [apply Z.div_pos; [|lia]; unfold W32 in *; lia|].
      apply Z.div_lt_upper_bound; [lia|]. nia. }
  rewrite Q. replace (hi * W64 + lo / W32 * W32 + lo mod W32) with (hi * W64 + lo) by lia.
  reflexivity.
Qed.

Lemma udiv128_hi0 : forall lo d, is_u64 d -> 0 < d -> is_u64 lo ->
  udiv128 0 lo d = Some (lo / d, lo mod d).
Proof.
  intros lo d Hu Hd Hlo. 
  destruct (Z.leb_spec d W32) as [Hs|Hl].
  { rewrite udiv128_small by (try assumption; lia). f_equal. }
  unfold udiv128. destruct (Z.eqb_spec d 0); [lia|].
  change (Z.shiftr 0 32) with 0. change (Z.land 0 4294967295) with 0.
  rewrite Z.mod_0_l by lia.
  rewrite !shiftr32, !land_ffffffff.
  destruct (split32 lo Hlo) as (El & H1 & H0).
  rewrite udiv_digit_exact by (unfold W32 in *; lia).
  change (0 * W32 + 0) with 0. rewrite Z.mod_0_l by lia.
  rewrite udiv_digit_exact by (unfold W32 in *; lia).
  change (0 * W32 + lo / W32) with (lo / W32).
  rewrite (Z.mod_small (lo / W32) d) by lia. rewrite (Z.div_small (lo / W32) d) by lia.
  rewrite udiv_digit_exact by lia. rewrite <- El.
  change (Z.shiftl 0 32) with 0. rewrite Z.lor_0_l. reflexivity.
Qed.

(** *** UMulDiv64 *)
Lemma round_pos : forall p d, 0 < d -> 0 <= p ->
  (2 * p + d) / (2 * d) = if (d <=? 2 * (p mod d)) then p / d + 1 else p / d.
Proof.
  intros p d Hd Hp. pose proof (Z.div_mod p d ltac:(lia)) as E.
  pose proof (Z.mod_pos_bound p d Hd).
  set (q := p / d) in *. set (m := p mod d) in *.
  destruct (Z.leb_spec d (2 * m)).
  - symmetry. apply Z.div_unique with (r := 2 * m - d); lia.
  - symmetry. apply Z.div_unique with (r := 2 * m + d); lia.
Qed.

Lemma UMulDiv64_lemma : forall n num den,
  is_u64 n -> is_u64 num -> 0 < den <= W63 ->
  (2 * (n * num) + den) / (2 * den) < W64 ->
  UMulDiv64 n num den = Some ((2 * (n * num) + den) / (2 * den)).
Proof.
  intros n num den Hn Hnum Hden Hfit.
  unfold UMulDiv64, UMulDiv64_with, umul128_intrin, udiv128_intrin.
  assert (Hp : 0 <= n * num) by (unfold is_u64 in *; nia).
  set (p := n * num) in *. clearbody p.
  pose proof (Z.div_mod p W64 ltac:(discriminate)) as E.
  pose proof (Z.mod_pos_bound p W64 ltac:(reflexivity)) as Hm.
  rewrite round_pos in * by lia.
  pose proof (Z.div_mod p den ltac:(lia)) as Ed.
  pose proof (Z.mod_pos_bound p den ltac:(lia)) as Hmd.
  assert (Hq : 0 <= p / den < W64).
  { split; [apply Z.div_pos; lia|]. destruct (den <=? 2 * (p mod den)); lia. }
  destruct (Z.eqb_spec den 0); [lia|]. 
  assert (Hhi : p / W64 < den).
  { apply Z.div_lt_upper_bound; [reflexivity|]. nia. }
  destruct (Z.leb_spec den (p / W64)); [lia|]. cbn [orb].
  replace (p / W64 * W64 + p mod W64) with p by lia.
  f_equal. unfold u64.
  rewrite (Z.mod_small (p mod den * 2)) by (unfold W63, W64 in *; lia).
  rewrite (Z.mul_comm 2).
  destruct (Z.eqb_spec (p mod den) 0) as [E0|N0].
  - rewrite E0. destruct (Z.leb_spec den (0 * 2)); lia.
  - destruct (Z.leb_spec den (p mod den * 2)) as [HL|HL].
    + apply Z.mod_small.
      destruct (Z.leb_spec den (2 * (p mod den))); lia.
    + reflexivity.
Qed.

Lemma UMulDiv64_none : forall n num den,
  is_u64 n -> is_u64 num -> is_u64 den ->
  UMulDiv64 n num den = None <-> den = 0 \/ W64 <= (n * num) / den.
Proof.
  intros n num den Hn Hnum Hden.
  unfold UMulDiv64, UMulDiv64_with, umul128_intrin, udiv128_intrin.
  assert (Hp : 0 <= n * num) by (unfold is_u64 in *; nia).
  set (p := n * num) in *. clearbody p.
  destruct (Z.eqb_spec den 0) as [->|Hd]; cbn [orb].
  { split; auto. }
  unfold is_u64 in Hden.
  destruct (Z.leb_spec den (p / W64)) as [H|H].
  - split; [intros _; right|auto]. 
    apply Z.div_le_lower_bound; [lia|].
    pose proof (Z.mul_div_le p W64 ltac:(reflexivity)). nia.
  - split; [discriminate|]. intros [?|C]; [lia|]. exfalso.
    assert (p < den * W64).
    { pose proof (Z.mul_succ_div_gt p W64 ltac:(reflexivity)). unfold W64 in *. nia. }
    pose proof (Z.mul_div_le p den ltac:(lia)). nia.
Qed.

Lemma UMulDiv64_portable_lemma : forall n num den,
  is_u64 n -> is_u64 num -> is_u64 den -> 0 < den ->
  (den <= W32 \/ n * num < W64) ->
  (n * num) / den < W64 ->
  UMulDiv64_portable n num den = UMulDiv64 n num den.
Proof.
  intros n num den Hn Hnum Hu Hden Hcase Hfit.
  unfold UMulDiv64_portable, UMulDiv64, UMulDiv64_with.
  pose proof (umul128_lemma n num Hn Hnum) as HM.
  destruct (umul128 n num) as [lo hi]. destruct HM as (Hlo & Hhi & E).
  assert (umul128_intrin n num = (lo, hi)) as ->.
  { unfold umul128_intrin. rewrite <- E. unfold is_u64 in *.
    rewrite Z.add_comm, Z_mod_plus_full, Z.mod_small by lia.
    rewrite Z.add_comm, Z.div_add_l by discriminate.
    rewrite (Z.div_small lo) by lia. f_equal. lia. }
  assert (Hlt : hi < den).
  { unfold is_u64 in *. rewrite <- E in Hfit.
    pose proof (Z.mul_succ_div_gt (hi * W64 + lo) den Hden) as G.
    assert ((hi * W64 + lo) / den <= W64 - 1) by lia.
    assert (den * Z.succ ((hi * W64 + lo) / den) <= den * W64) by (apply Z.mul_le_mono_nonneg_l; lia).
    nia. }
  assert (udiv128 hi lo den = udiv128_intrin hi lo den) as ->; [|reflexivity].
  unfold udiv128_intrin. unfold is_u64 in *.
  destruct (Z.eqb_spec den 0); [lia|]. destruct (Z.leb_spec den hi); [lia|]. cbn [orb].
  destruct Hcase as [Hs|Hs].
  - apply udiv128_small; unfold is_u64; lia.
  - assert (hi = 0) by (unfold W64 in *; nia). subst hi.
    rewrite udiv128_hi0 by (unfold is_u64; lia). reflexivity.
Qed.

(** *** The fast variants *)
Lemma UMulDiv64Fast_lemma : forall n num den,
  is_u64 n -> is_u64 num -> is_u64 den -> 0 < den -> den <= W63 * Z.max 1 num ->
  (num mod den = 0 \/ (num <> 0 /\ den mod num = 0)) ->
  (2 * (n * num) + den) / (2 * den) < W64 ->
  UMulDiv64Fast n num den = Some ((2 * (n * num) + den) / (2 * den)).
Proof.
  intros n num den Hn Hnum Hdu Hden Hd63 Hdiv Hfit.
  unfold UMulDiv64Fast, is_u64 in *.
  destruct (Z.eqb_spec num 0) as [->|Hnz].
  { rewrite Z.mul_0_r, Z.mul_0_r, Z.add_0_l. f_equal. symmetry. apply Z.div_small. lia. }
  destruct (Z.ltb_spec den num) as [Hgt|Hle].
  - destruct (Z.eqb_spec den 0); [lia|].
    assert (num mod den = 0) as Hm.
    { destruct Hdiv as [?|[_ H]]; [assumption|]. rewrite Z.mod_small in H by lia. lia. }
    pose proof (Z.div_mod num den ltac:(lia)) as E. rewrite Hm, Z.add_0_r in E.
    set (k := num / den) in *.
    assert (HE : (2 * (n * num) + den) / (2 * den) = n * k).
    { symmetry. apply Z.div_unique with (r := den); [lia|]. rewrite E. ring. }
    rewrite HE in *. f_equal. apply Z.mod_small. split; [|lia].
    assert (0 <= k) by (unfold k; apply Z.div_pos; lia). nia.
  - destruct (Z.ltb_spec num den) as [Hlt|Heq].
    + assert (den mod num = 0) as Hm.
      { destruct Hdiv as [H|[_ H]]; [|assumption]. rewrite Z.mod_small in H by lia. lia. }
      pose proof (Z.div_mod den num ltac:(lia)) as E. rewrite Hm, Z.add_0_r in E.
      set (k := den / num) in *.
      assert (Hk : 0 < k) by nia.
      assert (HE : (2 * (n * num) + den) / (2 * den) = (2 * n + k) / (2 * k)).
      { rewrite E. replace (2 * (n * num) + num * k) with ((2 * n + k) * num) by ring.
        replace (2 * (num * k)) with ((2 * k) * num) by ring.
        apply Z.div_mul_cancel_r; lia. }
      rewrite HE, round_pos in * by lia.
      pose proof (Z.mod_pos_bound n k Hk). pose proof (Z.div_mod n k ltac:(lia)).
      assert (k <= W63) by (rewrite Z.max_r in Hd63 by lia; nia).
      unfold u64. rewrite (Z.mod_small (n mod k * 2)) by (unfold W63, W64 in *; lia).
      rewrite (Z.mul_comm (n mod k)). f_equal.
      assert (0 <= n / k) by (apply Z.div_pos; lia).
      destruct (k <=? 2 * (n mod k)); [apply Z.mod_small; lia|reflexivity].
    + assert (num = den) by lia. subst num. f_equal.
      apply Z.div_unique with (r := den); lia.
Qed.

Lemma chk_ok : forall x, is_s64 x -> chk x = Some x.
Proof.
  intros x H. unfold chk, is_s64 in *.
  destruct (Z.leb_spec (-W63) x); [|lia]. destruct (Z.ltb_spec x W63); [reflexivity|lia].
Qed.

Lemma strip_sign_ok : forall x neg, - W63 < x < W63 ->
  strip_sign x neg = Some (Z.abs x, if x <? 0 then negb neg else neg).
Proof.
  intros x neg H. unfold strip_sign. destruct (Z.ltb_spec x 0) as [Hx|Hx].
  - rewrite chk_ok by (unfold is_s64; lia). cbn [bind]. f_equal. f_equal. lia.
  - f_equal. f_equal. lia.
Qed.

(** round half away from zero of n*num/den for the magnitudes *)
Definition rnd (a num den : Z) := (2 * (a * num) + den) / (2 * den).

Lemma rnd_mul : forall a k d, 0 < d -> rnd a (d * k) d = a * k.
Proof.
  intros. unfold rnd. symmetry. apply Z.div_unique with (r := d); [lia|]. ring.
Qed.

Lemma rnd_div : forall a k num, 0 < num -> 0 < k -> rnd a num (num * k) = (2 * a + k) / (2 * k).
Proof.
  intros a k num H Hk. unfold rnd.
  replace (2 * (a * num) + num * k) with ((2 * a + k) * num) by ring.
  replace (2 * (num * k)) with ((2 * k) * num) by ring.
  apply Z.div_mul_cancel_r; lia.
Qed.

Lemma sgn_flip : forall x (b : bool), (if (if x <? 0 then negb b else b) then -1 else 1)
  = (if x <? 0 then -1 else 1) * (if b then -1 else 1).
Proof. intros. destruct (x <? 0), b; reflexivity. Qed.

Definition sg (x : Z) := if x <? 0 then -1 else 1.
Lemma sg_abs : forall x, x = sg x * Z.abs x.
Proof. intros. unfold sg. destruct (Z.ltb_spec x 0); lia. Qed.
Lemma sgn_sg : forall x, x <> 0 -> Z.sgn x = sg x.
Proof. intros. unfold sg. destruct (Z.ltb_spec x 0); lia. Qed.

Lemma MulDiv64Fast_lemma : forall n num den,
  - W63 < n < W63 -> - W63 < num < W63 -> - W63 < den < W63 -> den <> 0 ->
  2 * Z.abs den <= W63 * Z.max 1 (Z.abs num) ->
  (num mod den = 0 \/ (num <> 0 /\ den mod num = 0)) ->
  rnd (Z.abs n) (Z.abs num) (Z.abs den) < W63 ->
  MulDiv64Fast n num den =
    Some (Z.sgn n * Z.sgn num * Z.sgn den * rnd (Z.abs n) (Z.abs num) (Z.abs den)).
Proof.
  intros n num den Hn Hnum Hden Hd0 Hbig Hdiv Hfit.
  unfold MulDiv64Fast.
  destruct (Z.eqb_spec num 0) as [->|Hnz].
  { f_equal. rewrite Z.mul_0_r. reflexivity. }
  rewrite strip_sign_ok by assumption. cbn [bind].
  rewrite strip_sign_ok by assumption. cbn [bind].
  rewrite (sgn_sg num), (sgn_sg den) by assumption.
  assert (Hdiv' : Z.abs num mod Z.abs den = 0 \/ Z.abs den mod Z.abs num = 0).
  { destruct Hdiv as [H|[_ H]]; [left|right].
    - apply Z.mod_divide in H; [|assumption]. apply Z.mod_divide; [lia|].
      apply Z.divide_abs_l, Z.divide_abs_r. assumption.
    - apply Z.mod_divide in H; [|assumption]. apply Z.mod_divide; [lia|].
      apply Z.divide_abs_l, Z.divide_abs_r. assumption. }
  set (A := Z.abs num) in *. set (D := Z.abs den) in *.
  assert (HA : 0 < A < W63) by lia. assert (HD : 0 < D < W63) by lia.
  set (neg := if den <? 0 then negb (if num <? 0 then negb false else false)
              else if num <? 0 then negb false else false).
  assert (Hneg : sg num * sg den = (if neg then -1 else 1)).
  { unfold sg, neg. destruct (den <? 0), (num <? 0); reflexivity. }
  clearbody neg.
  replace (Z.sgn n * sg num * sg den) with (Z.sgn n * (sg num * sg den)) by ring.
  rewrite Hneg. clear Hneg.
  rewrite (Z.max_r 1 A) in Hbig by lia.
  assert (Hfin : forall r, - W63 < r < W63 -> 
     (if neg then chk (r * -1) else Some r) = Some ((if neg then -1 else 1) * r)).
  { intros r Hr. destruct neg; [rewrite chk_ok by (unfold is_s64; lia)|]; f_equal; lia. }
  assert (Hsn : Z.sgn n * Z.abs n = n) by lia.
  destruct (Z.ltb_spec D A) as [Hgt|Hle].
  - destruct (Z.eqb_spec D 0); [lia|].
    assert (Hm : A mod D = 0).
    { destruct Hdiv' as [H|H]; [assumption|]. rewrite Z.mod_small in H by lia. lia. }
    rewrite Z.quot_div_nonneg by lia.
    pose proof (Z.div_mod A D ltac:(lia)) as E. rewrite Hm, Z.add_0_r in E.
    set (k := A / D) in *. rewrite E in Hfit |- *. rewrite rnd_mul in * by lia.
    assert (0 <= k) by nia.
    assert (0 <= Z.abs n * k) by nia.
    assert (Z.abs (n * k) = Z.abs n * k) by (rewrite Z.abs_mul; f_equal; lia).
    rewrite chk_ok by (unfold is_s64; lia). cbn [bind].
    rewrite Hfin by lia. f_equal. rewrite <- Hsn at 1. ring.
  - destruct (Z.ltb_spec A D) as [Hlt|Heq].
    + assert (Hm : D mod A = 0).
      { destruct Hdiv' as [H|H]; [|assumption]. rewrite Z.mod_small in H by lia. lia. }
      pose proof (Z.div_mod D A ltac:(lia)) as E. rewrite Hm, Z.add_0_r in E.
      rewrite strip_sign_ok by assumption. cbn [bind].
      rewrite Z.quot_div_nonneg by lia.
      set (k := D / A) in *. assert (Hk : 0 < k) by nia.
      rewrite E in Hfit, Hbig |- *. rewrite rnd_div in * by lia.
      rewrite Z.quot_div_nonneg, Z.rem_mod_nonneg by lia.
      assert (2 * k <= W63) by nia.
      rewrite round_pos in * by lia.
      pose proof (Z.mod_pos_bound (Z.abs n) k Hk).
      assert (0 <= Z.abs n / k) by (apply Z.div_pos; lia).
      rewrite chk_ok by (unfold is_s64, W63 in *; lia). cbn [bind].
      rewrite (Z.mul_comm (Z.abs n mod k)).
      assert (HF : forall q, 0 <= q < W63 ->  (n = 0 -> q = 0) ->
        (if (if n <? 0 then negb neg else neg) then chk (q * -1) else Some q)
         = Some (Z.sgn n * (if neg then -1 else 1) * q)).
      { intros q Hq Hq0.
        destruct (Z.ltb_spec n 0) as [Hn0|Hn0].
        - rewrite (Z.sgn_neg n) by assumption.
          destruct neg; cbn [negb]; [|rewrite chk_ok by (unfold is_s64; lia)]; f_equal; lia.
        - destruct (Z.eq_dec n 0) as [->|]; [rewrite Hq0 by reflexivity; destruct neg; reflexivity|].
          rewrite (Z.sgn_pos n) by lia.
          destruct neg; cbn [negb]; [rewrite chk_ok by (unfold is_s64; lia)|]; f_equal; lia. }
      destruct (Z.leb_spec k (2 * (Z.abs n mod k))) as [Hr|Hr].
      * rewrite chk_ok by (unfold is_s64; lia). cbn [bind]. apply HF; [lia|].
        intros ->. rewrite Z.mod_0_l in Hr by lia. lia.
      * cbn [bind]. apply HF; [lia|]. intros ->. reflexivity.
    + assert (A = D) as -> by lia. cbn [bind].
      replace D with (D * 1) in Hfit at 1 by ring.
      replace (rnd (Z.abs n) D D) with (rnd (Z.abs n) (D * 1) D) by (f_equal; ring).
      rewrite rnd_mul in * by lia. rewrite Hfin by lia. f_equal. rewrite <- Hsn at 1. ring.
Qed.
