(** Property theorems C31-C34 and C68: MathUtils.h and the portable bit counters. *)
From Coq Require Import ZArith Lia Bool List.
From Verif Require Import Word MathModel MathProofs BitsCountProofs.
Import ListNotations.
Local Open Scope Z_scope.

(** C31: the portable product is the exact 128-bit product. *)
Theorem C31_umul128_exact : forall a b lo hi,
  0 <= a < 2 ^ 64 -> 0 <= b < 2 ^ 64 -> umul128 a b = (lo, hi) ->
  0 <= lo < 2 ^ 64 /\ 0 <= hi < 2 ^ 64 /\ hi * 2 ^ 64 + lo = a * b.
Proof. intros a b lo hi Ha Hb E. pose proof (umul128_lemma a b Ha Hb) as H. rewrite E in H. exact H. Qed.
Print Assumptions C31_umul128_exact.

Example C31_case : umul128 (2 ^ 64 - 1) (2 ^ 64 - 3) = (3, 2 ^ 64 - 4).
Proof. vm_compute. reflexivity. Qed.

(** C32, what holds: exact for divisors up to 2^32, and for a zero high word with every
    divisor. The full statement would need [hi < d] only. *)
Theorem C32_udiv128_exact_partial : forall hi lo d,
  0 <= lo < 2 ^ 64 -> 0 < d < 2 ^ 64 -> 0 <= hi < d ->
  d <= 2 ^ 32 \/ hi = 0 ->
  exists q r, udiv128 hi lo d = Some (q, r) /\
    hi * 2 ^ 64 + lo = q * d + r /\ 0 <= r < d.
Proof.
  intros hi lo d Hlo Hd Hhi Hc.
  assert (udiv128 hi lo d = Some ((hi * 2 ^ 64 + lo) / d, (hi * 2 ^ 64 + lo) mod d)) as ->.
  { destruct Hc as [Hc|Hc].
    - apply udiv128_small; [split; [lia|exact Hc]|lia|exact Hlo].
    - subst hi. apply udiv128_hi0; [split; [lia|exact (proj2 Hd)]|lia|exact Hlo]. }
  exists ((hi * 2 ^ 64 + lo) / d), ((hi * 2 ^ 64 + lo) mod d). split; [reflexivity|].
  pose proof (Z.div_mod (hi * 2 ^ 64 + lo) d ltac:(lia)).
  pose proof (Z.mod_pos_bound (hi * 2 ^ 64 + lo) d ltac:(lia)). lia.
Qed.
Print Assumptions C32_udiv128_exact_partial.

Example C32_case : udiv128 (10 ^ 6) 12345678901234567890 (10 ^ 7)
  = Some ((10 ^ 6 * 2 ^ 64 + 12345678901234567890) / 10 ^ 7, (10 ^ 6 * 2 ^ 64 + 12345678901234567890) mod 10 ^ 7)
  /\ 0 < 10 ^ 6 < 10 ^ 7.
Proof. vm_compute. auto. Qed.

(** C32 refuted: with a divisor over 2^32 the shifted remainder loses its upper bits. *)
Theorem C32_udiv128_refuted : exists hi lo d q r,
  0 <= lo < 2 ^ 64 /\ 0 < d < 2 ^ 64 /\ 0 <= hi < d /\
  udiv128 hi lo d = Some (q, r) /\ hi * 2 ^ 64 + lo <> q * d + r.
Proof. exists (2 ^ 32), 0, (2 ^ 32 + 1). eexists _, _. vm_compute. repeat split; discriminate. Qed.
Print Assumptions C32_udiv128_refuted.

(** Round half up of the rational p/d, d > 0: the unique integer k with
    k - 1/2 <= p/d < k + 1/2. *)
Definition rounds_half_up (p d k : Z) : Prop := (2 * k - 1) * d <= 2 * p < (2 * k + 1) * d.

Lemma rounds_half_up_eq : forall p d, 0 < d -> rounds_half_up p d ((2 * p + d) / (2 * d)).
Proof.
  intros p d Hd. unfold rounds_half_up.
  pose proof (Z.div_mod (2 * p + d) (2 * d) ltac:(lia)).
  pose proof (Z.mod_pos_bound (2 * p + d) (2 * d) ltac:(lia)). nia.
Qed.

Lemma rounds_half_up_unique : forall p d k, 0 < d -> rounds_half_up p d k ->
  k = (2 * p + d) / (2 * d).
Proof.
  intros p d k Hd H. unfold rounds_half_up in H.
  apply Z.div_unique with (r := 2 * p + d - 2 * d * k); lia.
Qed.

(** C33 for denominators up to 2^63 (AMD64 build): whenever the rounded quotient fits 64
    bits, it is returned. *)
Theorem C33_UMulDiv64_rounds_partial : forall n num den k,
  0 <= n < 2 ^ 64 -> 0 <= num < 2 ^ 64 -> 0 < den <= 2 ^ 63 ->
  rounds_half_up (n * num) den k -> k < 2 ^ 64 ->
  UMulDiv64 n num den = Some k.
Proof.
  intros n num den k Hn Hnum Hd Hk Hfit.
  apply rounds_half_up_unique in Hk; [|lia]. subst k.
  apply UMulDiv64_lemma; assumption.
Qed.
Print Assumptions C33_UMulDiv64_rounds_partial.

(** C33: the DIV trap is raised exactly for a zero denominator or an overflowing quotient. *)
Theorem C33_UMulDiv64_traps : forall n num den,
  0 <= n < 2 ^ 64 -> 0 <= num < 2 ^ 64 -> 0 <= den < 2 ^ 64 ->
  UMulDiv64 n num den = None <-> den = 0 \/ 2 ^ 64 <= (n * num) / den.
Proof. exact UMulDiv64_none. Qed.
Print Assumptions C33_UMulDiv64_traps.

(** C33, portable build: same result for denominators up to 2^32 or products below 2^64. *)
Theorem C33_UMulDiv64_portable_agrees : forall n num den,
  0 <= n < 2 ^ 64 -> 0 <= num < 2 ^ 64 -> 0 <= den < 2 ^ 64 -> 0 < den ->
  den <= 2 ^ 32 \/ n * num < 2 ^ 64 -> (n * num) / den < 2 ^ 64 ->
  UMulDiv64_portable n num den = UMulDiv64 n num den.
Proof. exact UMulDiv64_portable_lemma. Qed.
Print Assumptions C33_UMulDiv64_portable_agrees.

Example C33_case : rounds_half_up (123456789012345678 * 10000000) 14318180 86223800100533502
  /\ UMulDiv64 123456789012345678 10000000 14318180 = Some 86223800100533502
  /\ UMulDiv64_portable 123456789012345678 10000000 14318180 = Some 86223800100533502.
Proof. vm_compute. repeat split; discriminate. Qed.

(** C33 refuted for denominators over 2^63: [_Remainder * 2] wraps (MathUtils.h 76). *)
Theorem C33_UMulDiv64_refuted : exists n num den k k',
  0 <= n < 2 ^ 64 /\ 0 <= num < 2 ^ 64 /\ 0 < den < 2 ^ 64 /\
  rounds_half_up (n * num) den k /\ k < 2 ^ 64 /\
  UMulDiv64 n num den = Some k' /\ k' <> k.
Proof.
  exists (2 ^ 64 - 2), 1, (2 ^ 64 - 1), 1, 0. vm_compute. repeat split; discriminate.
Qed.
Print Assumptions C33_UMulDiv64_refuted.

(** C33 refuted for the portable build: not even close to the quotient. *)
Theorem C33_UMulDiv64_portable_refuted : exists n num den k k',
  0 <= n < 2 ^ 64 /\ 0 <= num < 2 ^ 64 /\ 0 < den <= 2 ^ 63 /\
  rounds_half_up (n * num) den k /\ k < 2 ^ 64 /\
  UMulDiv64_portable n num den = Some k' /\ k' <> k.
Proof.
  exists (2 ^ 48), (2 ^ 48), (2 ^ 32 + 2 ^ 20). eexists ((2 * (2 ^ 96) + (2 ^ 32 + 2 ^ 20)) / (2 * (2 ^ 32 + 2 ^ 20))), _.
  vm_compute. repeat split; discriminate.
Qed.
Print Assumptions C33_UMulDiv64_portable_refuted.

(** C34, unsigned: under the documented condition (one of num, den is a multiple of the
    other) the result is exact, rounded half up. The quotient den/num is limited to 2^63
    because the remainder is doubled in 64 bits. *)
Theorem C34_UMulDiv64Fast_exact : forall n num den k,
  0 <= n < 2 ^ 64 -> 0 <= num < 2 ^ 64 -> 0 < den < 2 ^ 64 ->
  (num mod den = 0 \/ (num <> 0 /\ den mod num = 0)) ->
  den <= 2 ^ 63 * Z.max 1 num ->
  rounds_half_up (n * num) den k -> k < 2 ^ 64 ->
  UMulDiv64Fast n num den = Some k.
Proof.
  intros n num den k Hn Hnum Hd Hdiv Hbig Hk Hfit.
  apply rounds_half_up_unique in Hk; [|lia]. subst k.
  apply UMulDiv64Fast_lemma; try assumption; [|lia]. split; [lia|exact (proj2 Hd)].
Qed.
Print Assumptions C34_UMulDiv64Fast_exact.

Example C34_case_mul : UMulDiv64Fast 123456789 10000000 1000000 = Some 1234567890.
Proof. vm_compute. reflexivity. Qed.
Example C34_case_div : rounds_half_up (12345678905 * 1000000) 10000000 1234567891 /\
  UMulDiv64Fast 12345678905 1000000 10000000 = Some 1234567891.
Proof. vm_compute. repeat split; discriminate. Qed.

(** C34, signed: same magnitude as the exact quotient rounded half away from zero, sign
    of the exact quotient, and no signed overflow on the way. *)
Theorem C34_MulDiv64Fast_exact : forall n num den k,
  - 2 ^ 63 < n < 2 ^ 63 -> - 2 ^ 63 < num < 2 ^ 63 -> - 2 ^ 63 < den < 2 ^ 63 -> den <> 0 ->
  (num mod den = 0 \/ (num <> 0 /\ den mod num = 0)) ->
  2 * Z.abs den <= 2 ^ 63 * Z.max 1 (Z.abs num) ->
  rounds_half_up (Z.abs n * Z.abs num) (Z.abs den) k -> k < 2 ^ 63 ->
  MulDiv64Fast n num den = Some (Z.sgn n * Z.sgn num * Z.sgn den * k).
Proof.
  intros n num den k Hn Hnum Hd Hd0 Hdiv Hbig Hk Hfit.
  apply rounds_half_up_unique in Hk; [|lia]. subst k.
  apply MulDiv64Fast_lemma; assumption.
Qed.
Print Assumptions C34_MulDiv64Fast_exact.

Example C34_case_signed : MulDiv64Fast (-25) 1 (-10) = Some 3 /\ MulDiv64Fast 25 1 (-10) = Some (-3)
  /\ MulDiv64Fast (-25) 20 (-10) = Some 50 /\ MulDiv64Fast (-25) 10 10 = Some (-25).
Proof. vm_compute. auto. Qed.

(** Outside the documented condition the result is not the product quotient: with the
    14.31818 MHz counter of older machines 10 s become 6.98 s. *)
Theorem C34_UMulDiv64Fast_needs_condition : exists n num den k k',
  0 <= n < 2 ^ 64 /\ 0 <= num < 2 ^ 64 /\ 0 < den < 2 ^ 64 /\
  rounds_half_up (n * num) den k /\ k < 2 ^ 64 /\
  UMulDiv64Fast n num den = Some k' /\ k' <> k.
Proof.
  exists 100000000, 14318180, 10000000, 143181800, 100000000. vm_compute.
  repeat split; discriminate.
Qed.
Print Assumptions C34_UMulDiv64Fast_needs_condition.

(** C68: both portable counters return the number of one bits. The specification is
    [number_of_ones width x := length (filter (Z.testbit x) (seq 0 width))], see
    BitsCountProofs.v. *)
Theorem C68_BitsCount32 : forall x, 0 <= x < 2 ^ 32 -> BitsCount32 x = number_of_ones 32 x.
Proof. exact BitsCount32_lemma. Qed.
Print Assumptions C68_BitsCount32.

Theorem C68_BitsCount64 : forall x, 0 <= x < 2 ^ 64 -> BitsCount64 x = number_of_ones 64 x.
Proof. exact BitsCount64_lemma. Qed.
Print Assumptions C68_BitsCount64.

Example C68_case : BitsCount64 0xF0F0000100000003 = 11 /\ BitsCount32 0x80000001 = 2.
Proof. vm_compute. auto. Qed.
