(** Fixed-width machine words on [Z], shared by the models.

    [u8 .. u64] are the conversions to unsigned integer types of C++ (value modulo
    2^n), [s64] is the reinterpretation of a 64-bit pattern as a signed number. *)
From Coq Require Import ZArith Lia Bool List.
Import ListNotations.
Local Open Scope Z_scope.

Definition W8 : Z := 256.
Definition W16 : Z := 65536.
Definition W32 : Z := 4294967296.
Definition W64 : Z := 18446744073709551616.
Definition W63 : Z := 9223372036854775808.

Definition u8 (x : Z) : Z := x mod W8.
Definition u16 (x : Z) : Z := x mod W16.
Definition u32 (x : Z) : Z := x mod W32.
Definition u64 (x : Z) : Z := x mod W64.

(** Bit pattern of [x] read as [int64_t]. *)
Definition s64 (x : Z) : Z := if u64 x <? W63 then u64 x else u64 x - W64.

Definition is_u16 (x : Z) : Prop := 0 <= x < W16.
Definition is_u32 (x : Z) : Prop := 0 <= x < W32.
Definition is_u64 (x : Z) : Prop := 0 <= x < W64.
Definition is_s64 (x : Z) : Prop := - W63 <= x < W63.

(** [UINT64_MAX], the "invalid index" [kuInvalidIndex]. *)
Definition U64MAX : Z := W64 - 1.

Lemma u64_id : forall x, is_u64 x -> u64 x = x.
Proof. intros x H. unfold u64. apply Z.mod_small. exact H. Qed.

Lemma u64_range : forall x, is_u64 (u64 x).
Proof. intros x. unfold u64, is_u64. apply Z.mod_pos_bound. reflexivity. Qed.

Lemma s64_id : forall x, is_s64 x -> s64 x = x.
Proof.
  intros x H. unfold is_s64 in H. unfold s64, u64.
  destruct (Z.ltb_spec x 0) as [Hn|Hp].
  - assert (E : x mod W64 = x + W64).
    { symmetry. apply Z.mod_unique_pos with (q := -1); unfold W64, W63 in *; lia. }
    rewrite E. destruct (Z.ltb_spec (x + W64) W63); unfold W64, W63 in *; lia.
  - rewrite Z.mod_small by (unfold W64, W63 in *; lia).
    destruct (Z.ltb_spec x W63); lia.
Qed.

(** [|] of a high part and a low part that do not overlap is an addition. *)
Lemma lor_disjoint_add : forall hi lo n, 0 <= n -> 0 <= lo < 2 ^ n ->
  Z.lor (hi * 2 ^ n) lo = hi * 2 ^ n + lo.
Proof.
  intros hi lo n Hn Hlo.
  apply Z.bits_inj'. intros m Hm.
  rewrite Z.lor_spec.
  destruct (Z.ltb_spec m n) as [Hlt|Hge].
  - rewrite Z.mul_pow2_bits_low by lia. cbn.
    rewrite <- (Z.mod_pow2_bits_low (hi * 2 ^ n + lo) n m) by lia.
    rewrite Z.add_comm, Z_mod_plus_full, Z.mod_small by lia. reflexivity.
  - rewrite Z.mul_pow2_bits by lia.
    assert (Z.testbit lo m = false) as ->.
    { destruct (Z.eq_dec lo 0) as [->|Hne]; [apply Z.bits_0|].
      apply Z.bits_above_log2; [lia|].
      apply Z.lt_le_trans with n; [|lia].
      apply Z.log2_lt_pow2; lia. }
    rewrite orb_false_r.
    replace (Z.testbit (hi * 2 ^ n + lo) m) with (Z.testbit ((hi * 2 ^ n + lo) / 2 ^ n) (m - n)).
    + rewrite Z.div_add_l by lia. rewrite (Z.div_small lo) by lia. rewrite Z.add_0_r. reflexivity.
    + rewrite Z.div_pow2_bits by lia. f_equal. lia.
Qed.

Lemma lor_disjoint_add' : forall hi lo n, 0 <= n -> 0 <= lo < 2 ^ n ->
  Z.lor lo (hi * 2 ^ n) = hi * 2 ^ n + lo.
Proof. intros. rewrite Z.lor_comm. apply lor_disjoint_add; assumption. Qed.
