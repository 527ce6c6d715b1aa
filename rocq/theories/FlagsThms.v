(** C144: the operators of the enumerations of flags are those of sets of flags. *)
From Coq Require Import ZArith Lia Bool List.
From Verif Require Import Word InterlockedModel FlagsModel.
Import ListNotations.
Local Open Scope Z_scope.

(** * Specification: a value is a set of the numbers 0 .. 31 *)

(** Flag number i is in the set x. *)
Definition flag (x i : Z) : bool := Z.odd (x / 2 ^ i).
Definition idx (i : Z) : Prop := 0 <= i < 32.

(** * Proofs *)
Lemma flag_testbit : forall x i, 0 <= i -> flag x i = Z.testbit x i.
Proof. intros x i H. unfold flag. rewrite Z.testbit_odd, Z.shiftr_div_pow2 by lia. reflexivity. Qed.

Lemma low : forall x i, idx i -> Z.testbit (x mod W32) i = Z.testbit x i.
Proof. intros x i H. change W32 with (2 ^ 32). apply Z.mod_pow2_bits_low. unfold idx in H; lia. Qed.

Lemma conv_mod : forall u x, conv u x mod W32 = x mod W32.
Proof.
  intros [] x; cbn [conv]; unfold u32.
  - destruct (_ <? _).
    + apply Z.mod_mod. discriminate.
    + replace (x mod W32 - W32) with (x mod W32 + (-1) * W32) by lia.
      rewrite Z_mod_plus_full. apply Z.mod_mod. discriminate.
  - apply Z.mod_mod. discriminate.
Qed.

Lemma conv_flag : forall u x i, idx i -> Z.testbit (conv u x) i = Z.testbit x i.
Proof. intros u x i H. rewrite <- low, conv_mod, low by exact H. reflexivity. Qed.

Lemma conv_fits : forall u x, fits u (conv u x).
Proof.
  intros u x. pose proof (Z.mod_pos_bound x W32 eq_refl) as B.
  destruct u; cbn [fits conv]; unfold u32.
  - destruct (Z.ltb_spec (x mod W32) 2147483648); unfold W32 in *; lia.
  - exact B.
Qed.

Lemma fits_mod : forall u x y, fits u x -> fits u y -> x mod W32 = y mod W32 -> x = y.
Proof.
  intros u x y X Y E.
  pose proof (Z.div_mod x W32 ltac:(discriminate)) as DX.
  pose proof (Z.div_mod y W32 ltac:(discriminate)) as DY.
  destruct u; cbn [fits] in *; unfold W32 in *; lia.
Qed.

Lemma conv_id : forall u x, fits u x -> conv u x = x.
Proof. intros u x H. apply (fits_mod u); [apply conv_fits | exact H | apply conv_mod]. Qed.

Lemma ext : forall u x y, fits u x -> fits u y -> (forall i, idx i -> Z.testbit x i = Z.testbit y i) -> x = y.
Proof.
  intros u x y X Y H. apply (fits_mod u); auto.
  apply Z.bits_inj'. intros i I. destruct (Z.ltb_spec i 32) as [L | L].
  - rewrite !low by (unfold idx; lia). apply H. unfold idx; lia.
  - change W32 with (2 ^ 32). rewrite !Z.mod_pow2_bits_high by lia. reflexivity.
Qed.

Lemma low_bit : forall i j, 0 <= i -> 0 <= j -> Z.testbit (2 ^ i) j = (i =? j).
Proof.
  intros i j I J. destruct (Z.eqb_spec i j) as [-> | N].
  - apply Z.pow2_bits_true. exact J.
  - apply Z.pow2_bits_false. exact N.
Qed.

(** * Theorems *)

(** The flags determine the value: nothing else is in it. *)
Theorem C144_set : forall u x y, fits u x -> fits u y -> (forall i, idx i -> flag x i = flag y i) -> x = y.
Proof.
  intros u x y X Y H. apply (ext u); auto. intros i I. unfold idx in I.
  rewrite <- !flag_testbit by lia. apply H. exact I.
Qed.

(** Union, intersection, difference in one and complement; the results are values of the type. *)
Theorem C144_algebra : forall u l r, fits u l -> fits u r ->
  (fits u (op_or u l r) /\ fits u (op_and u l r) /\ fits u (op_xor u l r) /\ fits u (op_not u l)) /\
  forall i, idx i ->
  flag (op_or u l r) i = flag l i || flag r i /\
  flag (op_and u l r) i = flag l i && flag r i /\
  flag (op_xor u l r) i = negb (eqb (flag l i) (flag r i)) /\
  flag (op_not u l) i = negb (flag l i).
Proof.
  intros u l r L R. split; [repeat split; apply conv_fits|].
  intros i I. assert (J := I). unfold idx in J. rewrite !flag_testbit by lia.
  unfold op_or, op_and, op_xor, op_not. rewrite !conv_flag by exact I.
  rewrite Z.lor_spec, Z.land_spec, Z.lxor_spec, Z.lnot_spec by lia.
  repeat split. destruct (Z.testbit l i), (Z.testbit r i); reflexivity.
Qed.

(** Taking flags out that were put in: [(x | f) & ~f] is x without f, and [~~x] is x. *)
Theorem C144_undo : forall u x f, fits u x -> fits u f ->
  op_not u (op_not u x) = x /\
  op_xor u (op_xor u x f) f = x /\
  (op_and u x f = 0 -> op_and u (op_or u x f) (op_not u f) = x).
Proof.
  intros u x f X F. repeat split.
  - apply (ext u); [apply conv_fits | exact X |]. intros i I. assert (J := I). unfold idx in J.
    unfold op_not. rewrite conv_flag, Z.lnot_spec, conv_flag, Z.lnot_spec by (exact I || lia).
    apply negb_involutive.
  - apply (ext u); [apply conv_fits | exact X |]. intros i I.
    unfold op_xor. rewrite conv_flag, Z.lxor_spec, conv_flag, Z.lxor_spec by exact I.
    destruct (Z.testbit x i), (Z.testbit f i); reflexivity.
  - intros D. apply (ext u); [apply conv_fits | exact X |]. intros i I. assert (J := I). unfold idx in J.
    assert (B : Z.testbit (op_and u x f) i = false) by (rewrite D; apply Z.bits_0).
    unfold op_and, op_or, op_not in *. rewrite conv_flag, Z.land_spec in B by exact I.
    rewrite conv_flag, Z.land_spec, !conv_flag, Z.lor_spec, Z.lnot_spec by (exact I || lia).
    destruct (Z.testbit x i), (Z.testbit f i); cbn in *; congruence.
Qed.

(** HasFlags says whether the sets have a common flag; for one flag: whether it is there. *)
Theorem C144_has_partial : forall u l r, fits u l -> fits u r ->
  (HasFlags u l r = true <-> exists i, idx i /\ flag l i = true /\ flag r i = true) /\
  forall i, idx i -> HasFlags u l (conv u (2 ^ i)) = flag l i.
Proof.
  assert (A : forall u l r, HasFlags u l r = true <-> exists i, idx i /\ Z.testbit l i = true /\ Z.testbit r i = true).
  { intros u l r. unfold HasFlags. rewrite negb_true_iff, Z.eqb_neq. split.
    - intros N. destruct (Z.land l r mod W32 =? 0) eqn:Z0.
      + apply Z.eqb_eq in Z0. exfalso. apply N. apply (fits_mod u); [apply conv_fits | |].
        * destruct u; cbn; unfold W32; lia.
        * rewrite conv_mod, Z0. reflexivity.
      + apply Z.eqb_neq in Z0. pose proof (Z.mod_pos_bound (Z.land l r) W32 eq_refl) as B.
        set (m := Z.land l r mod W32) in *.
        exists (Z.log2 m).
        assert (T : Z.testbit m (Z.log2 m) = true) by (apply Z.bit_log2; lia).
        assert (I : idx (Z.log2 m)).
        { split; [apply Z.log2_nonneg|]. apply Z.log2_lt_pow2; [lia|]. change (2 ^ 32) with W32. lia. }
        split; [exact I|]. unfold m in T at 1. rewrite low, Z.land_spec in T by exact I.
        apply andb_true_iff in T. exact T.
    - intros (i & I & L & R) E.
      assert (T : Z.testbit (conv u (Z.land l r)) i = true)
        by (rewrite conv_flag, Z.land_spec, L, R by exact I; reflexivity).
      rewrite E, Z.bits_0 in T. discriminate. }
  intros u l r L R. split.
  - rewrite A. split; intros (i & I & P); exists i; (split; [exact I|]);
      unfold idx in I; rewrite !flag_testbit in * by lia; exact P.
  - intros i I. assert (J := I). unfold idx in J. rewrite flag_testbit by lia.
    destruct (HasFlags u l (conv u (2 ^ i))) eqn:H.
    + apply A in H. destruct H as (j & K & P & Q). assert (K' := K). unfold idx in K'.
      rewrite conv_flag, low_bit in Q by (exact K || lia). apply Z.eqb_eq in Q. subst j. congruence.
    + destruct (Z.testbit l i) eqn:T; auto. exfalso. apply not_true_iff_false in H. apply H. apply A.
      exists i. repeat split; auto; try lia. rewrite conv_flag, low_bit, Z.eqb_refl by (exact I || lia). reflexivity.
Qed.

(** It does not say whether all the flags asked for are there, neither for several (Sequenced has no
    fixed thread) nor for none. *)
Theorem C144_has_refuted :
  ~ (forall l r, fits Int l -> fits Int r ->
     (HasFlags Int l r = true <-> forall i, idx i -> flag r i = true -> flag l i = true)) /\
  ~ (forall l r, fits Int l -> fits Int r -> HasFlags Int l r = true ->
     forall i, idx i -> flag r i = true -> flag l i = true) /\
  ~ (forall l r, fits Int l -> fits Int r ->
     (forall i, idx i -> flag r i = true -> flag l i = true) -> HasFlags Int l r = true).
Proof.
  assert (F : fits Int Sequenced /\ fits Int (op_or Int FixedThread Sequenced) /\ fits Int 0) by (vm_compute; repeat split; discriminate).
  destruct F as (F1 & F2 & F3).
  assert (R1 : ~ (forall l r, fits Int l -> fits Int r -> HasFlags Int l r = true ->
     forall i, idx i -> flag r i = true -> flag l i = true)).
  { intros H. specialize (H Sequenced (op_or Int FixedThread Sequenced) F1 F2 eq_refl 1 ltac:(unfold idx; lia) eq_refl).
    discriminate H. }
  split; [|split; [exact R1|]].
  - intros H. apply R1. intros l r L R. apply H; auto.
  - intros H. specialize (H Sequenced 0 F1 F3).
    assert (E : HasFlags Int Sequenced 0 = true).
    { apply H. intros i I. unfold flag. rewrite Z.div_0_l by (apply Z.pow_nonzero; unfold idx in I; lia).
      intros E; discriminate E. }
    discriminate E.
Qed.

(** Cancel puts the flag Canceled in, and no other in or out; it goes on only the first time. *)
Theorem C144_cancel : forall x, fits Int x ->
  exists first x', cancel_bit x = Some (first, x') /\ fits Int x' /\
  first = negb (IsCanceled x) /\ IsCanceled x' = true /\
  x' = op_or Int x Canceled /\
  (forall i, idx i -> flag x' i = flag x i || (i =? 2)) /\
  cancel_bit x' = Some (false, x').
Proof.
  intros x X.
  assert (H : forall y, fits Int y -> IsCanceled y = Z.testbit y 2).
  { intros y Y. pose proof (proj2 (C144_has_partial Int y 0 Y ltac:(cbn; lia)) 2 ltac:(unfold idx; lia)) as P.
    rewrite flag_testbit in P by lia. exact P. }
  assert (C : forall y, fits Int y -> cancel_bit y = Some (negb (Z.testbit y 2), conv Int (Z.lor y 4))).
  { intros y Y. unfold cancel_bit, BitSet32. cbn [mark Z.ltb Z.compare Pos.compare Pos.compare_cont].
    change (Z.shiftl 1 2) with 4. f_equal. f_equal.
    - f_equal. destruct (Z.land (u32 y) 4 =? 0) eqn:E.
      + apply Z.eqb_eq in E. assert (T : Z.testbit (Z.land (u32 y) 4) 2 = false) by (rewrite E; apply Z.bits_0).
        rewrite Z.land_spec in T. change (Z.testbit 4 2) with true in T. rewrite andb_true_r in T.
        unfold u32 in T. rewrite low in T by (unfold idx; lia). rewrite T. reflexivity.
      + destruct (Z.testbit y 2) eqn:T; auto. exfalso. apply Z.eqb_neq in E. apply E.
        apply Z.bits_inj'. intros i I. rewrite Z.land_spec, Z.bits_0. change 4 with (2 ^ 2).
        rewrite low_bit by lia. destruct (Z.eqb_spec 2 i) as [<- | N]; [|apply andb_false_r].
        unfold u32. rewrite low, T by (unfold idx; lia). reflexivity.
    - apply (ext Int); auto using conv_fits. intros i I.
      rewrite !conv_flag, !Z.lor_spec by exact I. unfold u32. rewrite low by exact I. reflexivity. }
  assert (F : fits Int (conv Int (Z.lor x 4))) by apply conv_fits.
  assert (B : Z.testbit (conv Int (Z.lor x 4)) 2 = true).
  { rewrite conv_flag, Z.lor_spec by (unfold idx; lia). change (Z.testbit 4 2) with true. apply orb_true_r. }
  exists (negb (Z.testbit x 2)), (conv Int (Z.lor x 4)).
  split; [apply C, X|]. split; [exact F|]. split; [rewrite H; auto|]. split; [rewrite H; auto|].
  split; [reflexivity|]. split.
  - intros i I. assert (J := I). unfold idx in J. rewrite !flag_testbit by lia.
    rewrite conv_flag, Z.lor_spec by exact I. f_equal. change 4 with (2 ^ 2).
    rewrite low_bit, Z.eqb_sym by lia. reflexivity.
  - rewrite C by exact F. rewrite B. f_equal. f_equal.
    apply (ext Int); auto using conv_fits. intros i I. rewrite !conv_flag, !Z.lor_spec, conv_flag, Z.lor_spec by exact I.
    rewrite <- orb_assoc, orb_diag. reflexivity.
Qed.

(** * Concrete cases *)
Example flags_case :
  fits Int (op_not Int Sync) /\ op_not Int Sync = -2 /\ op_not UInt 1 = 4294967294 /\
  op_and Int (op_or Int Sync Canceled) (op_not Int Canceled) = Sync /\
  op_and Int Sync Canceled = 0 /\
  HasFlags Int (op_or Int FixedThread Sequenced) FixedThread = true /\
  HasFlags UInt 2147483648 2147483648 = true /\
  cancel_bit Sync = Some (true, 5) /\ cancel_bit 5 = Some (false, 5) /\ cancel_bit (-2147483648) = Some (true, -2147483644).
Proof. cbn. repeat split; lia || reflexivity. Qed.

Print Assumptions C144_set.
Print Assumptions C144_algebra.
Print Assumptions C144_undo.
Print Assumptions C144_has_partial.
Print Assumptions C144_has_refuted.
Print Assumptions C144_cancel.
