(** Property theorems C35-C39 and C69: value types. *)
From Coq Require Import ZArith Lia Bool List.
From Coq Require Import ZifyBool.
From Verif Require Import Word MathModel MathProofs ValueModel.
Import ListNotations.
Local Open Scope Z_scope.

(** *** C38: versions *)

(** Lexicographic comparison of (major, minor, build, revision), written out on the four
    numbers independently of the packed representation. *)
Definition lex_cmp (a b : Z * Z * Z * Z) : comparison :=
  let '(a1, a2, a3, a4) := a in let '(b1, b2, b3, b4) := b in
  match a1 ?= b1 with
  | Eq => match a2 ?= b2 with
          | Eq => match a3 ?= b3 with Eq => a4 ?= b4 | c => c end
          | c => c end
  | c => c end.

Definition parts_ok (p : Z * Z * Z * Z) : Prop :=
  let '(a, b, c, d) := p in 0 <= a < 65536 /\ 0 <= b < 65536 /\ 0 <= c < 65536 /\ 0 <= d < 65536.

Definition mk (p : Z * Z * Z * Z) : Z := let '(a, b, c, d) := p in Version_make a b c d.

Lemma mk_value : forall a b c d, parts_ok (a, b, c, d) ->
  mk (a, b, c, d) = a * 2 ^ 48 + b * 2 ^ 32 + c * 2 ^ 16 + d.
Proof.
  intros a b c d (Ha & Hb & Hc & Hd). unfold mk, Version_make, u16, W16.
  rewrite !Z.mod_small by lia. reflexivity.
Qed.

Lemma mk_cmp : forall p q, parts_ok p -> parts_ok q -> (mk p ?= mk q) = lex_cmp p q.
Proof.
  intros [[[a1 a2] a3] a4] [[[b1 b2] b3] b4] Hp Hq.
  rewrite !mk_value by assumption. unfold parts_ok in *. unfold lex_cmp.
  change (2 ^ 48) with 281474976710656. change (2 ^ 32) with 4294967296. change (2 ^ 16) with 65536.
  destruct (Z.compare_spec a1 b1); [|apply Z.compare_lt_iff; lia|apply Z.compare_gt_iff; lia].
  destruct (Z.compare_spec a2 b2); [|apply Z.compare_lt_iff; lia|apply Z.compare_gt_iff; lia].
  destruct (Z.compare_spec a3 b3); [|apply Z.compare_lt_iff; lia|apply Z.compare_gt_iff; lia].
  destruct (Z.compare_spec a4 b4); [apply Z.compare_eq_iff; lia|apply Z.compare_lt_iff; lia|apply Z.compare_gt_iff; lia].
Qed.

(** C38, all operators except the pre C++20 [!=]: they decide the lexicographic order. The
    full property also covers [!=] before C++20, refuted below. *)
Theorem C38_Version_order_partial : forall p q, parts_ok p -> parts_ok q ->
  let c := lex_cmp p q in
  Version_eq (mk p) (mk q) = (match c with Eq => true | _ => false end) /\
  Version_lt (mk p) (mk q) = (match c with Lt => true | _ => false end) /\
  Version_le (mk p) (mk q) = (match c with Gt => false | _ => true end) /\
  Version_ge (mk p) (mk q) = (match c with Lt => false | _ => true end) /\
  Version_gt (mk p) (mk q) = (match c with Gt => true | _ => false end) /\
  Version_cmp_cpp20 (mk p) (mk q) = c /\
  Version_ne_cpp20 (mk p) (mk q) = (match c with Eq => false | _ => true end).
Proof.
  intros p q Hp Hq c. unfold c. rewrite <- (mk_cmp p q Hp Hq).
  unfold Version_ne_cpp20, Version_eq, Version_lt, Version_le, Version_ge, Version_gt, Version_cmp_cpp20.
  destruct (Z.compare_spec (mk p) (mk q)); repeat split; try reflexivity; lia.
Qed.
Print Assumptions C38_Version_order_partial.

(** C38: the constructor and the 16-bit views are inverse to each other. *)
Theorem C38_Version_parts : forall a b c d, parts_ok (a, b, c, d) ->
  let v := Version_make a b c d in
  0 <= v < 2 ^ 64 /\
  Version_major v = a /\ Version_minor v = b /\ Version_build v = c /\ Version_revision v = d.
Proof.
  intros a b c d H v.
  assert (E : v = a * 281474976710656 + b * 4294967296 + c * 65536 + d) by exact (mk_value a b c d H).
  destruct H as (Ha & Hb & Hc & Hd).
  unfold Version_major, Version_minor, Version_build, Version_revision, u16, W16.
  rewrite !Z.shiftr_div_pow2 by lia.
  change (2 ^ 48) with 281474976710656. change (2 ^ 32) with 4294967296. change (2 ^ 16) with 65536.
  change (2 ^ 64) with 18446744073709551616.
  split; [lia|]. clearbody v. subst v. Z.div_mod_to_equations. lia.
Qed.
Print Assumptions C38_Version_parts.

Example C38_case : Version_lt (mk (10, 0, 19041, 1)) (mk (10, 0, 22000, 0)) = true
  /\ lex_cmp (10, 0, 19041, 1) (10, 0, 22000, 0) = Lt /\ parts_ok (10, 0, 19041, 1).
Proof. vm_compute. intuition discriminate. Qed.

(** C38 refuted before C++20: a version can be smaller than, yet "not different from" another. *)
Theorem C38_Version_ne_refuted : exists p q, parts_ok p /\ parts_ok q /\ p <> q /\
  Version_ne_cpp17 (mk p) (mk q) = false.
Proof.
  exists (6, 1, 7601, 0), (10, 0, 0, 0). split; [cbn; lia|]. split; [cbn; lia|].
  split; [congruence|reflexivity].
Qed.
Print Assumptions C38_Version_ne_refuted.

(** What the pre C++20 [!=] computes: exactly [>]. *)
Theorem C38_Version_ne_is_gt : forall p q, parts_ok p -> parts_ok q ->
  Version_ne_cpp17 (mk p) (mk q) = true <-> lex_cmp p q = Gt.
Proof.
  intros p q Hp Hq. rewrite <- (mk_cmp p q Hp Hq). unfold Version_ne_cpp17.
  destruct (Z.compare_spec (mk p) (mk q)); split; intros; try discriminate; try reflexivity; lia.
Qed.
Print Assumptions C38_Version_ne_is_gt.

(** *** C39: SafeCast *)
Theorem C39_SafeCast_i32_u8 : forall x, - 2 ^ 31 <= x < 2 ^ 31 ->
  (0 <= x < 2 ^ 8 -> SafeCast_i32_u8 x = Some x /\ SafeCast_throw SafeCast_i32_u8 x = inl x) /\
  (~ 0 <= x < 2 ^ 8 -> SafeCast_i32_u8 x = None /\ SafeCast_throw SafeCast_i32_u8 x = inr E_INVALIDARG).
Proof.
  intros x Hx. unfold SafeCast_throw, SafeCast_i32_u8, u8, W8.
  change (2 ^ 8) with 256. split; intros H.
  - replace ((255 <? x) || (x <? 0)) with false by lia. rewrite Z.mod_small by lia. auto.
  - replace ((255 <? x) || (x <? 0)) with true by lia. auto.
Qed.
Print Assumptions C39_SafeCast_i32_u8.

Theorem C39_SafeCast_u32_u16 : forall x, 0 <= x < 2 ^ 32 ->
  (0 <= x < 2 ^ 16 -> SafeCast_u32_u16 x = Some x /\ SafeCast_throw SafeCast_u32_u16 x = inl x) /\
  (~ 0 <= x < 2 ^ 16 -> SafeCast_u32_u16 x = None /\ SafeCast_throw SafeCast_u32_u16 x = inr E_INVALIDARG).
Proof.
  intros x Hx. unfold SafeCast_throw, SafeCast_u32_u16, u16, W16.
  change (2 ^ 16) with 65536. split; intros H.
  - replace ((65535 <? x) || (x <? 0)) with false by lia. rewrite Z.mod_small by lia. auto.
  - replace ((65535 <? x) || (x <? 0)) with true by lia. auto.
Qed.
Print Assumptions C39_SafeCast_u32_u16.

Example C39_case : SafeCast_i32_u8 255 = Some 255 /\ SafeCast_i32_u8 256 = None /\ SafeCast_i32_u8 (-1) = None
  /\ SafeCast_u32_u16 65535 = Some 65535 /\ SafeCast_u32_u16 65536 = None.
Proof. vm_compute. auto. Qed.

(** *** C36: TimeSpan *)
Lemma mulchain_ok : forall ks n, Forall (fun k => 0 < k) ks ->
  is_s64 (n * fold_right Z.mul 1 ks) -> mulchain n ks = Some (n * fold_right Z.mul 1 ks).
Proof.
  induction ks as [|k ks IH]; intros n Hk H; cbn [mulchain fold_right] in *.
  - f_equal. lia.
  - inversion Hk as [|? ? Hk0 Hks]; subst.
    assert (HP : 0 < fold_right Z.mul 1 ks).
    { clear - Hks. induction Hks; cbn; nia. }
    assert (is_s64 (n * k)).
    { unfold is_s64 in *. assert (n * k * fold_right Z.mul 1 ks = n * (k * fold_right Z.mul 1 ks)) by ring.
      unfold W63 in *. nia. }
    rewrite chk_ok by assumption. cbn [bind].
    rewrite IH by (try assumption; replace (n * k * fold_right Z.mul 1 ks) with (n * (k * fold_right Z.mul 1 ks)) by ring; assumption).
    f_equal. ring.
Qed.

Lemma quot_mul_r : forall n k, 0 < k -> Z.quot (n * k) k = n.
Proof. intros. apply Z.quot_mul. lia. Qed.

(** A unit of [k] 100 ns ticks: conversion is exact and inverse whenever n*k fits. *)
Definition unit_exact (from : Z -> option Z) (total : Z -> Z) (k : Z) : Prop :=
  (forall n, - 2 ^ 63 <= n * k < 2 ^ 63 -> from n = Some (n * k) /\ total (n * k) = n) /\
  (forall t, Z.abs (total t) * k <= Z.abs t < (Z.abs (total t) + 1) * k /\ 0 <= total t * t).

Lemma unit_exact_intro : forall from total ks k, (forall n, from n = mulchain n ks) ->
  Forall (fun k => 0 < k) ks -> fold_right Z.mul 1 ks = k -> (forall t, total t = Z.quot t k) ->
  unit_exact from total k.
Proof.
  intros from total ks k Hf Hks Hk Ht.
  assert (HP : 0 < k). { subst k. clear - Hks. induction Hks; cbn; nia. }
  split.
  - intros n Hn. rewrite Hf, mulchain_ok by (try assumption; rewrite Hk; exact Hn).
    rewrite Hk, Ht, quot_mul_r by assumption. auto.
  - intros t. rewrite Ht. 
    pose proof (Z.quot_rem' t k) as E.
    destruct (Z.le_gt_cases 0 t) as [H|H].
    + rewrite Z.quot_div_nonneg, Z.rem_mod_nonneg in * by lia.
      pose proof (Z.mod_pos_bound t k HP). assert (0 <= t / k) by (apply Z.div_pos; lia).
      rewrite !Z.abs_eq by lia. nia.
    + assert (E2 : Z.quot t k = - ((- t) / k)).
      { rewrite <- (Z.quot_div_nonneg (-t)) by lia. rewrite Z.quot_opp_l by lia. ring. }
      rewrite E2. assert (0 <= (-t) / k) by (apply Z.div_pos; lia).
      pose proof (Z.mod_pos_bound (-t) k HP). pose proof (Z.div_mod (-t) k ltac:(lia)).
      rewrite Z.abs_opp, (Z.abs_eq ((-t)/k)), Z.abs_neq by lia. nia.
Qed.

Theorem C36_TimeSpan_units :
  unit_exact TimeSpan_FromMicroseconds TimeSpan_GetTotalMicroseconds 10 /\
  unit_exact TimeSpan_FromMilliseconds TimeSpan_GetTotalMilliseconds (10 * 1000) /\
  unit_exact TimeSpan_FromSeconds TimeSpan_GetTotalSeconds (10 * 1000 * 1000) /\
  unit_exact TimeSpan_FromMinutes TimeSpan_GetTotalMinutes (10 * 1000 * 1000 * 60) /\
  unit_exact TimeSpan_FromHours TimeSpan_GetTotalHours (10 * 1000 * 1000 * 3600) /\
  unit_exact TimeSpan_FromDays TimeSpan_GetTotalDays (10 * 1000 * 1000 * 86400).
Proof.
  do 5 (split; [eapply unit_exact_intro; [intros; reflexivity|repeat constructor|reflexivity|intros; reflexivity]|]).
  eapply unit_exact_intro; [intros; reflexivity|repeat constructor|reflexivity|intros; reflexivity].
Qed.
Print Assumptions C36_TimeSpan_units.

Example C36_case : TimeSpan_FromHours (-5) = Some (-180000000000) /\ TimeSpan_GetTotalHours (-180000000001) = -5
  /\ TimeSpan_FromDays 10675200 = None.
Proof. vm_compute. auto. Qed.

Theorem C36_TimeSpan_add_sub : forall a b, is_s64 a -> is_s64 b ->
  (is_s64 (a + b) -> TimeSpan_add a b = Some (a + b) /\ TimeSpan_sub (a + b) b = Some a) /\
  (is_s64 (a - b) -> TimeSpan_sub a b = Some (a - b) /\ TimeSpan_add (a - b) b = Some a).
Proof.
  intros a b Ha Hb. unfold TimeSpan_add, TimeSpan_sub. split; intros H; split;
  rewrite chk_ok; try (f_equal; lia); try assumption; unfold is_s64 in *; lia.
Qed.
Print Assumptions C36_TimeSpan_add_sub.

(** C36, the operators other than the pre C++20 [>]. *)
Theorem C36_TimeSpan_order_partial : forall a b,
  (TimeSpan_eq a b = true <-> a = b) /\ (TimeSpan_ne a b = true <-> a <> b) /\
  (TimeSpan_lt a b = true <-> a < b) /\ (TimeSpan_le a b = true <-> a <= b) /\
  (TimeSpan_ge a b = true <-> a >= b) /\
  (TimeSpan_cmp_cpp20 a b = Lt <-> a < b) /\ (TimeSpan_cmp_cpp20 a b = Gt <-> a > b) /\
  (TimeSpan_cmp_cpp20 a b = Eq <-> a = b).
Proof.
  intros a b. unfold TimeSpan_eq, TimeSpan_ne, TimeSpan_lt, TimeSpan_le, TimeSpan_ge, TimeSpan_cmp_cpp20.
  rewrite Z.compare_lt_iff, Z.compare_gt_iff, Z.compare_eq_iff. lia.
Qed.
Print Assumptions C36_TimeSpan_order_partial.

(** C36 refuted before C++20: equal spans compare greater (TimeSpan.h 152). *)
Theorem C36_TimeSpan_gt_refuted : exists a b, is_s64 a /\ is_s64 b /\
  ~ (TimeSpan_gt_cpp17 a b = true <-> a > b).
Proof.
  exists 5, 5. split; [|split]; [unfold is_s64, W63; lia|unfold is_s64, W63; lia|].
  intros [H _]. specialize (H eq_refl). lia.
Qed.
Print Assumptions C36_TimeSpan_gt_refuted.

(** What the pre C++20 [>] computes: [>=]. *)
Theorem C36_TimeSpan_gt_is_ge : forall a b, TimeSpan_gt_cpp17 a b = true <-> a >= b.
Proof. intros. unfold TimeSpan_gt_cpp17. lia. Qed.
Print Assumptions C36_TimeSpan_gt_is_ge.

(** *** C35: Unix time *)

(** Largest timestamp whose time stays below 2^63 ticks. *)
Definition max_unix : Z := (2 ^ 63 - 1 - 116444736000000000) / 10000000.

Theorem C35_unix_round_trip : forall t, 0 <= t <= max_unix ->
  ToUnixTimestamp (FromUnixTimestamp t) = t.
Proof.
  intros t H. assert (Hm : max_unix = 910692730085) by reflexivity. rewrite Hm in H.
  unfold FromUnixTimestamp, ToUnixTimestamp, u64, W64, kUnixEpoch.
  destruct (Z.eqb_spec t (-1)); [lia|].
  rewrite !(Z.mod_small t) by lia. rewrite (Z.mod_small (t * 10000000)) by lia.
  rewrite Z.mod_small by lia.
  destruct (Z.leb_spec 9223372036854775808 (t * 10000000 + 116444736000000000)); [lia|].
  destruct (Z.ltb_spec (t * 10000000 + 116444736000000000) 116444736000000000); [lia|].
  rewrite Z.add_simpl_r. apply Z.div_mul. lia.
Qed.
Print Assumptions C35_unix_round_trip.

(** Whole-second part of any representable time is preserved by the reverse trip. *)
Theorem C35_unix_reverse : forall x, 116444736000000000 <= x < 2 ^ 63 ->
  FromUnixTimestamp (ToUnixTimestamp x) <= x < FromUnixTimestamp (ToUnixTimestamp x) + 10000000.
Proof.
  intros x H. change (2 ^ 63) with 9223372036854775808 in H.
  unfold FromUnixTimestamp, ToUnixTimestamp, u64, W64, kUnixEpoch.
  destruct (Z.leb_spec 9223372036854775808 x); [lia|].
  destruct (Z.ltb_spec x 116444736000000000); [lia|].
  set (q := (x - 116444736000000000) / 10000000).
  pose proof (Z.div_mod (x - 116444736000000000) 10000000 ltac:(lia)) as E. fold q in E.
  pose proof (Z.mod_pos_bound (x - 116444736000000000) 10000000 ltac:(lia)).
  destruct (Z.eqb_spec q (-1)); [lia|].
  rewrite !(Z.mod_small q) by lia. rewrite (Z.mod_small (q * 10000000)) by lia.
  rewrite Z.mod_small by lia. lia.
Qed.
Print Assumptions C35_unix_reverse.

Theorem C35_unix_monotone : forall x y, 0 <= x -> y < 2 ^ 63 -> x <= y ->
  ToUnixTimestamp x <= ToUnixTimestamp y.
Proof.
  intros x y Hx Hy Hxy. change (2 ^ 63) with 9223372036854775808 in Hy.
  unfold ToUnixTimestamp, kUnixEpoch.
  destruct (Z.leb_spec 9223372036854775808 x); [lia|].
  destruct (Z.leb_spec 9223372036854775808 y); [lia|].
  destruct (Z.ltb_spec y 116444736000000000); destruct (Z.ltb_spec x 116444736000000000); try lia.
  - assert (0 <= (y - 116444736000000000) / 10000000) by (apply Z.div_pos; lia). lia.
  - apply Z.div_le_mono; lia.
Qed.
Print Assumptions C35_unix_monotone.

Theorem C35_unix_out_of_range : forall x, 0 <= x < 2 ^ 64 ->
  (ToUnixTimestamp x = -1 <-> x < 116444736000000000 \/ 2 ^ 63 <= x).
Proof.
  intros x Hx. change (2 ^ 63) with 9223372036854775808.
  unfold ToUnixTimestamp, kUnixEpoch.
  destruct (Z.leb_spec 9223372036854775808 x); [lia|].
  destruct (Z.ltb_spec x 116444736000000000); [lia|].
  assert (0 <= (x - 116444736000000000) / 10000000) by (apply Z.div_pos; lia). lia.
Qed.
Print Assumptions C35_unix_out_of_range.

(** Adding a span of either sign and subtracting it again, and the difference of times. *)
Theorem C35_DataTime_arith : forall x d, 0 <= x < 2 ^ 64 -> is_s64 d ->
  DataTime_sub (DataTime_add x d) d = x /\ DataTime_diff (DataTime_add x d) x = d /\
  (0 <= x + d < 2 ^ 64 -> DataTime_add x d = x + d) /\
  (0 <= x - d < 2 ^ 64 -> DataTime_sub x d = x - d).
Proof.
  intros x d Hx Hd.
  assert (Hadd : forall a b, u64 (a + u64 b) = u64 (a + b)) by (intros; unfold u64; apply Zplus_mod_idemp_r).
  assert (Hsub : forall a b, u64 (a - u64 b) = u64 (a - b)) by (intros; unfold u64; apply Zminus_mod_idemp_r).
  assert (Hl : forall a b, u64 (u64 a - b) = u64 (a - b)) by (intros; unfold u64; apply Zminus_mod_idemp_l).
  unfold DataTime_sub, DataTime_add, DataTime_diff.
  rewrite !Hadd, !Hsub, !Hl.
  replace (x + d - d) with x by lia. replace (x + d - x) with d by lia.
  split; [apply u64_id; exact Hx|]. split.
  - unfold s64. assert (u64 (u64 d) = u64 d) as -> by (apply u64_id, u64_range).
    fold (s64 d). apply s64_id; assumption.
  - split; intros H; apply u64_id; exact H.
Qed.
Print Assumptions C35_DataTime_arith.

Example C35_case : ToUnixTimestamp (FromUnixTimestamp 1700000000) = 1700000000 /\
  1700000000 <= max_unix /\ FromUnixTimestamp 1700000000 = 133444736000000000.
Proof. vm_compute. repeat split; discriminate. Qed.

(** *** C69: time zone conversion keeps the ticks below a millisecond *)

(** Assumptions about Windows, as hypotheses: a SYSTEMTIME has millisecond resolution,
    and the zone conversion of the local time undoes that of the utc time. *)
Theorem C69_local_round_trip :
  forall (SYSTEMTIME : Type) (ft2st : Z -> option SYSTEMTIME) (st2ft : SYSTEMTIME -> option Z)
         (u2l l2u : SYSTEMTIME -> option SYSTEMTIME) (x : Z) (s s' : SYSTEMTIME) (y : Z),
  ft2st x = Some s -> u2l s = Some s' -> st2ft s' = Some y ->
  y mod 10000 = 0 -> 0 <= y -> y + 10000 <= 2 ^ 64 ->
  (forall r, 0 <= r < 10000 -> ft2st (y + r) = Some s') ->
  l2u s' = Some s -> st2ft s = Some (x - x mod 10000) -> 0 <= x < 2 ^ 64 ->
  ToLocalDataTime SYSTEMTIME ft2st st2ft u2l x = y + x mod 10000 /\
  ToUtcDataTime SYSTEMTIME ft2st st2ft l2u (ToLocalDataTime SYSTEMTIME ft2st st2ft u2l x) = x.
Proof.
  intros ST ft2st st2ft u2l l2u x s s' y H1 H2 H3 Hy0 Hy1 Hy2 H4 H5 H6 Hx.
  pose proof (Z.mod_pos_bound x 10000 ltac:(lia)) as Hr.
  change (2 ^ 64) with W64 in *.
  assert (E : ToLocalDataTime ST ft2st st2ft u2l x = y + x mod 10000).
  { unfold ToLocalDataTime, convert, from_systemtime. rewrite H1, H2, H3.
    change (kTicksPerMicrosecond * kMicrosecondsPerMillisecond) with 10000.
    apply u64_id. unfold is_u64. lia. }
  rewrite E. split; [reflexivity|].
  unfold ToUtcDataTime, convert, from_systemtime. rewrite H4, H5, H6 by assumption.
  change (kTicksPerMicrosecond * kMicrosecondsPerMillisecond) with 10000.
  assert ((y + x mod 10000) mod 10000 = x mod 10000) as ->.
  { rewrite Z.add_mod, Hy0 by lia. rewrite Z.add_0_l, !Z.mod_mod by lia. reflexivity. }
  rewrite u64_id; [lia|]. unfold is_u64. lia.
Qed.
Print Assumptions C69_local_round_trip.

(** A concrete zone (UTC+8, SYSTEMTIME = milliseconds) meets the hypotheses. *)
Example C69_case :
  let ft2st x := Some (x / 10000) in let st2ft s := Some (s * 10000) in
  let u2l s := Some (s + 28800000) in let l2u s := Some (s - 28800000) in
  ToLocalDataTime Z ft2st st2ft u2l 133444736001234567 = 133445024001234567 /\
  ToUtcDataTime Z ft2st st2ft l2u 133445024001234567 = 133444736001234567.
Proof. vm_compute. auto. Qed.
