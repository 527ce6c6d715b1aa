(** Population count: the SWAR stages act independently on 8-bit lanes; a sweep over
    all 256 lane values is lifted to words by induction on the list of lanes. *)
From Coq Require Import ZArith Lia Bool List.
From Verif Require Import Word MathModel.
Import ListNotations.
Local Open Scope Z_scope.

(** number of one bits among the lowest [n] bits *)
Definition number_of_ones (n : nat) (x : Z) : Z :=
  Z.of_nat (length (filter (fun i => Z.testbit x (Z.of_nat i)) (seq 0 n))).

(** A word as a list of 8-bit lanes, lowest first. *)
Fixpoint val (ls : list Z) : Z :=
  match ls with [] => 0 | l :: r => val r * 2 ^ 8 + l end.

Definition lane (l : Z) := 0 <= l < 256.

Lemma val_nonneg : forall ls, Forall lane ls -> 0 <= val ls.
Proof. induction 1 as [|l r Hl _ IH]; cbn [val]; unfold lane in *; lia. Qed.

Lemma val_bound : forall ls, Forall lane ls -> val ls < 2 ^ (8 * Z.of_nat (length ls)).
Proof.
  induction 1 as [|l r Hl _ IH]; cbn [val length]; [cbn; lia|].
  replace (8 * Z.of_nat (S (length r))) with (8 * Z.of_nat (length r) + 8) by lia.
  rewrite Z.pow_add_r by lia. unfold lane in *. change (2 ^ 8) with 256. lia.
Qed.

Lemma testbit_cat : forall hi lo i, lane lo -> 0 <= i ->
  Z.testbit (hi * 2 ^ 8 + lo) i = if i <? 8 then Z.testbit lo i else Z.testbit hi (i - 8).
Proof.
  intros hi lo i Hl Hi. rewrite <- lor_disjoint_add by (exact Hl || lia).
  rewrite Z.lor_spec. destruct (Z.ltb_spec i 8).
  - rewrite Z.mul_pow2_bits_low by lia. reflexivity.
  - rewrite Z.mul_pow2_bits by lia.
    assert (Z.testbit lo i = false) as ->; [|apply orb_false_r].
    destruct (Z.eq_dec lo 0) as [->|]; [apply Z.bits_0|].
    unfold lane in Hl. apply Z.bits_above_log2; [lia|].
    apply Z.lt_le_trans with 8; [|lia]. apply Z.log2_lt_pow2; [lia|]. exact (proj2 Hl).
Qed.

Lemma land_lane : forall a b, lane a -> lane b -> lane (Z.land a b).
Proof.
  intros a b Ha Hb. unfold lane in *. split; [apply Z.land_nonneg; lia|].
  destruct (Z.eq_dec (Z.land a b) 0) as [->|]; [reflexivity|].
  change 256 with (2 ^ 8). apply Z.log2_lt_pow2.
  { pose proof (proj2 (Z.land_nonneg a b) (or_introl (proj1 Ha))). lia. }
  eapply Z.le_lt_trans; [apply Z.log2_land; lia|].
  destruct (Z.eq_dec a 0) as [->|]; [rewrite Z.land_0_l in *; lia|].
  apply Z.le_lt_trans with (Z.log2 a); [apply Z.le_min_l|]. apply Z.log2_lt_pow2; [lia|]. exact (proj2 Ha).
Qed.

Lemma land_cat : forall a l b m, lane l -> lane m ->
  Z.land (a * 2 ^ 8 + l) (b * 2 ^ 8 + m) = Z.land a b * 2 ^ 8 + Z.land l m.
Proof.
  intros a l b m Hl Hm. apply Z.bits_inj'. intros i Hi.
  rewrite Z.land_spec, !testbit_cat by (try apply land_lane; assumption).
  destruct (i <? 8); rewrite Z.land_spec; reflexivity.
Qed.

Lemma land_shift_cat : forall a l b m k, lane l -> 0 < k <= 8 -> 0 <= m < 2 ^ (8 - k) ->
  Z.land (Z.shiftr (a * 2 ^ 8 + l) k) (b * 2 ^ 8 + m)
  = Z.land (Z.shiftr a k) b * 2 ^ 8 + Z.land (Z.shiftr l k) m.
Proof.
  intros a l b m k Hl Hk Hm.
  assert (Hm' : lane m).
  { unfold lane. split; [lia|]. apply Z.lt_le_trans with (2 ^ (8 - k)); [lia|].
    change 256 with (2 ^ 8). apply Z.pow_le_mono_r; lia. }
  assert (Hs : lane (Z.shiftr l k)).
  { unfold lane in *. rewrite Z.shiftr_div_pow2 by lia. split; [apply Z.div_pos; lia|].
    assert (0 < 2 ^ k) by lia. apply Z.div_lt_upper_bound; [lia|]. nia. }
  apply Z.bits_inj'. intros i Hi.
  rewrite Z.land_spec, !testbit_cat by (try apply land_lane; assumption).
  rewrite Z.shiftr_spec, testbit_cat by (assumption || lia).
  destruct (Z.ltb_spec i 8) as [Hlt|Hge].
  - rewrite Z.land_spec, Z.shiftr_spec by lia.
    destruct (Z.ltb_spec (i + k) 8); [reflexivity|].
    assert (Z.testbit m i = false) as ->; [|rewrite !andb_false_r; reflexivity].
    destruct (Z.eq_dec m 0) as [->|]; [apply Z.bits_0|].
    apply Z.bits_above_log2; [lia|].
    apply Z.lt_le_trans with (8 - k); [|lia]. apply Z.log2_lt_pow2; lia.
  - rewrite Z.land_spec, Z.shiftr_spec by lia.
    destruct (Z.ltb_spec (i + k) 8); [lia|]. do 2 f_equal. lia.
Qed.

Definition stage (m k x : Z) : Z := Z.land x m + Z.land (Z.shiftr x k) m.

Lemma stage_val : forall m k, 0 < k <= 8 -> 0 <= m < 2 ^ (8 - k) -> forall ls, Forall lane ls ->
  stage (val (repeat m (length ls))) k (val ls) = val (map (stage m k) ls).
Proof.
  intros m k Hk Hm ls H.
  assert (Hm' : lane m).
  { unfold lane. split; [lia|]. apply Z.lt_le_trans with (2 ^ (8 - k)); [lia|].
    change 256 with (2 ^ 8). apply Z.pow_le_mono_r; lia. }
  induction H as [|l r Hl Hr IH].
  - unfold stage. cbn. rewrite Z.land_0_r. reflexivity.
  - cbn [length repeat val map]. rewrite <- IH. unfold stage.
    rewrite land_cat, land_shift_cat by assumption. ring.
Qed.

Definition st1 := stage 0x55 1.
Definition st2 := stage 0x33 2.
Definition st3 := stage 0x0f 4.

Definition lane_ok (x : Z) : bool :=
  let a := st1 x in let b := st2 a in let c := st3 b in
  (0 <=? a) && (a <? 256) && (0 <=? b) && (b <? 256)
  && (c =? number_of_ones 8 x) && (c <=? 8).

Lemma lanes_ok : forallb (fun n => lane_ok (Z.of_nat n)) (seq 0 256) = true.
Proof. vm_compute. reflexivity. Qed.

Lemma lane_facts : forall x, lane x ->
  lane (st1 x) /\ lane (st2 (st1 x)) /\
  st3 (st2 (st1 x)) = number_of_ones 8 x /\ 0 <= number_of_ones 8 x <= 8.
Proof.
  intros x Hx.
  assert (lane_ok x = true).
  { pose proof lanes_ok as H. rewrite forallb_forall in H.
    specialize (H (Z.to_nat x)). rewrite Z2Nat.id in H by (unfold lane in Hx; lia).
    apply H. apply in_seq. unfold lane in Hx. lia. }
  unfold lane_ok in H. rewrite !andb_true_iff in H.
  rewrite !Z.leb_le, !Z.ltb_lt, Z.eqb_eq in H. unfold lane.
  assert (0 <= number_of_ones 8 x) by (unfold number_of_ones; lia). lia.
Qed.

(** every intermediate value is a list of lanes, hence no stage wraps *)
Lemma stage_lanes : forall m k st, stage m k = st -> 0 < k <= 8 -> 0 <= m < 2 ^ (8 - k) ->
  forall ls, Forall lane ls -> Forall lane (map st ls) ->
  forall w, w = 2 ^ (8 * Z.of_nat (length ls)) ->
  swar (fun x => x mod w) (val (repeat m (length ls))) k (val ls) = val (map st ls).
Proof.
  intros m k st <- Hk Hm ls H H' w ->. unfold swar.
  change (Z.land (val ls) (val (repeat m (length ls))) +
    Z.land (Z.shiftr (val ls) k) (val (repeat m (length ls)))) with
    (stage (val (repeat m (length ls))) k (val ls)).
  rewrite stage_val by assumption. apply Z.mod_small.
  split; [apply val_nonneg; assumption|].
  pose proof (val_bound _ H') as B. rewrite map_length in B. exact B.
Qed.

Lemma noo_app : forall n m x, number_of_ones (n + m) x =
  number_of_ones n x + number_of_ones m (Z.shiftr x (Z.of_nat n)).
Proof.
  intros n m x. unfold number_of_ones. rewrite seq_app, filter_app, app_length, Nat2Z.inj_add.
  f_equal. f_equal. rewrite Nat.add_0_l.
  assert (G : forall s, length (filter (fun i => Z.testbit x (Z.of_nat i)) (seq (n + s) m)) =
     length (filter (fun i => Z.testbit (Z.shiftr x (Z.of_nat n)) (Z.of_nat i)) (seq s m))).
  { induction m as [|m IH]; intros s; [reflexivity|]. cbn [seq filter].
    rewrite Z.shiftr_spec by lia. replace (Z.of_nat s + Z.of_nat n) with (Z.of_nat (n + s)) by lia.
    specialize (IH (S s)). replace (n + S s)%nat with (S (n + s)) in IH by lia.
    destruct (Z.testbit x (Z.of_nat (n + s))); cbn [length]; rewrite IH; reflexivity. }
  specialize (G 0%nat). rewrite Nat.add_0_r in G. exact G.
Qed.

Lemma noo_low : forall l r, lane l -> number_of_ones 8 (r * 2 ^ 8 + l) = number_of_ones 8 l.
Proof.
  intros l r H. unfold number_of_ones. f_equal. f_equal. apply filter_ext_in. intros i Hi.
  apply in_seq in Hi. rewrite testbit_cat by (assumption || lia).
  destruct (Z.ltb_spec (Z.of_nat i) 8); [reflexivity|lia].
Qed.

Lemma shiftr_cat : forall l r, lane l -> Z.shiftr (r * 2 ^ 8 + l) 8 = r.
Proof.
  intros l r H. rewrite Z.shiftr_div_pow2 by lia. rewrite Z.div_add_l by lia.
  rewrite (Z.div_small l) by exact H. lia.
Qed.

Lemma noo_val : forall ls, Forall lane ls ->
  number_of_ones (8 * length ls) (val ls) = fold_right Z.add 0 (map (number_of_ones 8) ls).
Proof.
  induction 1 as [|l r Hl Hr IH]; [reflexivity|].
  cbn [length val map fold_right]. replace (8 * S (length r))%nat with (8 + 8 * length r)%nat by lia.
  rewrite noo_app, noo_low by assumption.
  change (Z.of_nat 8) with 8. rewrite shiftr_cat by assumption. rewrite IH. reflexivity.
Qed.

Lemma to_lanes : forall n x, 0 <= x < 2 ^ (8 * Z.of_nat n) ->
  exists ls, length ls = n /\ Forall lane ls /\ val ls = x.
Proof.
  induction n as [|n IH]; intros x Hx.
  - exists []. cbn in *. repeat split; [constructor|lia].
  - assert (0 <= x / 2 ^ 8 < 2 ^ (8 * Z.of_nat n)).
    { split; [apply Z.div_pos; lia|]. apply Z.div_lt_upper_bound; [lia|].
      rewrite <- Z.pow_add_r by lia. replace (8 + 8 * Z.of_nat n) with (8 * Z.of_nat (S n)) by lia. lia. }
    destruct (IH _ H) as (ls & L & F & V).
    exists (x mod 2 ^ 8 :: ls). cbn [length val]. repeat split.
    + lia.
    + constructor; [|assumption]. unfold lane. apply Z.mod_pos_bound. reflexivity.
    + rewrite V. pose proof (Z.div_mod x (2 ^ 8)). lia.
Qed.

(** Stages whose mask keeps or clears whole lanes. *)
Fixpoint keep (bs : list bool) (ls : list Z) : list Z :=
  match bs, ls with
  | b :: bs, l :: ls => (if b then l else 0) :: keep bs ls
  | _, _ => []
  end.
Definition maskval (bs : list bool) : Z := val (map (fun b : bool => if b then 255 else 0) bs).

Lemma land_255 : forall l, lane l -> Z.land l 255 = l.
Proof.
  intros l H. change 255 with (Z.ones 8). rewrite Z.land_ones by lia. apply Z.mod_small. exact H.
Qed.

Lemma land_mask : forall bs ls, Forall lane ls -> Z.land (val ls) (maskval bs) = val (keep bs ls).
Proof.
  induction bs as [|b bs IH]; intros ls H.
  - unfold maskval. cbn. rewrite Z.land_0_r. destruct ls; reflexivity.
  - inversion H as [|l r Hl Hr]; subst; [apply Z.land_0_l|].
    unfold maskval. cbn [map val keep].
    rewrite land_cat by (try assumption; destruct b; unfold lane; lia).
    change (val (map _ bs)) with (maskval bs). rewrite IH by assumption. f_equal.
    destruct b; [apply land_255; assumption|apply Z.land_0_r].
Qed.

Lemma shiftr_lanes : forall n ls, Forall lane ls ->
  Z.shiftr (val ls) (8 * Z.of_nat n) = val (skipn n ls).
Proof.
  induction n as [|n IH]; intros ls H.
  - cbn [skipn]. rewrite Z.mul_0_r. apply Z.shiftr_0_r.
  - inversion H as [|l r Hl Hr]; subst; [apply Z.shiftr_0_l|].
    cbn [skipn val]. replace (8 * Z.of_nat (S n)) with (8 + 8 * Z.of_nat n) by lia.
    rewrite <- Z.shiftr_shiftr by lia. rewrite shiftr_cat by assumption. apply IH. assumption.
Qed.

Lemma swar_mask : forall wrap bs n ls, Forall lane ls ->
  swar wrap (maskval bs) (8 * Z.of_nat n) (val ls)
  = wrap (val (keep bs ls) + val (keep bs (skipn n ls))).
Proof.
  intros wrap bs n ls H. unfold swar. rewrite land_mask by assumption.
  rewrite shiftr_lanes by assumption. rewrite land_mask; [reflexivity|].
  rewrite Forall_forall in *. intros x Hx. apply H.
  rewrite <- (firstn_skipn n ls). apply in_or_app. right. assumption.
Qed.

Lemma first_stages : forall w ls, Forall lane ls -> w = 2 ^ (8 * Z.of_nat (length ls)) ->
  let wrap x := x mod w in let n := length ls in
  swar wrap (val (repeat 0x0f n)) 4 (swar wrap (val (repeat 0x33 n)) 2
    (swar wrap (val (repeat 0x55 n)) 1 (val ls))) = val (map (number_of_ones 8) ls).
Proof.
  intros w ls F Ew wrap n.
  assert (H1 : Forall lane (map st1 ls)).
  { rewrite Forall_map. eapply Forall_impl; [|exact F]. intros; apply lane_facts; assumption. }
  assert (H2 : Forall lane (map st2 (map st1 ls))).
  { rewrite !Forall_map. eapply Forall_impl; [|exact F]. intros; apply lane_facts; assumption. }
  assert (E3 : map st3 (map st2 (map st1 ls)) = map (number_of_ones 8) ls).
  { rewrite !map_map. apply map_ext_in. intros a Ha. rewrite Forall_forall in F.
    apply lane_facts. auto. }
  assert (H3 : Forall lane (map st3 (map st2 (map st1 ls)))).
  { rewrite E3, Forall_map. eapply Forall_impl; [|exact F]. intros a Ha.
    destruct (lane_facts a Ha) as (_&_&_&B). unfold lane. lia. }
  pose proof (stage_lanes 0x55 1 st1 eq_refl ltac:(lia) ltac:(cbn; lia) ls F H1 w Ew) as S1.
  pose proof (stage_lanes 0x33 2 st2 eq_refl ltac:(lia) ltac:(cbn; lia) _ H1 H2 w
                ltac:(rewrite map_length; exact Ew)) as S2.
  pose proof (stage_lanes 0x0f 4 st3 eq_refl ltac:(lia) ltac:(cbn; lia) _ H2 H3 w
                ltac:(do 2 rewrite map_length; exact Ew)) as S3.
  rewrite map_length in S2. do 2 rewrite map_length in S3.
  fold wrap n in S1, S2, S3. rewrite S1, S2, S3. rewrite E3. reflexivity.
Qed.

Ltac lanes8 F :=
  repeat match type of F with
  | Forall lane (?l :: ?r) =>
      let F0 := fresh "F" in let F1 := fresh "F" in let K := fresh "K" in
      inversion F as [|? ? F0 F1]; subst; clear F;
      destruct (lane_facts l F0) as (_&_&_&K); rename F1 into F
  end.

Lemma BitsCount32_lemma : forall x, is_u32 x -> BitsCount32 x = number_of_ones 32 x.
Proof.
  intros x Hx. destruct (to_lanes 4 x Hx) as (ls & L & F & V). subst x.
  assert (EL : 32%nat = (8 * length ls)%nat) by (rewrite L; reflexivity).
  rewrite EL, noo_val by assumption. clear EL.
  unfold BitsCount32.
  pose proof (first_stages W32 ls F ltac:(rewrite L; reflexivity)) as S.
  cbv zeta in S. rewrite L in S.
  change (val (repeat 0x55 4)) with 0x55555555 in S.
  change (val (repeat 0x33 4)) with 0x33333333 in S.
  change (val (repeat 0x0f 4)) with 0x0f0f0f0f in S.
  change (fun x => x mod W32) with u32 in S. rewrite S. clear S.
  destruct ls as [|l0 [|l1 [|l2 [|l3 [|? ?]]]]]; try discriminate L.
  lanes8 F. cbn [map fold_right].
  generalize dependent (number_of_ones 8 l0). intros c0 B0.
  generalize dependent (number_of_ones 8 l1). intros c1 B1.
  generalize dependent (number_of_ones 8 l2). intros c2 B2.
  generalize dependent (number_of_ones 8 l3). intros c3 B3.
  change 0x00ff00ff with (maskval [true; false; true; false]).
  change 8 with (8 * Z.of_nat 1). rewrite swar_mask by (repeat constructor; unfold lane; lia).
  cbn [skipn keep].
  assert (E : u32 (val [c0; 0; c2; 0] + val [c1; 0; c3]) = val [c0 + c1; 0; c2 + c3; 0]).
  { cbn [val]. unfold u32, W32. rewrite Z.mod_small by lia. lia. }
  rewrite E. clear E.
  change 0x0000ffff with (maskval [true; true; false; false]).
  change 16 with (8 * Z.of_nat 2). rewrite swar_mask by (repeat constructor; unfold lane; lia).
  cbn [skipn keep val]. unfold u32, W32. rewrite Z.mod_small by lia. lia.
Qed.

Lemma BitsCount64_lemma : forall x, is_u64 x -> BitsCount64 x = number_of_ones 64 x.
Proof.
  intros x Hx. destruct (to_lanes 8 x Hx) as (ls & L & F & V). subst x.
  assert (EL : 64%nat = (8 * length ls)%nat) by (rewrite L; reflexivity).
  rewrite EL, noo_val by assumption. clear EL.
  unfold BitsCount64.
  pose proof (first_stages W64 ls F ltac:(rewrite L; reflexivity)) as S.
  cbv zeta in S. rewrite L in S.
  change (val (repeat 0x55 8)) with 0x5555555555555555 in S.
  change (val (repeat 0x33 8)) with 0x3333333333333333 in S.
  change (val (repeat 0x0f 8)) with 0x0f0f0f0f0f0f0f0f in S.
  change (fun x => x mod W64) with u64 in S. rewrite S. clear S.
  destruct ls as [|l0 [|l1 [|l2 [|l3 [|l4 [|l5 [|l6 [|l7 [|? ?]]]]]]]]]; try discriminate L.
  lanes8 F. cbn [map fold_right].
  generalize dependent (number_of_ones 8 l0). intros c0 B0.
  generalize dependent (number_of_ones 8 l1). intros c1 B1.
  generalize dependent (number_of_ones 8 l2). intros c2 B2.
  generalize dependent (number_of_ones 8 l3). intros c3 B3.
  generalize dependent (number_of_ones 8 l4). intros c4 B4.
  generalize dependent (number_of_ones 8 l5). intros c5 B5.
  generalize dependent (number_of_ones 8 l6). intros c6 B6.
  generalize dependent (number_of_ones 8 l7). intros c7 B7.
  change 0x00ff00ff00ff00ff with (maskval [true; false; true; false; true; false; true; false]).
  change 8 with (8 * Z.of_nat 1). rewrite swar_mask by (repeat constructor; unfold lane; lia).
  cbn [skipn keep].
  assert (E : u64 (val [c0; 0; c2; 0; c4; 0; c6; 0] + val [c1; 0; c3; 0; c5; 0; c7])
     = val [c0 + c1; 0; c2 + c3; 0; c4 + c5; 0; c6 + c7; 0]).
  { cbn [val]. unfold u64, W64. rewrite Z.mod_small by lia. lia. }
  rewrite E. clear E.
  change 0x0000ffff0000ffff with (maskval [true; true; false; false; true; true; false; false]).
  change 16 with (8 * Z.of_nat 2). rewrite swar_mask by (repeat constructor; unfold lane; lia).
  cbn [skipn keep].
  assert (E : u64 (val [c0 + c1; 0; 0; 0; c4 + c5; 0; 0; 0] + val [c2 + c3; 0; 0; 0; c6 + c7; 0])
     = val [c0 + c1 + (c2 + c3); 0; 0; 0; c4 + c5 + (c6 + c7); 0; 0; 0]).
  { cbn [val]. unfold u64, W64. rewrite Z.mod_small by lia. lia. }
  rewrite E. clear E.
  change 0x00000000ffffffff with (maskval [true; true; true; true; false; false; false; false]).
  change 32 with (8 * Z.of_nat 4). rewrite swar_mask by (repeat constructor; unfold lane; lia).
  cbn [skipn keep val]. unfold u64, u32, W64, W32.
  rewrite (Z.mod_small _ 18446744073709551616) by lia. rewrite Z.mod_small by lia. lia.
Qed.
