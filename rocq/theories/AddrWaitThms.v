(** Property C118: WaitEqualOnAddress. *)
From Coq Require Import ZArith Lia List Bool.
From Verif Require Import AddrWaitModel.
Import ListNotations.
Open Scope Z_scope.

Lemma forever_true : forall val cmp l t b e, forever val cmp t l = Ret b e -> Forall (honest UINT32_MAX) l -> b = true /\ t <= e /\ val e = cmp.
Proof.
  induction l as [|r l IH]; intros t b e R F; cbn in R; [discriminate|]. inversion F as [|? ? H F']; subst. destruct H as (A & B & C & D & _).
  destruct (Z.eqb_spec (val (t + d0 r)) cmp).
  - injection R as <- <-. split; [reflexivity|]. split; [lia|assumption].
  - apply IH in R; [|exact F']. destruct R as (R1 & R2 & R3). split; [exact R1|]. split; [lia|exact R3].
Qed.
Lemma timed_true : forall val cmp x l t e, timed val cmp x t l = Ret true e -> honest_timed x t l -> t <= e /\ val e = cmp.
Proof.
  induction l as [|r l IH]; intros t e R F; cbn in R; [discriminate|]. destruct F as ((A & B & C & D & _) & F).
  destruct (Z.eqb_spec (val (t + d0 r)) cmp); [injection R as <-; split; [lia|assumption]|].
  destruct (Z.ltb_spec x (t + d0 r + d1 r)); [discriminate|]. destruct (ok r); [|discriminate].
  apply IH in R; [|exact F]. destruct R as (R1 & R2). split; [lia|exact R2].
Qed.
Lemma left_small : forall x t, t <= x -> left_ms x t <> UINT32_MAX -> x - t - MS < left_ms x t * MS.
Proof.
  intros x t L N. unfold left_ms, total_ms, MS, UINT32_MAX in *. pose proof (Z.quot_rem' (x - t) 10000) as Q. pose proof (Z.rem_bound_pos (x - t) 10000 ltac:(lia) ltac:(lia)) as B.
  destruct (Z.leb_spec (Z.quot (x - t) 10000) 0); [lia|]. destruct (Z.min_spec (Z.quot (x - t) 10000) 4294967295) as [(_ & E)|(_ & E)]; rewrite E in *; lia.
Qed.
Lemma timed_false : forall val cmp x l t e, timed val cmp x t l = Ret false e -> honest_timed x t l ->
  t <= e /\ x - MS < e /\ exists u, t <= u <= e /\ val u <> cmp.
Proof.
  induction l as [|r l IH]; intros t e R F; cbn in R; [discriminate|]. destruct F as ((A & B & C & D & HN) & F).
  destruct (Z.eqb_spec (val (t + d0 r)) cmp) as [|NE]; [discriminate|].
  destruct (Z.ltb_spec x (t + d0 r + d1 r)).
  - injection R as <-. unfold MS. split; [lia|]. split; [lia|]. exists (t + d0 r). split; [lia|exact NE].
  - destruct (ok r) eqn:O.
    + apply IH in R; [|exact F]. destruct R as (R1 & R2 & u & R3 & R4). split; [lia|]. split; [lia|]. exists u. split; [lia|exact R4].
    + injection R as <-. destruct (HN eq_refl) as (N1 & N2). pose proof (left_small _ _ H N1). unfold MS in *. split; [lia|]. split; [lia|].
      exists (t + d0 r). split; [lia|exact NE].
Qed.

(** true means that the value was equal at some moment of the call (the last one). *)
Theorem C118_true : forall val cmp span t l e, honest_wait span t l -> wait val cmp span t l = Ret true e -> t <= e /\ val e = cmp.
Proof.
  intros val cmp span t l e H R. unfold wait, honest_wait in *. destruct (total_ms span <=? 0).
  - destruct l as [|r l]; [discriminate|]. inversion H; subst. injection R as E <-. apply Z.eqb_eq in E. split; [lia|exact E].
  - destruct (span =? INT64_MAX); [apply forever_true in R; tauto|apply timed_true in R; assumption].
Qed.
(** false means that it was different at some moment of the call and that no more than one millisecond of the time-out is
    left; with the greatest time span it never happens. *)
Theorem C118_false_partial : forall val cmp span t l e, honest_wait span t l -> wait val cmp span t l = Ret false e ->
  span <> INT64_MAX /\ (0 <= span -> t + span - MS < e) /\ exists u, t <= u <= e /\ val u <> cmp.
Proof.
  intros val cmp span t l e H R. unfold wait, honest_wait in *. destruct (Z.leb_spec (total_ms span) 0).
  - destruct l as [|r l]; [discriminate|]. inversion H; subst. injection R as E <-. apply Z.eqb_neq in E.
    unfold total_ms, MS, INT64_MAX in *. split; [intros ->; vm_compute in H0; congruence|]. split.
    + intros SP. pose proof (Z.quot_rem' span 10000) as Q. pose proof (Z.rem_bound_pos span 10000 ltac:(lia) ltac:(lia)). lia.
    + exists (t + d0 r). split; [lia|exact E].
  - destruct (Z.eqb_spec span INT64_MAX).
    + apply forever_true in R; [destruct R as (X & _); discriminate|exact H].
    + apply timed_false in R; [|exact H]. destruct R as (R1 & R2 & u & R3 & R4). split; [assumption|]. split; [intros; lia|]. exists u. auto.
Qed.
(** The whole time-out need not have passed: spans below one millisecond do not wait at all. *)
Theorem C118_early_refuted : forall span, 0 < span < MS -> exists val t l e,
  honest_wait span t l /\ wait val 1 span t l = Ret false e /\ e < t + span.
Proof.
  intros span B. exists (fun _ => 0), 0, [RD 0 0 0 0 true], 0. unfold honest_wait, wait.
  assert (E : total_ms span = 0) by (unfold total_ms, MS in *; apply Z.quot_small; lia). rewrite E. cbn. split; [constructor; [cbn; lia|constructor]|]. split; [reflexivity|lia].
Qed.
(** false is possible although the value is equal at the return, and has been since before the call was woken last. *)
Theorem C118_missed_refuted : exists val cmp span t l e, honest_wait span t l /\ wait val cmp span t l = Ret false e /\
  forall u, t + 1 <= u -> val u = cmp.
Proof.
  exists (fun u => if u <=? 0 then 0 else 1), 1, 10000, 0, [RD 0 0 0 10000 false], 10000. unfold honest_wait, wait.
  change (total_ms 10000 <=? 0) with false. change (10000 =? INT64_MAX) with false. split.
  - cbn [honest_timed]. split; [|exact I]. unfold honest; cbn [d0 d1 d2 dw ok].
    split; [lia|]. split; [lia|]. split; [lia|]. split; [lia|]. intros _. vm_compute. split; discriminate.
  - split; [reflexivity|]. intros u U. destruct (Z.leb_spec u 0); lia.
Qed.
(** A time-out of UINT32_MAX milliseconds (49.7 days) or more does not end the call: the milliseconds are cut to the value
    that means INFINITE, so WaitOnAddress cannot report a time-out and the call is still inside however long it took. *)
Theorem C118_long_refuted : forall (val : Z -> Z) cmp span t r, UINT32_MAX * MS <= span -> span <> INT64_MAX -> d0 r = 0 -> d1 r = 0 ->
  val t <> cmp -> honest_wait span t [r] -> wait val cmp span t [r] = Still (t + d2 r + dw r).
Proof.
  intros val cmp span t r L NM Z0 Z1 V H. unfold honest_wait, wait in *.
  assert (Q : UINT32_MAX <= total_ms span) by (unfold total_ms, UINT32_MAX, MS in *; apply Z.quot_le_lower_bound; lia).
  destruct (Z.leb_spec (total_ms span) 0); [unfold UINT32_MAX in *; lia|]. destruct (Z.eqb_spec span INT64_MAX); [contradiction|].
  cbn [honest_timed timed] in *. rewrite Z0, Z1 in *. rewrite !Z.add_0_r in *. destruct (Z.eqb_spec (val t) cmp); [contradiction|].
  destruct (Z.ltb_spec (t + span) t); [unfold UINT32_MAX, MS in *; lia|].
  destruct H as ((_ & _ & _ & _ & HN) & _). destruct (ok r); [reflexivity|]. exfalso. destruct (HN eq_refl) as (X & _). apply X.
  unfold left_ms. replace (t + span - t) with span by lia. destruct (Z.leb_spec (total_ms span) 0); [unfold UINT32_MAX in *; lia|]. apply Z.min_r. exact Q.
Qed.
(** It happens: 60 days are asked for, 70 pass. *)
Example C118_long_case : honest_wait 51840000000000 0 [RD 0 0 0 60480000000000 true] /\
  wait (fun _ => 0) 1 51840000000000 0 [RD 0 0 0 60480000000000 true] = Still 60480000000000.
Proof.
  split; [|reflexivity]. unfold honest_wait. change (total_ms 51840000000000 <=? 0) with false. change (51840000000000 =? INT64_MAX) with false.
  cbn [honest_timed]. split; [|exact I]. unfold honest; cbn [d0 d1 d2 dw ok].
  split; [lia|]. split; [lia|]. split; [lia|]. split; [lia|]. discriminate.
Qed.
(** Below that limit the call ends: once a round starts after the expiry it is the last one, and a round that nobody
    interrupts is the last one. *)
Theorem C118_ends_partial : forall val cmp span t r l, 0 < total_ms span -> span < UINT32_MAX * MS -> val (t + d0 r) <> cmp ->
  (ok r = false -> exists e, wait val cmp span t (r :: l) = Ret false e) /\
  (forall x u, x < u + d0 r + d1 r -> exists b e, timed val cmp x u (r :: l) = Ret b e).
Proof.
  intros val cmp span t r l P S V. split.
  - intros O. unfold wait. destruct (Z.leb_spec (total_ms span) 0); [lia|]. destruct (Z.eqb_spec span INT64_MAX); [unfold INT64_MAX, UINT32_MAX, MS in *; lia|].
    cbn. destruct (Z.eqb_spec (val (t + d0 r)) cmp); [contradiction|]. destruct (t + span <? t + d0 r + d1 r); [eauto|]. rewrite O. eauto.
  - intros x u X. cbn. destruct (val (u + d0 r) =? cmp); [eauto|]. apply Z.ltb_lt in X. rewrite X. eauto.
Qed.
(** If in addition every step takes no longer than [dl], and WaitOnAddress returns no later than [dl] after the milliseconds
    it was given (which promises nothing for INFINITE), the call is over, or back at the test, [4 * dl] after the time-out at the
    latest: however often it is woken, with whatever the memory holds. *)
Definition prompt (dl ms : Z) (r : round) : Prop :=
  0 <= d0 r <= dl /\ 0 <= d1 r <= dl /\ 0 <= d2 r <= dl /\ 0 <= dw r /\ (ms <> UINT32_MAX -> dw r <= ms * MS + dl).
Fixpoint prompt_timed (dl expire t : Z) (l : list round) : Prop :=
  match l with
  | [] => True
  | r :: l => prompt dl (left_ms expire (t + d0 r + d1 r)) r /\ prompt_timed dl expire (t + d0 r + d1 r + d2 r + dw r) l
  end.
Definition moment (r : res) : Z := match r with Ret _ e => e | Still e => e end.
Lemma timed_bound val cmp dl expire l : forall t, expire - t < UINT32_MAX * MS -> t <= expire + 2 * dl -> 0 <= dl -> prompt_timed dl expire t l ->
  moment (timed val cmp expire t l) <= expire + 4 * dl.
Proof.
  induction l as [|r l IH]; intros t Lg B D P; [cbn [moment timed]; lia|]. destruct P as ((P0 & P1 & P2 & P3 & P4) & P).
  cbn [timed]. destruct (val (t + d0 r) =? cmp); [cbn [moment timed]; lia|]. destruct (Z.ltb_spec expire (t + d0 r + d1 r)); [cbn [moment timed]; lia|].
  assert (Q : dw r <= expire - (t + d0 r + d1 r) + dl).
  { unfold left_ms, total_ms in P4. pose proof (Z.quot_rem' (expire - (t + d0 r + d1 r)) MS) as Q.
    pose proof (Z.rem_bound_pos (expire - (t + d0 r + d1 r)) MS ltac:(lia) ltac:(unfold MS; lia)).
    unfold MS, UINT32_MAX in *. destruct (Z.leb_spec (Z.quot (expire - (t + d0 r + d1 r)) 10000) 0); [specialize (P4 ltac:(discriminate)); lia|].
    assert (NI : Z.quot (expire - (t + d0 r + d1 r)) 10000 < 4294967295) by lia. rewrite Z.min_l in P4 by lia. specialize (P4 ltac:(lia)). lia. }
  destruct (ok r); [|cbn [moment]; lia]. apply IH; try lia. exact P.
Qed.
Theorem C118_bound_partial : forall val cmp dl span t l, 0 < total_ms span -> span < UINT32_MAX * MS -> 0 <= dl ->
  prompt_timed dl (t + span) t l -> moment (wait val cmp span t l) <= t + span + 4 * dl.
Proof.
  intros val cmp dl span t l P S D H. unfold wait. destruct (Z.leb_spec (total_ms span) 0); [lia|].
  destruct (Z.eqb_spec span INT64_MAX); [unfold INT64_MAX, UINT32_MAX, MS in *; lia|].
  assert (0 <= span). { destruct (Z.le_gt_cases 0 span); [assumption|]. unfold total_ms, MS in *. pose proof (Z.quot_le_mono span 0 10000 ltac:(lia) ltac:(lia)). cbn in *. lia. }
  apply timed_bound; try lia. exact H.
Qed.
(** Three wake-ups for nothing within a time-out of two milliseconds, the last wait being for zero milliseconds. *)
Example C118_bounded : let l := [RD 1 1 1 9000 true; RD 1 1 1 9000 true; RD 1 1 1 5 true; RD 1 1 1 2000 true] in
  prompt_timed 2000 20000 0 l /\ moment (wait (fun _ => 0) 1 20000 0 l) = 20017.
Proof.
  cbn zeta. split; [|reflexivity]. cbn [prompt_timed]. unfold prompt; cbn [d0 d1 d2 dw ok].
  split; [|split; [|split; [|split; [|exact I]]]]; (split; [lia|]); (split; [lia|]); (split; [lia|]); (split; [lia|]); intros _; vm_compute; discriminate.
Qed.

(** A call that must not wait tells whether the bytes are equal exactly for the sizes 1, 2, 4 and 8; for any other size
    even equal bytes give false. *)
Theorem C118_size : forall size, 0 <= size ->
  ((forall bytes cmp t r, wait_size bytes cmp size 0 t [r] = Ret (bytes (t + d0 r) mod 2 ^ (8 * size) =? cmp mod 2 ^ (8 * size)) (t + d0 r)) <->
   In size [1; 2; 4; 8]).
Proof.
  intros size P. unfold wait_size. split.
  - intros H. specialize (H (fun _ => 0) 0 0 (RD 0 0 0 0 true)). destruct (supported size) eqn:S.
    + unfold supported in S. rewrite !orb_true_iff, !Z.eqb_eq in S. cbn. intuition congruence.
    + rewrite Z.eqb_refl in H. discriminate.
  - intros H bytes cmp t r. assert (S : supported size = true) by (cbn in H; intuition (subst; reflexivity)). rewrite S. reflexivity.
Qed.
(** For the others only that many bytes are compared. *)
Theorem C118_bytes : forall bytes cmp size span t l e, supported size = true -> honest_wait span t l ->
  wait_size bytes cmp size span t l = Ret true e -> t <= e /\ bytes e mod 2 ^ (8 * size) = cmp mod 2 ^ (8 * size).
Proof. intros bytes cmp size span t l e S H R. unfold wait_size in R. rewrite S in R. apply C118_true in R; assumption. Qed.

(** The value becomes 1 at moment 50000; the thread is woken once too early, then at the right time. *)
Definition v1 (u : Z) : Z := if u <? 50000 then 0 else 1.
Definition rounds : list round := [RD 5 5 5 20000 true; RD 5 5 5 40000 true; RD 5 0 0 0 true].
Example C118_woken : wait v1 1 100000 0 rounds = Ret true 60035 /\ honest_wait 100000 0 rounds.
Proof.
  split; [reflexivity|]. unfold honest_wait. change (total_ms 100000 <=? 0) with false. change (100000 =? INT64_MAX) with false.
  unfold rounds. cbn [honest_timed]. unfold honest; cbn [d0 d1 d2 dw ok].
  split; [|split; [|split; [|exact I]]]; (split; [lia|]); (split; [lia|]); (split; [lia|]); (split; [lia|]); discriminate.
Qed.
(** The same with a time-out of three milliseconds. *)
Example C118_expired : wait v1 1 30000 0 [RD 5 5 5 20000 true; RD 5 5 5 10000 false] = Ret false 30030.
Proof. reflexivity. Qed.

Print Assumptions C118_true.
Print Assumptions C118_false_partial.
Print Assumptions C118_early_refuted.
Print Assumptions C118_missed_refuted.
Print Assumptions C118_long_refuted.
Print Assumptions C118_ends_partial.
Print Assumptions C118_bound_partial.
Print Assumptions C118_size.
Print Assumptions C118_bytes.
