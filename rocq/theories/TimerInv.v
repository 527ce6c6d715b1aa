(** The placement invariant of the timing wheels and its preservation. *)
From Coq Require Import ZArith Lia Bool List Permutation ZifyBool.
From Verif Require Import Word BitMapModel BitMapThms TimerModel TimerProofs.
Import ListNotations.
Local Open Scope Z_scope.
Ltac Zify.zify_post_hook ::= Z.to_euclidean_division_equations.
Arguments Z.mul : simpl never.
Arguments Z.add : simpl never.

Section Inv.
Variable tpm : Z.
Notation ems := (ems tpm).
(** [far]: the timers that may have been set more than 2^22 ms ahead. *)
Variable far : timer -> Prop.
(** [st]: the strict invariant (all fetches were made, no timer set for a time that the
    wheel has already passed). *)
Variable st : Prop.

Definition G1 (b i : Z) (t : timer) : Prop :=
  0 <= i < 128 /\ ((~ st /\ ems t <= b) \/ (b < ems t <= b + 1024 /\ i = (ems t - 1) / 8 mod 128)).
Definition G2 (b i : Z) (t : timer) : Prop :=
  b / 1024 < (ems t - 1) / 1024 /\ ems t <= b + 65536 /\ i = (ems t - 1) / 1024 mod 64.
Definition G3 (b i : Z) (t : timer) : Prop :=
  0 <= i < 64 /\ ((~ st /\ ems t <= b)
    \/ (b < ems t <= b + 4194304 /\ i = (ems t - 1) / 65536 mod 64
        /\ (st -> b / 65536 < (ems t - 1) / 65536))).
Definition G4 (b : Z) (t : timer) : Prop :=
  far t /\ (st -> b / 4194304 < (ems t - 1) / 4194304).

Definition WP (P1 P2 P3 : Z -> timer -> Prop) (P4 : timer -> Prop) (s : tm) : Prop :=
  (wok 128 (w1 s) /\ wok 64 (w2 s) /\ wok 64 (w3 s))
  /\ (forall i t, In t (bk (w1 s) i) -> P1 i t)
  /\ (forall i t, In t (bk (w2 s) i) -> P2 i t)
  /\ (forall i t, In t (bk (w3 s) i) -> P3 i t)
  /\ (forall t, In t (oth s) -> P4 t).
Definition WI (b : Z) (s : tm) : Prop := WP (G1 b) (G2 b) (G3 b) (G4 b) s.

Lemma WP_weaken : forall (P1 P2 P3 : Z -> timer -> Prop) (P4 : timer -> Prop)
  (Q1 Q2 Q3 : Z -> timer -> Prop) (Q4 : timer -> Prop) s,
  (forall i t, P1 i t -> Q1 i t) -> (forall i t, P2 i t -> Q2 i t) ->
  (forall i t, P3 i t -> Q3 i t) -> (forall t, P4 t -> Q4 t) ->
  WP P1 P2 P3 P4 s -> WP Q1 Q2 Q3 Q4 s.
Proof.
  intros P1 P2 P3 P4 Q1 Q2 Q3 Q4 s A1 A2 A3 A4 (O & B1 & B2 & B3 & B4).
  split; [exact O|]. split; [intros; eauto|]. split; [intros; eauto|]. split; intros; eauto.
Qed.
Ltac wp := split; [split; [|split]|split; [|split; [|split]]].

(** All timers held by the manager. *)
Definition all (s : tm) : list timer := content 128 (w1 s) ++ content 64 (w2 s) ++ content 64 (w3 s) ++ oth s.

(** What a call leaves alone. *)
Definition same (s s' : tm) : Prop := last s' = last s /\ base s' = base s /\ canc s' = canc s.
Lemma same_refl : forall s, same s s. Proof. intros s. repeat split. Qed.
Lemma same_trans : forall a b c, same a b -> same b c -> same a c.
Proof. intros a b c (A1 & A2 & A3) (B1 & B2 & B3). repeat split; congruence. Qed.

(** A timer may be dispatched at [cur]. *)
Definition due (cur : Z) (s : tm) (t : timer) : Prop := canc s (tid t) = true \/ far t \/ ems t <= cur.

(** What a step of the processing does: it adds to the pending list only due timers,
    and loses none. *)
Definition moves (cur : Z) (s : tm) (pend : list timer) (r : tm * list timer) : Prop :=
  same s (fst r) /\ exists l, snd r = pend ++ l /\ Forall (due cur s) l
    /\ Permutation (all s) (l ++ all (fst r)).

Lemma moves_refl : forall cur s pend, moves cur s pend (s, pend).
Proof.
  intros cur s pend. split; [apply same_refl|]. exists []. rewrite app_nil_r. repeat split; constructor || reflexivity.
Qed.
Lemma moves_trans : forall cur s pend r1 r2, moves cur s pend r1 -> moves cur (fst r1) (snd r1) r2 ->
  moves cur s pend r2.
Proof.
  intros cur s pend [s1 p1] [s2 p2] (S1 & l1 & E1 & D1 & M1) (S2 & l2 & E2 & D2 & M2). cbn [fst snd] in *.
  split; [eapply same_trans; eassumption|]. exists (l1 ++ l2). cbn [fst snd].
  split; [rewrite E2, E1, app_assoc; reflexivity|]. split.
  - apply Forall_app. split; [exact D1|]. destruct S1 as (_ & _ & C).
    eapply Forall_impl; [|exact D2]. intros t. unfold due. rewrite C. exact (fun x => x).
  - rewrite M1, M2, app_assoc. reflexivity.
Qed.

(** ** Putting a timer into a wheel *)
Lemma bk_push : forall w i t j u, In u (bk (w_push w i t) j) -> (j = i /\ u = t) \/ In u (bk w j).
Proof.
  intros w i t j u H. cbn [w_push bk] in H. unfold updz in H. destruct (Z.eqb_spec j i) as [->|NE].
  - apply in_app_or in H. destruct H as [H|[H|[]]]; [right; exact H|left; split; [reflexivity|congruence]].
  - right. exact H.
Qed.

Lemma put1_ok : forall (P1 P2 P3 : Z -> timer -> Prop) P4 s nb t, WP P1 P2 P3 P4 s -> P1 (nb mod 128) t ->
  WP P1 P2 P3 P4 (put1 s nb t) /\ same s (put1 s nb t) /\ Permutation (t :: all s) (all (put1 s nb t)).
Proof.
  intros P1 P2 P3 P4 s nb t ((O1 & O2 & O3) & B1 & B2 & B3 & B4) H. unfold put1, kN1.
  assert (R : 0 <= nb mod 128 < 128) by (apply Z.mod_pos_bound; lia).
  split; [|split; [repeat split|]].
  - wp; cbn [set_w1 w1 w2 w3 oth]; try assumption; [apply wok_push; assumption|].
    intros i u Hu. apply bk_push in Hu. destruct Hu as [[-> ->]|Hu]; [exact H|apply B1; exact Hu].
  - unfold all. cbn [set_w1 w1 w2 w3 oth]. rewrite (content_push 128 (w1 s) _ t R). reflexivity.
Qed.
Lemma put2_ok : forall (P1 P2 P3 : Z -> timer -> Prop) P4 s nb t, WP P1 P2 P3 P4 s -> P2 (nb / 128 mod 64) t ->
  WP P1 P2 P3 P4 (put2 s nb t) /\ same s (put2 s nb t) /\ Permutation (t :: all s) (all (put2 s nb t)).
Proof.
  intros P1 P2 P3 P4 s nb t ((O1 & O2 & O3) & B1 & B2 & B3 & B4) H. unfold put2, kN1, kN2.
  assert (R : 0 <= nb / 128 mod 64 < 64) by (apply Z.mod_pos_bound; lia).
  split; [|split; [repeat split|]].
  - wp; cbn [set_w2 w1 w2 w3 oth]; try assumption; [apply wok_push; assumption|].
    intros i u Hu. apply bk_push in Hu. destruct Hu as [[-> ->]|Hu]; [exact H|apply B2; exact Hu].
  - unfold all. cbn [set_w2 w1 w2 w3 oth]. rewrite (content_push 64 (w2 s) _ t R).
    cbn [app]. rewrite <- Permutation_middle. reflexivity.
Qed.
Lemma put3_ok : forall (P1 P2 P3 : Z -> timer -> Prop) P4 s nb t, WP P1 P2 P3 P4 s -> P3 (nb / 128 / 64 mod 64) t ->
  WP P1 P2 P3 P4 (put3 s nb t) /\ same s (put3 s nb t) /\ Permutation (t :: all s) (all (put3 s nb t)).
Proof.
  intros P1 P2 P3 P4 s nb t ((O1 & O2 & O3) & B1 & B2 & B3 & B4) H. unfold put3, kN1, kN2, kN3.
  assert (R : 0 <= nb / 128 / 64 mod 64 < 64) by (apply Z.mod_pos_bound; lia).
  split; [|split; [repeat split|]].
  - wp; cbn [set_w3 w1 w2 w3 oth]; try assumption; [apply wok_push; assumption|].
    intros i u Hu. apply bk_push in Hu. destruct Hu as [[-> ->]|Hu]; [exact H|apply B3; exact Hu].
  - unfold all. cbn [set_w3 w1 w2 w3 oth]. rewrite (content_push 64 (w3 s) _ t R).
    cbn [app]. rewrite <- (Permutation_middle (content 64 (w2 s))).
    rewrite <- Permutation_middle. reflexivity.
Qed.

Lemma div8_128 : forall x, x / 8 / 128 = x / 1024.
Proof. intros x. rewrite Z.div_div by lia. reflexivity. Qed.
Lemma div1024_64 : forall x, x / 1024 / 64 = x / 65536.
Proof. intros x. rewrite Z.div_div by lia. reflexivity. Qed.

(** ** The fetches; [b] is the new base. *)
Section Fetch.
Variable cur : Z.
Hypothesis cur0 : 0 <= cur.
Let b := cur - cur mod 8.
Let i2 := b / 1024.
Let i3 := b / 65536.

Lemma b_le : b <= cur. Proof. unfold b. lia. Qed.
Lemma b_8 : exists m, b = 8 * m. Proof. exists (cur / 8). unfold b. lia. Qed.

(** The bucket that is about to be emptied may hold timers of the current block. *)
Definition G2x (i : Z) (t : timer) : Prop :=
  if i =? i2 mod 64 then ems t <= 1024 * (i2 + 1) \/ far t else G2 b i t.
Definition G3x (i : Z) (t : timer) : Prop :=
  if i =? i3 mod 64 then ems t <= 65536 * (i3 + 1) \/ far t else G3 b i t.
(** ... and is empty afterwards. *)
Definition G3e (i : Z) (t : timer) : Prop := i <> i3 mod 64 /\ G3 b i t.

Lemma reinsert1 : forall t, cur < ems t -> ems t <= b + 1024 -> G1 b ((ems t - 1) / 8 mod 128) t.
Proof.
  intros t H1 H2. assert (B := b_le). split; [apply Z.mod_pos_bound; lia|]. right. split; [lia|reflexivity].
Qed.
Lemma reinsert2 : forall t, b + 1024 < ems t -> ems t <= b + 65536 ->
  G2 b ((ems t - 1) / 8 / 128 mod 64) t.
Proof.
  intros t H1 H2. rewrite div8_128. destruct b_8 as [m E]. split; [|split; [lia|reflexivity]].
  clearbody b. subst b. lia.
Qed.
Lemma reinsert3 : forall t, b + 65536 < ems t -> ems t <= b + 4194304 ->
  G3 b ((ems t - 1) / 8 / 128 / 64 mod 64) t.
Proof.
  intros t H1 H2. rewrite div8_128, div1024_64. split; [apply Z.mod_pos_bound; lia|]. right.
  destruct b_8 as [m E]. split; [lia|split; [reflexivity|]]. intros _.
  clearbody b. subst b. lia.
Qed.

Ltac kunf := change kTick with 8 in *; change kN1 with 128 in *; change kN2 with 64 in *; change kN3 with 64 in *.

Lemma refill1_ok : forall P2 P3 P4 l s pend, WP (G1 b) P2 P3 P4 s ->
  (forall t, In t l -> ems t <= b + 1024 \/ far t) ->
  let r := refill1 tpm cur l s pend in
  WP (G1 b) P2 P3 P4 (fst r) /\ same s (fst r)
  /\ exists l', snd r = pend ++ l' /\ Forall (due cur s) l' /\ Permutation (l ++ all s) (l' ++ all (fst r)).
Proof.
  intros P2 P3 P4 l. induction l as [|t l IH]; intros s pend W H r; unfold r; cbn [refill1].
  - split; [exact W|]. split; [apply same_refl|]. exists []. rewrite app_nil_r. repeat split; constructor || reflexivity.
  - assert (H' : forall u, In u l -> ems u <= b + 1024 \/ far u) by (intros u Hu; apply H; right; exact Hu).
    assert (K : forall s', WP (G1 b) P2 P3 P4 s' -> same s s' -> Permutation (t :: all s) (all s') ->
      let r := refill1 tpm cur l s' pend in
      WP (G1 b) P2 P3 P4 (fst r) /\ same s (fst r)
      /\ exists l', snd r = pend ++ l' /\ Forall (due cur s) l' /\ Permutation ((t :: l) ++ all s) (l' ++ all (fst r))).
    { intros s' W' S' P'. destruct (IH s' pend W' H') as (A1 & A2 & l' & E & D & P).
      split; [exact A1|]. split; [eapply same_trans; eassumption|]. exists l'. split; [exact E|]. split.
      - destruct S' as (_ & _ & C). eapply Forall_impl; [|exact D]. intros u. unfold due. rewrite C. exact (fun x => x).
      - rewrite <- P, <- P'. cbn [app]. apply Permutation_middle. }
    assert (K2 : due cur s t ->
      let r := refill1 tpm cur l s (pend ++ [t]) in
      WP (G1 b) P2 P3 P4 (fst r) /\ same s (fst r)
      /\ exists l', snd r = pend ++ l' /\ Forall (due cur s) l' /\ Permutation ((t :: l) ++ all s) (l' ++ all (fst r))).
    { intros Hd. destruct (IH s (pend ++ [t]) W H') as (A1 & A2 & l' & E & D & P).
      split; [exact A1|]. split; [exact A2|]. exists (t :: l'). split; [rewrite E, <- app_assoc; reflexivity|].
      split; [constructor; assumption|]. cbn [app]. constructor. exact P. }
    destruct (canc s (tid t) || (ems t <=? cur)) eqn:C.
    + apply K2. apply orb_true_iff in C. destruct C as [C|C]; [left; exact C|right; right; lia].
    + apply orb_false_iff in C. destruct C as [C1 C2]. kunf. fold b.
      destruct (ems t - b <=? 8 * 128) eqn:C3.
      * destruct (put1_ok (G1 b) P2 P3 P4 s ((ems t - 1) / 8) t W) as (A1 & A2 & A3).
        { apply reinsert1; lia. }
        apply K; assumption.
      * apply K2. right. left. destruct (H t (or_introl eq_refl)) as [Y|Y]; [lia|exact Y].
Qed.

Lemma refill2_ok : forall (P2 P3 : Z -> timer -> Prop) P4 l s pend, WP (G1 b) P2 P3 P4 s ->
  (forall t, In t l -> ems t <= 65536 * (i3 + 1) \/ far t) ->
  (forall i t, (ems t <= 65536 * (i3 + 1) \/ far t) -> G2 b i t -> P2 i t) ->
  let r := refill2 tpm cur l s pend in
  WP (G1 b) P2 P3 P4 (fst r) /\ same s (fst r)
  /\ exists l', snd r = pend ++ l' /\ Forall (due cur s) l' /\ Permutation (l ++ all s) (l' ++ all (fst r)).
Proof.
  intros P2 P3 P4 l. induction l as [|t l IH]; intros s pend W H I r; unfold r; cbn [refill2].
  - split; [exact W|]. split; [apply same_refl|]. exists []. rewrite app_nil_r. repeat split; constructor || reflexivity.
  - assert (H' : forall u, In u l -> ems u <= 65536 * (i3 + 1) \/ far u) by (intros u Hu; apply H; right; exact Hu).
    assert (K : forall s', WP (G1 b) P2 P3 P4 s' -> same s s' -> Permutation (t :: all s) (all s') ->
      let r := refill2 tpm cur l s' pend in
      WP (G1 b) P2 P3 P4 (fst r) /\ same s (fst r)
      /\ exists l', snd r = pend ++ l' /\ Forall (due cur s) l' /\ Permutation ((t :: l) ++ all s) (l' ++ all (fst r))).
    { intros s' W' S' P'. destruct (IH s' pend W' H' I) as (A1 & A2 & l' & E & D & P).
      split; [exact A1|]. split; [eapply same_trans; eassumption|]. exists l'. split; [exact E|]. split.
      - destruct S' as (_ & _ & C). eapply Forall_impl; [|exact D]. intros u. unfold due. rewrite C. exact (fun x => x).
      - rewrite <- P, <- P'. cbn [app]. apply Permutation_middle. }
    assert (K2 : due cur s t ->
      let r := refill2 tpm cur l s (pend ++ [t]) in
      WP (G1 b) P2 P3 P4 (fst r) /\ same s (fst r)
      /\ exists l', snd r = pend ++ l' /\ Forall (due cur s) l' /\ Permutation ((t :: l) ++ all s) (l' ++ all (fst r))).
    { intros Hd. destruct (IH s (pend ++ [t]) W H' I) as (A1 & A2 & l' & E & D & P).
      split; [exact A1|]. split; [exact A2|]. exists (t :: l'). split; [rewrite E, <- app_assoc; reflexivity|].
      split; [constructor; assumption|]. cbn [app]. constructor. exact P. }
    assert (Ht := H t (or_introl eq_refl)).
    destruct (canc s (tid t) || (ems t <=? cur)) eqn:C.
    + apply K2. apply orb_true_iff in C. destruct C as [C|C]; [left; exact C|right; right; lia].
    + apply orb_false_iff in C. destruct C as [C1 C2]. kunf. fold b.
      destruct (ems t - b <=? 8 * 128) eqn:C3; [|destruct (ems t - b <=? 8 * 128 * 64) eqn:C4].
      * destruct (put1_ok (G1 b) P2 P3 P4 s ((ems t - 1) / 8) t W) as (A1 & A2 & A3).
        { apply reinsert1; lia. }
        apply K; assumption.
      * destruct (put2_ok (G1 b) P2 P3 P4 s ((ems t - 1) / 8) t W) as (A1 & A2 & A3).
        { apply I; [exact Ht|]. apply reinsert2; lia. }
        apply K; assumption.
      * apply K2. right. left. destruct Ht as [Y|Y]; [|exact Y].
        assert (65536 * (i3 + 1) <= b + 65536) by (unfold i3; lia). lia.
Qed.

Lemma refill3_ok : forall (P2 P3 : Z -> timer -> Prop) P4 l s pend new, WP (G1 b) P2 P3 P4 s ->
  (forall t, In t l -> far t) -> (forall t, In t new -> G4 b t) ->
  (forall i t, far t -> G2 b i t -> P2 i t) -> (forall i t, far t -> G3 b i t -> P3 i t) ->
  let r := refill3 tpm cur l s pend new in
  WP (G1 b) P2 P3 P4 (fst (fst r)) /\ same s (fst (fst r)) /\ oth (fst (fst r)) = oth s
  /\ (forall t, In t (snd r) -> G4 b t)
  /\ exists l', snd (fst r) = pend ++ l' /\ Forall (due cur s) l'
       /\ Permutation (l ++ all s ++ new) (l' ++ all (fst (fst r)) ++ snd r).
Proof.
  intros P2 P3 P4 l. induction l as [|t l IH]; intros s pend new W H N I2 I3 r; unfold r; cbn [refill3].
  - split; [exact W|]. split; [apply same_refl|]. split; [reflexivity|]. split; [exact N|].
    exists []. rewrite app_nil_r. repeat split; constructor || reflexivity.
  - assert (H' : forall u, In u l -> far u) by (intros u Hu; apply H; right; exact Hu).
    assert (Ht := H t (or_introl eq_refl)).
    assert (K : forall s', WP (G1 b) P2 P3 P4 s' -> same s s' -> Permutation (t :: all s) (all s') -> oth s' = oth s ->
      let r := refill3 tpm cur l s' pend new in
      WP (G1 b) P2 P3 P4 (fst (fst r)) /\ same s (fst (fst r)) /\ oth (fst (fst r)) = oth s
      /\ (forall t, In t (snd r) -> G4 b t)
      /\ exists l', snd (fst r) = pend ++ l' /\ Forall (due cur s) l'
       /\ Permutation ((t :: l) ++ all s ++ new) (l' ++ all (fst (fst r)) ++ snd r)).
    { intros s' W' S' P' O'. destruct (IH s' pend new W' H' N I2 I3) as (A1 & A2 & A3 & A4 & l' & E & D & P).
      split; [exact A1|]. split; [eapply same_trans; eassumption|]. split; [congruence|]. split; [exact A4|].
      exists l'. split; [exact E|]. split.
      - destruct S' as (_ & _ & C). eapply Forall_impl; [|exact D]. intros u. unfold due. rewrite C. exact (fun x => x).
      - rewrite <- P, <- P'. cbn [app]. apply Permutation_middle. }
    destruct (canc s (tid t) || (ems t <=? cur)) eqn:C.
    + destruct (IH s (pend ++ [t]) new W H' N I2 I3) as (A1 & A2 & A3 & A4 & l' & E & D & P).
      split; [exact A1|]. split; [exact A2|]. split; [exact A3|]. split; [exact A4|].
      exists (t :: l'). split; [rewrite E, <- app_assoc; reflexivity|]. split.
      * constructor; [|exact D]. right. left. exact Ht.
      * cbn [app]. constructor. exact P.
    + apply orb_false_iff in C. destruct C as [C1 C2]. kunf. fold b.
      destruct (ems t - b <=? 8 * 128) eqn:C3;
        [|destruct (ems t - b <=? 8 * 128 * 64) eqn:C4;
          [|destruct (ems t - b <=? 8 * 128 * 64 * 64) eqn:C5]].
      * destruct (put1_ok (G1 b) P2 P3 P4 s ((ems t - 1) / 8) t W) as (A1 & A2 & A3).
        { apply reinsert1; lia. }
        apply K; try assumption; reflexivity.
      * destruct (put2_ok (G1 b) P2 P3 P4 s ((ems t - 1) / 8) t W) as (A1 & A2 & A3).
        { apply I2; [exact Ht|]. apply reinsert2; lia. }
        apply K; try assumption; reflexivity.
      * destruct (put3_ok (G1 b) P2 P3 P4 s ((ems t - 1) / 8) t W) as (A1 & A2 & A3).
        { apply I3; [exact Ht|]. apply reinsert3; lia. }
        apply K; try assumption; reflexivity.
      * destruct (IH s pend (new ++ [t]) W H') as (A1 & A2 & A3 & A4 & l' & E & D & P); try assumption.
        { intros u Hu. apply in_app_or in Hu. destruct Hu as [Hu|[<-|[]]]; [apply N; exact Hu|].
          split; [exact Ht|]. intros _. clearbody b. lia. }
        split; [exact A1|]. split; [exact A2|]. split; [exact A3|]. split; [exact A4|].
        exists l'. split; [exact E|]. split; [exact D|]. rewrite <- P.
        rewrite !app_assoc. rewrite <- Permutation_cons_append. cbn [app]. reflexivity.
Qed.

Lemma Fetch3_ok : forall (P2 P3 : Z -> timer -> Prop) (P4 : timer -> Prop) s pend, WP (G1 b) P2 P3 P4 s ->
  (forall t, P4 t -> far t) ->
  (forall i t, far t -> G2 b i t -> P2 i t) -> (forall i t, far t -> G3 b i t -> P3 i t) ->
  let r := Fetch3 tpm cur s pend in
  WP (G1 b) P2 P3 (G4 b) (fst r) /\ moves cur s pend r.
Proof.
  intros P2 P3 P4 s pend W F I2 I3 r. unfold r, Fetch3.
  destruct W as (O & B1 & B2 & B3 & B4).
  destruct (refill3_ok P2 P3 (fun _ => False) (oth s) (set_oth s []) pend []) as (A1 & A2 & A3 & A4 & l' & E & D & P).
  - split; [exact O|]. split; [|split; [|split]]; try assumption. intros t [].
  - intros t Ht. apply F, B4, Ht.
  - intros t [].
  - exact I2.
  - exact I3.
  - destruct (refill3 tpm cur (oth s) (set_oth s []) pend []) as [[s' pend'] new].
    cbn [fst snd] in *. cbn [set_oth oth] in A3. rewrite A3. cbn [app].
    split; [|split].
    + destruct A1 as (C0 & C1 & C2 & C3 & C4). split; [exact C0|].
      split; [|split; [|split]]; cbn [set_oth w1 w2 w3 oth]; assumption.
    + destruct A2 as (S1 & S2 & S3). repeat split; assumption.
    + exists l'. split; [exact E|]. split; [exact D|].
      rewrite app_nil_r in P. unfold all in *. cbn [set_oth w1 w2 w3 oth fst] in *.
      rewrite app_nil_r in P. rewrite A3, app_nil_r, <- !app_assoc in P.
      rewrite <- P. rewrite (Permutation_app_comm (oth s)). rewrite <- !app_assoc. reflexivity.
Qed.

Lemma in_clear : forall w i j u, In u (bk (w_clear w i) j) -> j <> i /\ In u (bk w j).
Proof.
  intros w i j u H. cbn [w_clear bk] in H. unfold updz in H. destruct (Z.eqb_spec j i); [destruct H|tauto].
Qed.

Lemma all_clear3 : forall s i, 0 <= i < 64 ->
  Permutation (all s) (bk (w3 s) i ++ all (set_w3 s (w_clear (w3 s) i))).
Proof.
  intros s i Hi. unfold all. cbn [set_w3 w1 w2 w3 oth]. rewrite (content_clear 64 (w3 s) i Hi).
  rewrite <- !app_assoc. rewrite (Permutation_app_swap_app (content 64 (w2 s))).
  apply Permutation_app_swap_app.
Qed.
Lemma all_clear2 : forall s i, 0 <= i < 64 ->
  Permutation (all s) (bk (w2 s) i ++ all (set_w2 s (w_clear (w2 s) i))).
Proof.
  intros s i Hi. unfold all. cbn [set_w2 w1 w2 w3 oth]. rewrite (content_clear 64 (w2 s) i Hi).
  rewrite <- !app_assoc. apply Permutation_app_swap_app.
Qed.

Lemma Fetch2_ok : forall (P2 : Z -> timer -> Prop) (P4 P4' : timer -> Prop) s pend, WP (G1 b) P2 G3x P4 s ->
  (forall t, P4 t -> far t) ->
  (forall i t, (ems t <= 65536 * (i3 + 1) \/ far t) -> G2 b i t -> P2 i t) ->
  (i3 mod 64 <> 0 -> forall t, P4 t -> P4' t) -> (forall t, G4 b t -> P4' t) ->
  let r := Fetch2 tpm i3 cur s pend in
  WP (G1 b) P2 G3e P4' (fst r) /\ moves cur s pend r.
Proof.
  intros P2 P4 P4' s pend W F I2 HP4 HG4 r. unfold r, Fetch2. kunf.
  set (c := i3 mod 64) in *. assert (Hc : 0 <= c < 64) by (apply Z.mod_pos_bound; lia).
  assert (J : let r0 := (if c =? 0 then Fetch3 tpm cur s pend else (s, pend)) in
              WP (G1 b) P2 G3x P4' (fst r0) /\ moves cur s pend r0).
  { destruct (Z.eqb_spec c 0) as [Z0|NZ].
    - destruct (Fetch3_ok P2 G3x P4 s pend W F) as [A1 A2].
      + intros i t Hf Hg. apply I2; [right; exact Hf|exact Hg].
      + intros i t Hf Hg. unfold G3x. destruct (i =? i3 mod 64); [right; exact Hf|exact Hg].
      + split; [|exact A2]. eapply WP_weaken; [| | |exact HG4|exact A1]; intros ? ? Y; exact Y.
    - split; [|apply moves_refl]. cbn [fst]. eapply WP_weaken; [| | |exact (HP4 NZ)|exact W]; intros ? ? Y; exact Y. }
  cbn zeta in J. destruct (if c =? 0 then Fetch3 tpm cur s pend else (s, pend)) as [s0 p0].
  destruct J as [W0 M0]. cbn [fst] in W0.
  assert (W1 : WP (G1 b) P2 G3e P4' (set_w3 s0 (w_clear (w3 s0) c))).
  { destruct W0 as ((O1 & O2 & O3) & B1 & B2 & B3 & B4). split.
    - split; [assumption|split; [assumption|apply wok_clear; assumption]].
    - split; [exact B1|]. split; [exact B2|]. split; [|exact B4]. cbn [set_w3 w1 w2 w3 oth].
      intros i t H. apply in_clear in H. destruct H as [NE H]. split; [exact NE|].
      specialize (B3 i t H). unfold G3x in B3. fold c in B3.
      destruct (Z.eqb_spec i c); [contradiction|]. exact B3. }
  destruct (refill2_ok P2 G3e P4' (bk (w3 s0) c) (set_w3 s0 (w_clear (w3 s0) c)) p0 W1) as (A1 & A2 & l' & E & D & P).
  - intros t Ht. destruct W0 as (_ & _ & _ & B3 & _). specialize (B3 c t Ht). unfold G3x in B3.
    fold c in B3. rewrite Z.eqb_refl in B3. exact B3.
  - exact I2.
  - split; [exact A1|]. eapply moves_trans; [exact M0|]. cbn [fst snd]. split; [exact A2|].
    exists l'. split; [exact E|]. split; [exact D|].
    rewrite <- P. apply all_clear3. exact Hc.
Qed.

Lemma Fetch1_ok_a : forall (P3 : Z -> timer -> Prop) (P4 : timer -> Prop) s pend, i2 mod 64 <> 0 ->
  WP (G1 b) G2x P3 P4 s ->
  let r := Fetch1 tpm i2 cur s pend in
  WP (G1 b) (G2 b) P3 P4 (fst r) /\ moves cur s pend r.
Proof.
  intros P3 P4 s0 p0 NZ W0 r. unfold r, Fetch1. kunf.
  set (c := i2 mod 64) in *. assert (Hc : 0 <= c < 64) by (apply Z.mod_pos_bound; lia).
  destruct (Z.eqb_spec c 0); [contradiction|].
  assert (W1 : WP (G1 b) (G2 b) P3 P4 (set_w2 s0 (w_clear (w2 s0) c))).
  { destruct W0 as ((O1 & O2 & O3) & B1 & B2 & B3 & B4). split.
    - split; [assumption|split; [apply wok_clear; assumption|assumption]].
    - split; [exact B1|]. split; [|split; assumption]. cbn [set_w2 w1 w2 w3 oth].
      intros i t H. apply in_clear in H. destruct H as [NE H]. specialize (B2 i t H). unfold G2x in B2. fold c in B2.
      destruct (Z.eqb_spec i c); [contradiction|]. exact B2. }
  destruct (refill1_ok (G2 b) P3 P4 (bk (w2 s0) c) (set_w2 s0 (w_clear (w2 s0) c)) p0 W1) as (A1 & A2 & l' & E & D & P).
  - intros t Ht. destruct W0 as (_ & _ & B2 & _ & _). specialize (B2 c t Ht). unfold G2x in B2.
    fold c in B2. rewrite Z.eqb_refl in B2. destruct B2 as [Y|Y]; [left|right; exact Y].
    assert (1024 * (i2 + 1) <= b + 1024) by (unfold i2; lia). lia.
  - split; [exact A1|]. split; [exact A2|].
    exists l'. split; [exact E|]. split; [exact D|].
    rewrite <- P. apply all_clear2. exact Hc.
Qed.

Lemma Fetch1_ok_b : forall (P4 P4' : timer -> Prop) s pend, i2 mod 64 = 0 ->
  WP (G1 b) G2x G3x P4 s -> (forall t, P4 t -> far t) ->
  (i3 mod 64 <> 0 -> forall t, P4 t -> P4' t) -> (forall t, G4 b t -> P4' t) ->
  let r := Fetch1 tpm i2 cur s pend in
  WP (G1 b) (G2 b) G3e P4' (fst r) /\ moves cur s pend r.
Proof.
  intros P4 P4' s pend Z0 W F HP4 HG4 r. unfold r, Fetch1. kunf.
  rewrite Z0. cbn [Z.eqb].
  assert (E3 : i2 / 64 = i3) by (unfold i2, i3; apply div1024_64). rewrite E3.
  destruct (Fetch2_ok G2x P4 P4' s pend W F) as [W0 M0].
  { intros i t H G. unfold G2x. destruct (Z.eqb_spec i (i2 mod 64)) as [E|NE]; [|exact G].
    destruct H as [H|H]; [|right; exact H].
    exfalso. destruct G as (Ga & Gb & Gc). rewrite Z0 in E. subst i.
    fold i2 in Ga. clearbody i2 i3. lia. }
  { exact HP4. }
  { exact HG4. }
  destruct (Fetch2 tpm i3 cur s pend) as [s0 p0]. cbn [fst] in W0.
  assert (W1 : WP (G1 b) (G2 b) G3e P4' (set_w2 s0 (w_clear (w2 s0) 0))).
  { destruct W0 as ((O1 & O2 & O3) & B1 & B2 & B3 & B4). split.
    - split; [assumption|split; [apply wok_clear; [assumption|lia]|assumption]].
    - split; [exact B1|]. split; [|split; assumption]. cbn [set_w2 w1 w2 w3 oth].
      intros i t H. apply in_clear in H. destruct H as [NE H]. specialize (B2 i t H). unfold G2x in B2.
      rewrite Z0 in B2. destruct (Z.eqb_spec i 0); [contradiction|]. exact B2. }
  destruct (refill1_ok (G2 b) G3e P4' (bk (w2 s0) 0) (set_w2 s0 (w_clear (w2 s0) 0)) p0 W1) as (A1 & A2 & l' & E & D & P).
  - intros t Ht. destruct W0 as (_ & _ & B2 & _ & _). specialize (B2 0 t Ht). unfold G2x in B2.
    rewrite Z0 in B2. cbn [Z.eqb] in B2. destruct B2 as [Y|Y]; [left|right; exact Y].
    assert (1024 * (i2 + 1) <= b + 1024) by (unfold i2; lia). lia.
  - split; [exact A1|]. eapply moves_trans; [exact M0|]. cbn [fst snd]. split; [exact A2|].
    exists l'. split; [exact E|]. split; [exact D|].
    rewrite <- P. apply all_clear2. lia.
Qed.
End Fetch.

(** ** The four branches of the processing *)
Lemma flush1_moves : forall cur s w l pend, same s (set_w1 s w) /\
  (Permutation (content 128 (w1 s)) (l ++ content 128 w) -> Forall (due cur s) l ->
   moves cur s pend (set_w1 s w, pend ++ l)).
Proof.
  intros cur s w l pend. split; [repeat split|]. intros P D. split; [repeat split|].
  exists l. split; [reflexivity|]. split; [exact D|].
  unfold all. cbn [fst set_w1 w1 w2 w3 oth]. rewrite P, <- app_assoc. reflexivity.
Qed.
Lemma flush2_moves : forall cur s w l pend,
  Permutation (content 64 (w2 s)) (l ++ content 64 w) -> Forall (due cur s) l ->
  moves cur s pend (set_w2 s w, pend ++ l).
Proof.
  intros cur s w l pend P D. split; [repeat split|].
  exists l. split; [reflexivity|]. split; [exact D|].
  unfold all. cbn [fst set_w2 w1 w2 w3 oth]. rewrite P, <- app_assoc.
  apply Permutation_app_swap_app.
Qed.
Lemma flush3_moves : forall cur s w l pend,
  Permutation (content 64 (w3 s)) (l ++ content 64 w) -> Forall (due cur s) l ->
  moves cur s pend (set_w3 s w, pend ++ l).
Proof.
  intros cur s w l pend P D. split; [repeat split|].
  exists l. split; [reflexivity|]. split; [exact D|].
  unfold all. cbn [fst set_w3 w1 w2 w3 oth]. rewrite P, <- app_assoc.
  rewrite (Permutation_app_swap_app (content 64 (w2 s))). apply Permutation_app_swap_app.
Qed.

(** The cyclic ranges are the blocks between the two positions. *)
Lemma cyc128 : forall f e j, 0 <= f -> f <= e < f + 128 -> 0 <= j < 128 ->
  cyc (f mod 128) (e mod 128) 128 j = true <-> exists x, f <= x < e /\ x mod 128 = j.
Proof.
  intros f e j Hf He Hj. unfold cyc. split.
  - intros H. exists (f + (j - f) mod 128). destruct (f mod 128 <=? e mod 128) eqn:C; lia.
  - intros (x & Hx & E). destruct (f mod 128 <=? e mod 128) eqn:C; lia.
Qed.
Lemma cyc64 : forall f e j, 0 <= f -> f <= e < f + 64 -> 0 <= j < 64 ->
  cyc (f mod 64) (e mod 64) 64 j = true <-> exists x, f <= x < e /\ x mod 64 = j.
Proof.
  intros f e j Hf He Hj. unfold cyc. split.
  - intros H. exists (f + (j - f) mod 64). destruct (f mod 64 <=? e mod 64) eqn:C; lia.
  - intros (x & Hx & E). destruct (f mod 64 <=? e mod 64) eqn:C; lia.
Qed.
Lemma cyc_range : forall si ei n j, 0 <= si -> ei <= n -> cyc si ei n j = true -> 0 <= j < n.
Proof. intros si ei n j. unfold cyc. destruct (si <=? ei) eqn:C; lia. Qed.


Section Branch.
Variable cur b0 : Z.
Hypothesis b00 : 0 <= b0.
Hypothesis b08 : b0 mod 8 = 0.
Hypothesis blk : b0 / 8 < cur / 8.
Let b := cur - cur mod 8.

Lemma bb : b0 < b /\ b <= cur /\ b mod 8 = 0 /\ 0 <= b.
Proof. unfold b. lia. Qed.

(** No fetch is left out. *)
Definition noskip : Prop :=
  ~ (1024 <= cur - b0 < 65536 /\ b0 / 1024 mod 64 = 63 /\ b0 / 1024 + 1 < cur / 1024)
  /\ ~ (65536 <= cur - b0 < 4194304 /\ b0 / 65536 mod 64 = 63 /\ b0 / 65536 + 1 < cur / 65536).

Lemma cur_div : forall k m, (k = 1024 \/ k = 65536 \/ k = 4194304) -> m = k -> cur / m = b / k.
Proof. intros k m [-> | [-> | ->]] ->; unfold b; lia. Qed.

Lemma G2_same : forall i t, b / 1024 = b0 / 1024 -> G2 b0 i t -> G2 b i t.
Proof. intros i t E (H1 & H2 & H3). assert (B := bb). split; [lia|]. split; [lia|exact H3]. Qed.
Lemma G3_same : forall i t, b / 65536 = b0 / 65536 -> G3 b0 i t -> G3 b i t.
Proof.
  intros i t E (H0 & [(H1 & H2)|(H1 & H2 & H3)]); assert (B := bb).
  - split; [exact H0|]. left. split; [exact H1|lia].
  - split; [exact H0|]. destruct (Z_le_dec (ems t) b) as [L|L].
    + left. split; [|exact L]. intros S. specialize (H3 S). clearbody b. lia.
    + right. split; [lia|]. split; [exact H2|]. intros S. specialize (H3 S). clearbody b. lia.
Qed.
(** The loose invariant survives a fetch that is left out. *)
Lemma G3_loose : forall i t, ~ st -> G3 b0 i t -> G3 b i t.
Proof.
  intros i t NS (H0 & [(H1 & H2)|(H1 & H2 & H3)]); assert (B := bb).
  - split; [exact H0|]. left. split; [exact H1|lia].
  - split; [exact H0|]. destruct (Z_le_dec (ems t) b) as [L|L].
    + left. split; [exact NS|exact L].
    + right. split; [lia|]. split; [exact H2|]. intros S. contradiction.
Qed.
Lemma G4_same : forall t, (st -> b / 4194304 = b0 / 4194304) -> G4 b0 t -> G4 b t.
Proof. intros t E (H1 & H2). split; [exact H1|]. intros S. rewrite (E S). exact (H2 S). Qed.
Lemma G4_far : forall b' t, G4 b' t -> far t. Proof. intros b' t [H _]. exact H. Qed.

(** After the flush of the blocks before [b / 1024], the bucket of that block holds
    timers to be fetched, the other buckets later ones. *)
Lemma G2_pass : forall i t, b / 1024 <= b0 / 1024 + 64 -> G2 b0 i t ->
  (forall x, b0 / 1024 + 1 <= x < b / 1024 -> x mod 64 <> i) -> b0 / 1024 < b / 1024 -> G2x cur i t.
Proof.
  intros i t H (H1 & H2 & H3) H4 H5. unfold G2x. fold b. assert (B := bb).
  set (x := (ems t - 1) / 1024) in *. assert (NX := H4 x).
  assert (x <= b0 / 1024 + 64) by (unfold x; lia).
  destruct (Z.eqb_spec i (b / 1024 mod 64)) as [E|NE].
  - left. assert (x = b / 1024 \/ x = b / 1024 + 64 \/ x = b / 1024 - 64 \/ b / 1024 + 64 < x \/ x < b / 1024) by lia.
    assert (x <= b / 1024) by lia. unfold x in *. clearbody b. lia.
  - split; [|split; [clearbody b; lia|exact H3]]. fold x. clearbody x b. lia.
Qed.
Lemma G3_pass : forall i t, b / 65536 <= b0 / 65536 + 64 -> G3 b0 i t ->
  (forall x, b0 / 65536 + 1 <= x < b / 65536 -> x mod 64 <> i) -> b0 / 65536 < b / 65536 -> G3x cur i t.
Proof.
  intros i t H (H0 & HH) H4 H5. unfold G3x. fold b. assert (B := bb).
  set (x := (ems t - 1) / 65536) in *. assert (NX := H4 x).
  destruct (Z.eqb_spec i (b / 65536 mod 64)) as [E|NE].
  - left. destruct HH as [(H1 & H2)|(H1 & H2 & H3)]; [clearbody b; lia|].
    assert (b0 / 65536 <= x <= b0 / 65536 + 64) by (unfold x; lia).
    assert (x <= b / 65536) by (clearbody x b; lia). unfold x in *. clearbody b. lia.
  - split; [exact H0|]. destruct HH as [(H1 & H2)|(H1 & H2 & H3)]; [left; split; [exact H1|lia]|].
    destruct (Z_le_dec (ems t) b) as [L|L].
    + left. split; [|exact L]. intros S. specialize (H3 S).
      assert (b / 65536 < x) by (clearbody x b; lia). unfold x in *. clearbody b. lia.
    + right. split; [lia|]. split; [exact H2|]. intros S. specialize (H3 S). fold x.
      clearbody x b. lia.
Qed.

Lemma G2x_of_G2 : forall i t, G2 b i t -> i <> b / 1024 mod 64 -> G2x cur i t.
Proof. intros i t H NE. unfold G2x. fold b. destruct (Z.eqb_spec i (b / 1024 mod 64)); [contradiction|exact H]. Qed.
Lemma G3e_G3 : forall i t, G3e cur i t -> G3 b i t.
Proof. intros i t [_ H]. exact H. Qed.
Lemma G3e_G3x : forall i t, G3e cur i t -> G3x cur i t.
Proof. intros i t [H1 H2]. unfold G3x. destruct (Z.eqb_spec i ((cur - cur mod 8) / 65536 mod 64)); [contradiction|exact H2]. Qed.

Ltac kunf := change kTick with 8 in *; change kN1 with 128 in *; change kN2 with 64 in *; change kN3 with 64 in *.

Lemma branch1_ok : forall s, WI b0 s -> cur - b0 < 1024 ->
  exists s' l, branch1 tpm (b0 / 8) (cur / 8) cur s = Some (s', l) /\ WI b s' /\ moves cur s [] (s', l).
Proof.
  intros s W HS. unfold branch1. kunf. assert (B := bb).
  destruct W as ((O1 & O2 & O3) & B1 & B2 & B3 & B4).
  destruct (flush_cyc_spec 128 0 (b0 / 8 mod 128) (cur / 8 mod 128) (w1 s) [] O1) as (w & l & E & W' & K & T & P);
    [apply Z.mod_pos_bound; lia|apply Z.mod_pos_bound; lia|left; reflexivity|].
  rewrite E. cbn [app].
  assert (F1 : forall i t, In t (bk w i) -> G1 b i t).
  { intros i t H. rewrite K in H. destruct (cyc _ _ _ i) eqn:C; [destruct H|].
    destruct (B1 i t H) as (H0 & [(H1 & H2)|(H1 & H2)]); (split; [exact H0|]).
    - left. split; [exact H1|lia].
    - right. split; [|exact H2]. split; [|lia].
      destruct (Z_lt_dec b (ems t)) as [L|L]; [exact L|]. exfalso.
      assert (Y : cyc (b0 / 8 mod 128) (cur / 8 mod 128) 128 i = true).
      { apply cyc128; [lia|lia|exact H0|]. exists ((ems t - 1) / 8). split; [|congruence].
        unfold b in L. clear - H1 L b08. lia. }
      congruence. }
  assert (D : Forall (due cur s) l).
  { apply Forall_forall. intros t Ht. destruct (T t Ht) as (j & J1 & J2).
    right. right. destruct (B1 j t J2) as (H0 & [(H1 & H2)|(H1 & H2)]); [lia|].
    apply cyc128 in J1; [|lia|lia|exact H0]. destruct J1 as (x & X1 & X2).
    assert (x = (ems t - 1) / 8) by lia. clear - X1 H. lia. }
  destruct (flush1_moves cur s w l []) as [_ M]. specialize (M P D). cbn [app] in M.
  set (s1 := set_w1 s w) in *.
  assert (E2 : b / 1024 = cur / 1024) by (symmetry; apply cur_div; auto).
  assert (E3 : b / 65536 = cur / 65536) by (symmetry; apply cur_div; auto).
  assert (E4 : b / 4194304 = cur / 4194304) by (symmetry; apply cur_div; auto).
  destruct (Z.ltb_spec (cur / 8 mod 128) (b0 / 8 mod 128)) as [C|C].
  - (* the first wheel starts a new turn *)
    rewrite div8_128.
    assert (X : b0 / 1024 + 1 = b / 1024) by (rewrite E2; clear - C HS blk b00 b08; lia).
    rewrite X.
    assert (Q2 : forall i t, In t (bk (w2 s) i) -> G2x cur i t).
    { intros i t H. apply G2_pass; [lia|apply B2; exact H|intros; lia|lia]. }
    destruct (Z.eq_dec (b / 1024 mod 64) 0) as [Z0|NZ].
    + assert (X3 : b0 / 65536 + 1 = b / 65536) by (clearbody b; clear - X Z0; lia).
      destruct (Fetch1_ok_b cur (G4 b0) (G4 b) s1 l Z0) as [A1 A2].
      * split; [split; [exact W'|split; assumption]|]. split; [exact F1|]. split; [exact Q2|].
        split; [|exact B4]. intros i t H. apply G3_pass; [lia|apply B3; exact H|intros; lia|lia].
      * apply G4_far.
      * intros NZ t. apply G4_same. intros _. fold b in NZ. clearbody b. clear - X3 NZ. lia.
      * intros t H. exact H.
      * fold b in A1, A2. destruct (Fetch1 tpm (b / 1024) cur s1 l) as [s2 l2].
        exists s2, l2. split; [reflexivity|]. split.
        -- eapply WP_weaken; [| | | |exact A1]; intros; try assumption. apply G3e_G3. assumption.
        -- eapply moves_trans; [exact M|exact A2].
    + assert (X3 : b / 65536 = b0 / 65536) by (clearbody b; clear - X NZ; lia).
      destruct (Fetch1_ok_a cur (G3 b) (G4 b) s1 l NZ) as [A1 A2].
      * split; [split; [exact W'|split; assumption]|]. split; [exact F1|]. split; [exact Q2|].
        split; intros.
        -- apply G3_same; [exact X3|apply B3; assumption].
        -- apply G4_same; [intros _; clearbody b; clear - X3; lia|apply B4; assumption].
      * fold b in A1, A2. destruct (Fetch1 tpm (b / 1024) cur s1 l) as [s2 l2].
        exists s2, l2. split; [reflexivity|]. split; [exact A1|].
        eapply moves_trans; [exact M|exact A2].
  - assert (X : b / 1024 = b0 / 1024) by (rewrite E2; clear - C HS blk b00 b08; lia).
    exists s1, l. split; [reflexivity|]. split; [|exact M].
    split; [split; [exact W'|split; assumption]|]. split; [exact F1|]. split; [|split]; intros.
    + apply G2_same; [exact X|apply B2; assumption].
    + apply G3_same; [clearbody b; clear - X; lia|apply B3; assumption].
    + apply G4_same; [intros _; clearbody b; clear - X; lia|apply B4; assumption].
Qed.

(** Flushing a whole wheel. *)
Lemma flush_w1 : forall s, wok 128 (w1 s) -> (forall i t, In t (bk (w1 s) i) -> ems t <= cur) ->
  exists w l, flush_all 128 (w1 s) [] = Some (w, l) /\ wok 128 w /\ (forall i, bk w i = [])
    /\ moves cur s [] (set_w1 s w, l).
Proof.
  intros s O H. destruct (flush_all_spec 128 (w1 s) [] O) as (w & l & E & W & K & T & P); [lia|].
  exists w, l. split; [exact E|]. split; [exact W|]. split; [exact K|].
  destruct (flush1_moves cur s w l []) as [_ M]. apply M; [exact P|].
  apply Forall_forall. intros t Ht. destruct (T t Ht) as (j & J). right. right. exact (H j t J).
Qed.
Lemma flush_w2 : forall s pend, wok 64 (w2 s) -> (forall i t, In t (bk (w2 s) i) -> ems t <= cur) ->
  exists w l, flush_all 64 (w2 s) pend = Some (w, l) /\ wok 64 w /\ (forall i, bk w i = [])
    /\ moves cur s pend (set_w2 s w, l).
Proof.
  intros s pend O H. destruct (flush_all_spec 64 (w2 s) pend O) as (w & l & E & W & K & T & P); [lia|].
  exists w, (pend ++ l). split; [exact E|]. split; [exact W|]. split; [exact K|].
  apply flush2_moves; [exact P|].
  apply Forall_forall. intros t Ht. destruct (T t Ht) as (j & J). right. right. exact (H j t J).
Qed.
Lemma flush_w3 : forall s pend, wok 64 (w3 s) -> (forall i t, In t (bk (w3 s) i) -> ems t <= cur) ->
  exists w l, flush_all 64 (w3 s) pend = Some (w, l) /\ wok 64 w /\ (forall i, bk w i = [])
    /\ moves cur s pend (set_w3 s w, l).
Proof.
  intros s pend O H. destruct (flush_all_spec 64 (w3 s) pend O) as (w & l & E & W & K & T & P); [lia|].
  exists w, (pend ++ l). split; [exact E|]. split; [exact W|]. split; [exact K|].
  apply flush3_moves; [exact P|].
  apply Forall_forall. intros t Ht. destruct (T t Ht) as (j & J). right. right. exact (H j t J).
Qed.

Lemma branch2_ok : forall s, WI b0 s -> 1024 <= cur - b0 < 65536 -> (~ st \/ noskip) -> (st \/ ~ st) ->
  exists s' l, branch2 tpm (b0 / 8) (cur / 8) cur s = Some (s', l) /\ WI b s' /\ moves cur s [] (s', l).
Proof.
  intros s W HS SK DEC. unfold branch2. kunf. assert (B := bb).
  destruct W as ((O1 & O2 & O3) & B1 & B2 & B3 & B4).
  destruct (flush_w1 s O1) as (w & l & E & W' & K & M).
  { intros i t H. destruct (B1 i t H) as (_ & [(_ & H2)|(H2 & _)]); lia. }
  rewrite E. cbn [set_w1 w2].
  assert (E2 : b / 1024 = cur / 1024) by (symmetry; apply cur_div; auto).
  assert (E3 : b / 65536 = cur / 65536) by (symmetry; apply cur_div; auto).
  assert (E4 : b / 4194304 = cur / 4194304) by (symmetry; apply cur_div; auto).
  rewrite !div8_128, div1024_64, <- E2.
  assert (R2 : b0 / 1024 + 1 <= b / 1024 <= b0 / 1024 + 64) by (rewrite E2; clear - HS b00 b08 blk; lia).
  destruct (Z.eqb_spec (b0 / 1024) (b / 1024)) as [C|_]; [lia|].
  assert (F : exists w' l', (if b0 / 1024 + 1 =? b / 1024 then Some (w2 s, l)
      else flush_cyc 64 1 ((b0 / 1024 + 1) mod 64) (b / 1024 mod 64) (w2 s) l) = Some (w', l')
      /\ wok 64 w' /\ (forall i t, In t (bk w' i) -> G2x cur i t)
      /\ moves cur (set_w1 s w) l (set_w2 (set_w1 s w) w', l')).
  { destruct (Z.eqb_spec (b0 / 1024 + 1) (b / 1024)) as [C|C].
    - exists (w2 s), l. split; [reflexivity|]. split; [exact O2|]. split.
      + intros i t H. apply G2_pass; [lia|apply B2; exact H|intros; lia|lia].
      + destruct s. apply moves_refl.
    - destruct (flush_cyc_spec 64 1 ((b0 / 1024 + 1) mod 64) (b / 1024 mod 64) (w2 s) l O2)
        as (w' & l' & E' & W2 & K' & T' & P');
        [apply Z.mod_pos_bound; lia|apply Z.mod_pos_bound; lia|right; reflexivity|].
      exists w', (l ++ l'). split; [exact E'|]. split; [exact W2|]. split.
      + intros i t H. rewrite K' in H. destruct (cyc _ _ _ i) eqn:CY; [destruct H|].
        apply G2_pass; [lia|apply B2; exact H| |lia].
        intros x Hx Hxi. assert (Y : cyc ((b0 / 1024 + 1) mod 64) (b / 1024 mod 64) 64 i = true).
        { apply cyc64; [lia|lia| |exists x; tauto]. subst i. apply Z.mod_pos_bound. lia. }
        congruence.
      + apply (flush2_moves cur (set_w1 s w) w' l' l); [exact P'|].
        apply Forall_forall. intros t Ht. destruct (T' t Ht) as (j & J1 & J2).
        right. right. destruct (B2 j t J2) as (H1 & H2 & H3).
        apply cyc64 in J1; [|lia|lia|subst j; apply Z.mod_pos_bound; lia].
        destruct J1 as (x & X1 & X2).
        assert (X3 : (ems t - 1) / 1024 <= b0 / 1024 + 64) by (clear - H2 b08; lia).
        assert (x = (ems t - 1) / 1024) by (clear - X1 X2 X3 H1 H3 R2; lia).
        rewrite E2 in X1. clear - X1 H. lia. }
  destruct F as (w' & l' & EF & W2 & Q2 & M2). rewrite EF.
  assert (MM := moves_trans cur s [] _ _ M M2).
  set (s1 := set_w2 (set_w1 s w) w') in *.
  assert (F1 : forall i t, In t (bk w i) -> G1 b i t) by (intros i t H; rewrite K in H; destruct H).
  destruct (Z.eq_dec (b / 1024 mod 64) 0) as [Z0|NZ].
  - (* the new block of the second wheel starts a block of the third *)
    assert (X3 : b0 / 65536 + 1 = b / 65536).
    { rewrite <- (div1024_64 b0), <- (div1024_64 b). clear - R2 Z0. clearbody b. lia. }
    destruct (Fetch1_ok_b cur (G4 b0) (G4 b) s1 l' Z0) as [A1 A2].
    + split; [split; [exact W'|split; assumption]|]. split; [exact F1|]. split; [exact Q2|].
      split; [|exact B4]. intros i t H. apply G3_pass; [lia|apply B3; exact H|intros; lia|lia].
    + apply G4_far.
    + intros NZ t. apply G4_same. intros _. fold b in NZ. clearbody b. clear - X3 NZ. lia.
    + intros t H. exact H.
    + fold b in A1, A2. destruct (Fetch1 tpm (b / 1024) cur s1 l') as [s2 l2].
      assert (M3 := moves_trans cur s [] _ _ MM A2). cbn [fst] in A1.
      destruct (b / 1024 mod 64 <? (b0 / 1024 + 1) mod 64).
      * rewrite X3.
        destruct (Fetch2_ok cur (G2 b) (G4 b) (G4 b) s2 l2) as [A3 A4].
        -- eapply WP_weaken; [| | | |exact A1]; intros; try assumption. apply G3e_G3x. assumption.
        -- apply G4_far.
        -- intros; assumption.
        -- intros; assumption.
        -- intros; assumption.
        -- fold b in A3, A4. destruct (Fetch2 tpm (b / 65536) cur s2 l2) as [s3 l3].
           exists s3, l3. split; [reflexivity|]. split.
           ++ eapply WP_weaken; [| | | |exact A3]; intros; try assumption. apply G3e_G3. assumption.
           ++ eapply moves_trans; [exact M3|exact A4].
      * exists s2, l2. split; [reflexivity|]. split; [|exact M3].
        eapply WP_weaken; [| | | |exact A1]; intros; try assumption. apply G3e_G3. assumption.
  - destruct (Z.ltb_spec (b / 1024 mod 64) ((b0 / 1024 + 1) mod 64)) as [C|C].
    + (* the second wheel starts a new turn *)
      assert (X3 : b0 / 65536 + 1 = b / 65536).
      { rewrite <- (div1024_64 b0), <- (div1024_64 b). clear - R2 C. clearbody b. lia. }
      destruct (Fetch1_ok_a cur (G3x cur) (G4 b0) s1 l' NZ) as [A1 A2].
      * split; [split; [exact W'|split; assumption]|]. split; [exact F1|]. split; [exact Q2|].
        split; [|exact B4]. intros i t H. apply G3_pass; [lia|apply B3; exact H|intros; lia|lia].
      * fold b in A1, A2. destruct (Fetch1 tpm (b / 1024) cur s1 l') as [s2 l2]. cbn [fst] in A1.
        rewrite X3.
        destruct (Fetch2_ok cur (G2 b) (G4 b0) (G4 b) s2 l2) as [A3 A4].
        -- exact A1.
        -- apply G4_far.
        -- intros; assumption.
        -- intros NZ3 t. apply G4_same. intros _. fold b in NZ3. clearbody b. clear - X3 NZ3. lia.
        -- intros; assumption.
        -- fold b in A3, A4. destruct (Fetch2 tpm (b / 65536) cur s2 l2) as [s3 l3].
           exists s3, l3. split; [reflexivity|]. split.
           ++ eapply WP_weaken; [| | | |exact A3]; intros; try assumption. apply G3e_G3. assumption.
           ++ eapply moves_trans; [exact MM|]. eapply moves_trans; [exact A2|exact A4].
    + (* same block of the third wheel, or a fetch is left out *)
      assert (X3 : b / 65536 = b0 / 65536 \/ ~ st).
      { destruct DEC as [S|S]; [|right; exact S]. left. destruct SK as [SK|[SK _]]; [contradiction|].
        rewrite <- (div1024_64 b0), <- (div1024_64 b). rewrite <- E2 in SK.
        clear - R2 C SK NZ HS. clearbody b. lia. }
      destruct (Fetch1_ok_a cur (G3 b) (G4 b) s1 l' NZ) as [A1 A2].
      * split; [split; [exact W'|split; assumption]|]. split; [exact F1|]. split; [exact Q2|].
        split; intros.
        -- destruct X3 as [X3|X3]; [apply G3_same|apply G3_loose]; try exact X3; apply B3; assumption.
        -- apply G4_same; [|apply B4; assumption]. intros S. destruct X3 as [X3|X3]; [|contradiction].
           clearbody b; clear - X3; lia.
      * fold b in A1, A2. destruct (Fetch1 tpm (b / 1024) cur s1 l') as [s2 l2].
        exists s2, l2. split; [reflexivity|]. split; [exact A1|].
        eapply moves_trans; [exact MM|exact A2].
Qed.

Lemma branch3_ok : forall s, WI b0 s -> 65536 <= cur - b0 < 4194304 -> (~ st \/ noskip) -> (st \/ ~ st) ->
  exists s' l, branch3 tpm (b0 / 8) (cur / 8) cur s = Some (s', l) /\ WI b s' /\ moves cur s [] (s', l).
Proof.
  intros s W HS SK DEC. unfold branch3. kunf. assert (B := bb).
  destruct W as ((O1 & O2 & O3) & B1 & B2 & B3 & B4).
  destruct (flush_w1 s O1) as (w & l & E & W' & K & M).
  { intros i t H. destruct (B1 i t H) as (_ & [(_ & H2)|(H2 & _)]); lia. }
  rewrite E. cbn [set_w1 w2].
  destruct (flush_w2 (set_w1 s w) l O2) as (wb & lb & Eb & Wb & Kb & Mb).
  { intros i t H. destruct (B2 i t H) as (_ & H2 & _). lia. }
  cbn [set_w1 w2] in Eb. rewrite Eb. cbn [set_w2 set_w1 w3].
  assert (Mc := moves_trans cur s [] _ _ M Mb). clear M Mb. rename Mc into M.
  assert (E3 : b / 65536 = cur / 65536) by (symmetry; apply cur_div; auto).
  assert (E4 : b / 4194304 = cur / 4194304) by (symmetry; apply cur_div; auto).
  rewrite !div8_128, !div1024_64, <- E3.
  assert (R3 : b0 / 65536 + 1 <= b / 65536 <= b0 / 65536 + 64) by (rewrite E3; clear - HS b00 b08 blk; lia).
  destruct (Z.eqb_spec (b0 / 65536) (b / 65536)) as [C|_]; [lia|].
  destruct (flush_cyc_spec 64 1 ((b0 / 65536 + 1) mod 64) (b / 65536 mod 64) (w3 s) lb O3)
    as (w' & l' & E' & W3 & K' & T' & P');
    [apply Z.mod_pos_bound; lia|apply Z.mod_pos_bound; lia|right; reflexivity|].
  rewrite E'.
  set (s0 := set_w2 (set_w1 s w) wb) in *.
  assert (M2 : moves cur s0 lb (set_w3 s0 w', lb ++ l')).
  { apply flush3_moves; [exact P'|].
    apply Forall_forall. intros t Ht. destruct (T' t Ht) as (j & J1 & J2).
    right. right. destruct (B3 j t J2) as (H0 & [(H1 & H2)|(H1 & H2 & H3)]); [lia|].
    apply cyc64 in J1; [|lia|lia|exact H0].
    destruct J1 as (x & X1 & X2).
    assert (X3 : b0 / 65536 <= (ems t - 1) / 65536 <= b0 / 65536 + 64) by (clear - H1 b08; lia).
    assert (x = (ems t - 1) / 65536) by (clear - X1 X2 X3 H2 R3; lia).
    rewrite E3 in X1. clear - X1 H. lia. }
  assert (MM := moves_trans cur s [] _ _ M M2).
  assert (F1 : forall i t, In t (bk w i) -> G1 b i t) by (intros i t H; rewrite K in H; destruct H).
  assert (F2 : forall i t, In t (bk wb i) -> G2 b i t) by (intros i t H; rewrite Kb in H; destruct H).
  assert (Q3 : forall i t, In t (bk w' i) -> G3x cur i t).
  { intros i t H. rewrite K' in H. destruct (cyc _ _ _ i) eqn:CY; [destruct H|].
    apply G3_pass; [lia|apply B3; exact H| |lia].
    intros x Hx Hxi. assert (Y : cyc ((b0 / 65536 + 1) mod 64) (b / 65536 mod 64) 64 i = true).
    { apply cyc64; [lia|lia| |exists x; tauto]. subst i. apply Z.mod_pos_bound. lia. }
    congruence. }
  assert (WX : WP (G1 b) (G2 b) (G3x cur) (G4 b0) (set_w3 s0 w')).
  { split; [split; [exact W'|split; assumption]|]. split; [exact F1|]. split; [exact F2|]. split; [exact Q3|exact B4]. }
  destruct (Z.ltb_spec (b / 65536 mod 64) ((b0 / 65536 + 1) mod 64)) as [C|C].
  - destruct (Fetch2_ok cur (G2 b) (G4 b0) far (set_w3 s0 w') (lb ++ l')) as [A1 A2].
    + exact WX.
    + apply G4_far.
    + intros; assumption.
    + intros _. apply G4_far.
    + apply G4_far.
    + fold b in A1, A2. destruct (Fetch2 tpm (b / 65536) cur (set_w3 s0 w') (lb ++ l')) as [s2 l2]. cbn [fst] in A1.
      destruct (Fetch3_ok cur (G2 b) (G3 b) far s2 l2) as [A3 A4].
      * eapply WP_weaken; [| | | |exact A1]; intros; try assumption. apply G3e_G3. assumption.
      * intros; assumption.
      * intros; assumption.
      * intros; assumption.
      * fold b in A3. destruct (Fetch3 tpm cur s2 l2) as [s3 l3]. exists s3, l3. split; [reflexivity|].
        split; [exact A3|]. eapply moves_trans; [exact MM|]. eapply moves_trans; [exact A2|exact A4].
  - destruct (Fetch2_ok cur (G2 b) (G4 b0) (G4 b) (set_w3 s0 w') (lb ++ l')) as [A1 A2].
    + exact WX.
    + apply G4_far.
    + intros; assumption.
    + intros NZ t. fold b in NZ. apply G4_same. intros S. destruct SK as [SK|[_ SK]]; [contradiction|].
      rewrite <- E3 in SK.
      assert (X : b / 65536 / 64 = b0 / 65536 / 64) by (clear - R3 C SK NZ HS; clearbody b; lia).
      rewrite !Z.div_div in X by lia. exact X.
    + intros; assumption.
    + fold b in A1, A2. destruct (Fetch2 tpm (b / 65536) cur (set_w3 s0 w') (lb ++ l')) as [s2 l2]. cbn [fst] in A1.
      exists s2, l2. split; [reflexivity|]. split.
      * eapply WP_weaken; [| | | |exact A1]; intros; try assumption. apply G3e_G3. assumption.
      * eapply moves_trans; [exact MM|exact A2].
Qed.

Lemma branch4_ok : forall s, WI b0 s -> 4194304 <= cur - b0 ->
  exists s' l, branch4 tpm cur s = Some (s', l) /\ WI b s' /\ moves cur s [] (s', l).
Proof.
  intros s W HS. unfold branch4. kunf. assert (B := bb).
  destruct W as ((O1 & O2 & O3) & B1 & B2 & B3 & B4).
  destruct (flush_w1 s O1) as (w & l & E & W' & K & M).
  { intros i t H. destruct (B1 i t H) as (_ & [(_ & H2)|(H2 & _)]); lia. }
  rewrite E.
  destruct (flush_w2 (set_w1 s w) l O2) as (wb & lb & Eb & Wb & Kb & Mb).
  { intros i t H. destruct (B2 i t H) as (_ & H2 & _). lia. }
  cbn [set_w1 w2] in Eb. rewrite Eb.
  destruct (flush_w3 (set_w2 (set_w1 s w) wb) lb O3) as (wc & lc & Ec & Wc & Kc & Mc).
  { intros i t H. destruct (B3 i t H) as (_ & [(_ & H2)|(H2 & _)]); lia. }
  cbn [set_w2 set_w1 w3] in Ec. rewrite Ec.
  assert (MM := moves_trans cur s [] _ _ (moves_trans cur s [] _ _ M Mb) Mc).
  set (s0 := set_w3 (set_w2 (set_w1 s w) wb) wc) in *.
  destruct (Fetch3_ok cur (G2 b) (G3 b) far s0 lc) as [A3 A4].
  - split; [split; [exact W'|split; assumption]|]. split; [|split; [|split]].
    + intros i t H. cbn in H. rewrite K in H. destruct H.
    + intros i t H. cbn in H. rewrite Kb in H. destruct H.
    + intros i t H. cbn in H. rewrite Kc in H. destruct H.
    + intros t H. eapply G4_far. apply B4. exact H.
  - intros; assumption.
  - intros; assumption.
  - intros; assumption.
  - fold b in A3. destruct (Fetch3 tpm cur s0 lc) as [s3 l3]. exists s3, l3. split; [reflexivity|].
    split; [exact A3|]. eapply moves_trans; [exact MM|exact A4].
Qed.
End Branch.
End Inv.
