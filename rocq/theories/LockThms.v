(** C45: CriticalSection. *)
From Coq Require Import ZArith Lia Bool List.
From Verif Require Import LockModel.
Import ListNotations.
Local Open Scope Z_scope.

(** Two threads hold the lock at the same time. *)
Definition both_hold (s : st) (t u : nat) : Prop := t <> u /\ (0 < depth s t)%nat /\ (0 < depth s u)%nat.

Ltac one := eapply steps_cons; [split; [discriminate|try discriminate; intros _; cbn; lia]|cbn; reflexivity|].
Ltac play := repeat one; apply steps_nil.

(** Mutual exclusion is lost as soon as a thread locks twice: its first Unlock already gives
    the lock away. *)
Theorem C45_exclusion_refuted : exists l s, steps init l s /\ both_hold s 1 2.
Proof.
  exists [(1, CallLock); (1, Go); (1, Go); (1, Go); (1, CallLock); (1, Go); (1, CallUnlock); (1, Go); (1, Go); (1, Go);
             (2, CallLock); (2, Go); (2, Go); (2, Go)]%nat.
  eexists. split; [play|]. split; [discriminate|]. cbn. lia.
Qed.
Print Assumptions C45_exclusion_refuted.

(** No thread locks again while it holds the lock. *)
Inductive flat : st -> list (nat * act) -> Prop :=
| flat_nil : forall s, flat s []
| flat_cons : forall s t a l, (a = CallLock \/ a = CallTryLock -> depth s t = 0%nat) ->
    (forall s', step s t a = Some s' -> flat s' l) -> flat s ((t, a) :: l).

(** * The invariant of flat histories *)
Definition out (p : pc) : Prop := p = Idle \/ p = L2 \/ p = T2.
Definition free (s : st) : Prop :=
  srw s = false /\ owner s = 0%nat /\ (forall t, out (at_ s t) /\ depth s t = 0%nat).
Definition held (h : nat) (s : st) : Prop :=
  h <> 0%nat /\ srw s = true /\ (forall t, t <> h -> out (at_ s t) /\ depth s t = 0%nat) /\
  ((at_ s h = L3 /\ owner s = 0%nat /\ depth s h = 0%nat) \/
   (at_ s h = L4 /\ owner s = h /\ depth s h = 0%nat) \/
   (at_ s h = Idle /\ owner s = h /\ depth s h = 1%nat /\ ref s = 0) \/
   (at_ s h = Idle /\ owner s = h /\ depth s h = 0%nat /\ ref s = 2 ^ 32 - 1) \/
   (at_ s h = L1 /\ owner s = h /\ depth s h = 0%nat /\ ref s = 2 ^ 32 - 1) \/
   (at_ s h = U1 /\ owner s = h /\ depth s h = 0%nat /\ ref s = 2 ^ 32 - 1)).

Lemma upd_eq : forall A (f : nat -> A) t v, upd f t v t = v.
Proof. intros. unfold upd. rewrite Nat.eqb_refl. reflexivity. Qed.
Lemma upd_neq : forall A (f : nat -> A) t u v, u <> t -> upd f t v u = f u.
Proof. intros. unfold upd. destruct (Nat.eqb_spec u t); congruence. Qed.

Lemma out_go : forall f (d : nat -> nat) t p, (forall u, out (f u) /\ d u = 0%nat) -> out p -> forall u, out (upd f t p u) /\ d u = 0%nat.
Proof. intros f d t p H P u. unfold upd. destruct (H u). destruct (Nat.eqb u t); auto. Qed.

Lemma free_step : forall s t a s', free s -> fair_call s t a -> step s t a = Some s' -> free s' \/ held t s'.
Proof.
  intros s t a s' (F1 & F2 & F3) [Nt Fc] S1. destruct (F3 t) as [O D].
  assert (A : forall p, out p -> free (go s t p)).
  { intros p P. unfold free, go; cbn. split; [exact F1|]. split; [exact F2|]. apply out_go; assumption. }
  assert (B : held t (ST true (owner s) (ref s) (upd (at_ s) t L3) (depth s))).
  { unfold held; cbn. split; [exact Nt|]. split; [reflexivity|]. split.
    - intros u Nu. rewrite upd_neq by exact Nu. apply F3.
    - left. rewrite upd_eq. auto. }
  unfold step in S1. destruct a, O as [O|[O|O]]; rewrite O in S1; try discriminate S1; rewrite ?F1 in S1; try (injection S1 as <-).
  - left. rewrite F2. destruct (Nat.eqb_spec 0 t); [congruence|]. apply A. unfold out. auto.
  - left. rewrite F2. destruct (Nat.eqb_spec 0 t); [congruence|]. apply A. unfold out. auto.
  - exfalso. specialize (Fc eq_refl). lia.
  - right. exact B.
  - right. exact B.
Qed.

Lemma held_step : forall h s t a s', held h s -> fair_call s t a ->
  (a = CallLock \/ a = CallTryLock -> depth s t = 0%nat) -> step s t a = Some s' -> held h s'.
Proof.
  intros h s t a s' (Nh & H1 & H2 & H3) [Nt Fc] Fl S1.
  destruct (Nat.eq_dec t h) as [->|N].
  - assert (Others : forall f d p n, f = upd (at_ s) h p -> d = upd (depth s) h n \/ d = depth s ->
      forall u, u <> h -> out (f u) /\ d u = 0%nat).
    { intros f d p n -> Hd u Nu. rewrite upd_neq by exact Nu. destruct (H2 u Nu) as [A B].
      destruct Hd as [-> | ->]; [rewrite upd_neq by exact Nu|]; auto. }
    unfold step in S1.
    destruct H3 as [(E & O & D)|[(E & O & D)|[(E & O & D & R)|[(E & O & D & R)|[(E & O & D & R)|(E & O & D & R)]]]]];
      rewrite E in S1; destruct a; try discriminate S1;
      try (specialize (Fl (or_introl eq_refl)); lia); try (specialize (Fl (or_intror eq_refl)); lia);
      try (specialize (Fc eq_refl); lia); injection S1 as <-;
      (split; [exact Nh|]); (split; [exact H1|]); (split; [first [exact (Others _ _ _ _ eq_refl (or_introl eq_refl))|exact (Others _ _ _ 0%nat eq_refl (or_intror eq_refl))]|]); cbn; rewrite ?upd_eq.
    + right. left. auto.
    + right. right. left. rewrite D. auto.
    + do 5 right. rewrite R, D. auto.
    + rewrite O, Nat.eqb_refl. do 4 right. left. auto.
    + rewrite O, Nat.eqb_refl. do 4 right. left. auto.
    + right. right. left. rewrite R, D. auto.
    + do 3 right. left. rewrite R. auto.
  - destruct (H2 t N) as [O D].
    assert (A : forall p, out p -> held h (go s t p)).
    { intros p P. split; [exact Nh|]. split; [exact H1|]. unfold go; cbn. split.
      - intros u Nu. unfold upd. destruct (Nat.eqb_spec u t) as [->|]; [auto|apply H2, Nu].
      - rewrite upd_neq by congruence. exact H3. }
    unfold step in S1. destruct a, O as [O|[O|O]]; rewrite O in S1; try discriminate S1; rewrite ?H1 in S1; try discriminate S1;
      injection S1 as <-.
    + apply A. assert (owner s <> t) by (destruct H3 as [(_ & -> & _)|[(_ & -> & _)|[(_ & -> & _)|[(_ & -> & _)|[(_ & -> & _)|(_ & -> & _)]]]]]; congruence).
      destruct (Nat.eqb_spec (owner s) t); [congruence|]. unfold out. auto.
    + apply A. assert (owner s <> t) by (destruct H3 as [(_ & -> & _)|[(_ & -> & _)|[(_ & -> & _)|[(_ & -> & _)|[(_ & -> & _)|(_ & -> & _)]]]]]; congruence).
      destruct (Nat.eqb_spec (owner s) t); [congruence|]. unfold out. auto.
    + exfalso. specialize (Fc eq_refl). lia.
    + apply A. unfold out. auto.
Qed.

Lemma held_steps : forall h l s s', held h s -> flat s l -> steps s l s' -> held h s'.
Proof.
  intros h. induction l as [|[t a] l IH]; intros s s' H F S1; inversion S1; subst; [exact H|].
  inversion F; subst. eapply IH; [eapply held_step; eassumption| |eassumption]. auto.
Qed.

Lemma flat_steps : forall l s s', free s -> flat s l -> steps s l s' -> free s' \/ exists h, held h s'.
Proof.
  induction l as [|[t a] l IH]; intros s s' H F S1; inversion S1 as [|? ? ? s1 ? ? Fc St Rest]; subst; [left; exact H|].
  inversion F; subst. destruct (free_step s t a _ H Fc St) as [A|A].
  - eapply IH; [exact A| |eassumption]. auto.
  - right. exists t. eapply held_steps; [exact A| |eassumption]. auto.
Qed.

Lemma init_free : free init.
Proof. split; [reflexivity|]. split; [reflexivity|]. intros t. split; [left; reflexivity|reflexivity]. Qed.

(** Without nesting no two threads hold the lock at the same time. *)
Theorem C45_exclusion_flat_partial : forall l s t u, flat init l -> steps init l s -> ~ both_hold s t u.
Proof.
  intros l s t u F S1 (N & A & B).
  destruct (flat_steps l init s init_free F S1) as [(_ & _ & H)|(h & _ & _ & H & _)].
  - destruct (H t). lia.
  - destruct (Nat.eq_dec t h) as [->|Nh].
    + destruct (H u). congruence. lia.
    + destruct (H t Nh). lia.
Qed.
Print Assumptions C45_exclusion_flat_partial.

(** But then the first thread that ever held the lock keeps it: no other thread gets it,
    whatever the first does (all threads lock and unlock without nesting). *)
Theorem C45_never_released : forall l l' s s' h u, flat init (l ++ l') -> steps init l s -> steps s l' s' ->
  (0 < depth s h)%nat -> u <> h -> depth s' u = 0%nat.
Proof.
  intros l l' s s' h u F S1 S2 D N.
  assert (FF : flat init l /\ flat s l').
  { clear D N S2. revert F S1. generalize init. induction l as [|[t a] l IH]; intros s0 F S1; inversion S1 as [|? ? ? s1 ? ? Fc St Rest]; subst.
    - split; [constructor|exact F].
    - cbn in F. inversion F as [|? ? ? ? Fd Fn]; subst. destruct (IH _ (Fn _ St) Rest) as [A B]. split; [|exact B].
      constructor; [assumption|]. intros s2 E. rewrite St in E. injection E as <-. exact A. }
  destruct FF as [F1 F2].
  destruct (flat_steps l init s init_free F1 S1) as [(_ & _ & H)|(k & H)].
  - destruct (H h). lia.
  - assert (h = k).
    { destruct (Nat.eq_dec h k) as [|Nk]; [assumption|]. destruct H as (_ & _ & H & _). destruct (H h Nk). lia. }
    subst k. pose proof (held_steps h l' s s' H F2 S2) as (_ & _ & H' & _). destruct (H' u N). assumption.
Qed.
Print Assumptions C45_never_released.

(** One Lock and one Unlock leave the lock taken: after them a second thread waits for ever. *)
Theorem C45_release_refuted : exists l s, steps init l s /\ (forall t, depth s t = 0%nat) /\ at_ s 1%nat = Idle /\
  (forall l' s' u, flat s l' -> steps s l' s' -> u <> 1%nat -> depth s' u = 0%nat) /\
  exists s2, steps s [(2%nat, CallLock)] s2 /\ step s2 2%nat Go = None.
Proof.
  exists [(1, CallLock); (1, Go); (1, Go); (1, Go); (1, CallUnlock); (1, Go)]%nat.
  eexists. split; [play|].
  assert (H : held 1 (ST true 1 (2 ^ 32 - 1) (fun u => Idle) (fun u => 0%nat))).
  { split; [discriminate|]. split; [reflexivity|]. split.
    - intros t Nt. split; [left; reflexivity|reflexivity].
    - do 3 right. left. cbn. auto. }
  assert (Eq : forall h s s', held h s -> (forall t, at_ s t = at_ s' t) -> (forall t, depth s t = depth s' t) ->
    srw s = srw s' -> owner s = owner s' -> ref s = ref s' -> held h s').
  { intros h a b (A & B & C & D) E1 E2 E3 E4 E5. unfold held. rewrite <- E3, <- E4, <- E5, <- E1, <- E2.
    split; [exact A|]. split; [exact B|]. split; [|exact D]. intros t Nt. rewrite <- E1, <- E2. apply C, Nt. }
  match goal with |- _ /\ _ /\ _ /\ exists s2, steps ?x _ _ /\ _ => set (sf := x) in * end.
  assert (H' : held 1 sf).
  { eapply Eq; [exact H|..]; try reflexivity; intros [|[|t]]; reflexivity. }
  split; [intros [|[|t]]; reflexivity|]. split; [reflexivity|]. split.
  - intros l' s' u F S2 N. destruct (held_steps 1 l' sf s' H' F S2) as (_ & _ & A & _). apply A, N.
  - eexists. split; [econstructor; [split; [discriminate|discriminate]|reflexivity|constructor]|]. reflexivity.
Qed.
Print Assumptions C45_release_refuted.

(** * Exact behaviour of one thread: [k] successful Lock calls, then [j] Unlock calls *)
Definition lock1 (t : nat) (s : st) : option st :=
  match step s t CallLock with
  | Some s1 => match at_ s1 t with
               | L1 => step s1 t Go
               | _ => match step s1 t Go with
                      | Some s2 => match step s2 t Go with Some s3 => step s3 t Go | None => None end
                      | None => None
                      end
               end
  | None => None
  end.
Definition unlock1 (t : nat) (s : st) : option st :=
  match step s t CallUnlock with
  | Some s1 => match step s1 t Go with
               | Some s2 => match at_ s2 t with
                            | Idle => Some s2
                            | _ => match step s2 t Go with Some s3 => step s3 t Go | None => None end
                            end
               | None => None
               end
  | None => None
  end.
Fixpoint iter (f : st -> option st) (n : nat) (s : st) : option st :=
  match n with O => Some s | S n' => match iter f n' s with Some s' => f s' | None => None end end.

Definition fields (s : st) : bool * nat * Z := (srw s, owner s, ref s).

Arguments upd : simpl never.
Lemma lock_first : forall t s, t <> 0%nat -> at_ s t = Idle -> srw s = false -> owner s = 0%nat ->
  exists s', lock1 t s = Some s' /\ fields s' = (true, t, 0) /\ at_ s' t = Idle.
Proof.
  intros t s Nt E F O. unfold lock1, step. rewrite E, O. destruct (Nat.eqb_spec 0 t); [congruence|]. cbn.
  repeat (rewrite ?upd_eq, ?F; cbn).
  eexists. split; [reflexivity|]. split; [reflexivity|]. cbn. apply upd_eq.
Qed.
Lemma lock_again : forall t s, at_ s t = Idle -> owner s = t ->
  exists s', lock1 t s = Some s' /\ fields s' = (srw s, t, u32 (ref s + 1)) /\ at_ s' t = Idle.
Proof.
  intros t s E O. unfold lock1, step. rewrite E, O, Nat.eqb_refl. cbn. repeat (rewrite ?upd_eq; cbn).
  eexists. split; [reflexivity|]. split; [unfold fields; cbn; rewrite ?O; reflexivity|]. cbn. apply upd_eq.
Qed.
Lemma unlock_keep : forall t s, at_ s t = Idle -> u32 (ref s - 1) <> 0 ->
  exists s', unlock1 t s = Some s' /\ fields s' = (srw s, owner s, u32 (ref s - 1)) /\ at_ s' t = Idle.
Proof.
  intros t s E N. unfold unlock1, step. rewrite E. cbn [at_ go ref srw owner]. rewrite upd_eq.
  destruct (Z.eqb_spec (u32 (ref s - 1)) 0); [congruence|]. cbn [at_ go]. rewrite upd_eq.
  eexists. split; [reflexivity|]. split; [reflexivity|]. cbn. apply upd_eq.
Qed.
Lemma unlock_free : forall t s, at_ s t = Idle -> u32 (ref s - 1) = 0 ->
  exists s', unlock1 t s = Some s' /\ fields s' = (false, 0%nat, 0) /\ at_ s' t = Idle.
Proof.
  intros t s E N. unfold unlock1, step. rewrite E, N. cbn. repeat (rewrite ?upd_eq; cbn).
  eexists. split; [reflexivity|]. split; [reflexivity|]. cbn. apply upd_eq.
Qed.

Lemma fields_inv : forall s a b c, fields s = (a, b, c) -> srw s = a /\ owner s = b /\ ref s = c.
Proof. intros s a b c H. unfold fields in H. inversion H. auto. Qed.
Lemma u32_small : forall z, 0 <= z < 2 ^ 32 -> u32 z = z.
Proof. intros z H. unfold u32. apply Z.mod_small, H. Qed.

(** [k >= 1] Lock calls leave the counter at [k - 1]; [j] Unlock calls after them free the
    lock as soon as [j = k - 1] (when [k >= 2]), that is one call too early. *)
Theorem C45_single_thread_exact : forall t k j, t <> 0%nat -> (1 <= k)%nat -> Z.of_nat k < 2 ^ 32 -> (j < k)%nat ->
  exists s s', iter (lock1 t) k init = Some s /\ iter (unlock1 t) j s = Some s' /\
    fields s = (true, t, Z.of_nat k - 1) /\
    fields s' = (if (Nat.eqb (S j) k && Nat.ltb 1 k)%bool then (false, 0%nat, 0) else (true, t, Z.of_nat k - 1 - Z.of_nat j)).
Proof.
  intros t k j Nt K KB J.
  assert (A : exists s, iter (lock1 t) k init = Some s /\ fields s = (true, t, Z.of_nat k - 1) /\ at_ s t = Idle).
  { clear J j. induction k as [|k IH]; [lia|]. destruct k as [|k].
    - cbn [iter]. destruct (lock_first t init Nt eq_refl eq_refl eq_refl) as (s & -> & F & E). exists s. auto.
    - destruct IH as (s & R & F & E); [lia|lia|]. change (iter (lock1 t) (S (S k)) init) with
        (match iter (lock1 t) (S k) init with Some s' => lock1 t s' | None => None end). rewrite R.
      apply fields_inv in F as (F1 & F2 & F3). destruct (lock_again t s E F2) as (s' & -> & F & E'). exists s'. split; [reflexivity|]. split; [|exact E'].
      rewrite F, F1, F3, u32_small by lia. f_equal. lia. }
  destruct A as (s & R & F & E). exists s.
  assert (B : exists s', iter (unlock1 t) j s = Some s' /\ at_ s' t = Idle /\
    fields s' = (if (Nat.eqb (S j) k && Nat.ltb 1 k)%bool then (false, 0%nat, 0) else (true, t, Z.of_nat k - 1 - Z.of_nat j))).
  { induction j as [|j IH].
    - exists s. split; [reflexivity|]. split; [exact E|]. rewrite F.
      destruct (Nat.eqb_spec 1 k), (Nat.ltb_spec 1 k); cbn [andb]; try lia; f_equal; lia.
    - destruct IH as (s' & R' & E' & F'); [lia|].
      destruct (Nat.eqb_spec (S j) k); [lia|]. cbn [andb] in F'. apply fields_inv in F' as (F1 & F2 & F3).
      cbn [iter]. rewrite R'.
      destruct (Nat.eqb_spec (S (S j)) k) as [Q|Q].
      + destruct (Nat.ltb_spec 1 k); [|lia]. cbn [andb].
        destruct (unlock_free t s' E') as (s2 & -> & F2' & E2); [rewrite F3, u32_small; lia|]. exists s2. auto.
      + cbn [andb]. destruct (unlock_keep t s' E') as (s2 & -> & F2' & E2); [rewrite F3, u32_small; lia|].
        exists s2. split; [reflexivity|]. split; [exact E2|]. rewrite F2', F1, F2, F3, u32_small by lia. f_equal. lia. }
  destruct B as (s' & R' & _ & F'). exists s'. auto.
Qed.
Print Assumptions C45_single_thread_exact.

Example C45_flat_example : exists s, flat init [(1, CallLock); (1, Go); (1, Go); (1, Go); (2, CallTryLock); (2, Go)]%nat /\
  steps init [(1, CallLock); (1, Go); (1, Go); (1, Go); (2, CallTryLock); (2, Go)]%nat s /\ depth s 1%nat = 1%nat /\ depth s 2%nat = 0%nat.
Proof.
  eexists. split.
  - repeat (constructor; [intros _; reflexivity|]; intros ? E; injection E as <-). constructor.
  - split; [play|]. split; reflexivity.
Qed.
