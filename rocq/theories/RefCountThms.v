(** C40: destroyed once, freed once, never resurrected. *)
From Coq Require Import Lia Bool List Arith.
From Verif Require Import Slots SlotsProofs RefCountModel.
Import ListNotations.

(** * Specification: who holds what *)
Definition is_strong (a : agent) : bool := match a with Strong => true | _ => false end.
Definition is_weak (a : agent) : bool := match a with Weak | Trying _ => true | _ => false end.
Definition is_gone (a : agent) : bool := match a with Gone => true | _ => false end.
Definition strongs (s : st) : nat := length (filter is_strong (agents s)).
Definition weaks (s : st) : nat := length (filter is_weak (agents s)).
(** Somebody still works on the object: it is being destroyed or released. *)
Definition all_gone (s : st) : Prop := forall a, In a (agents s) -> a = Gone.

(** * Invariant *)
Definition is_dtor (a : agent) : bool := match a with Dtor => true | _ => false end.
Definition is_drop (a : agent) : bool := match a with DropWeak => true | _ => false end.
Definition is_free (a : agent) : bool := match a with Freeing => true | _ => false end.
Fixpoint cnt (f : agent -> bool) (l : list agent) : nat := match l with [] => 0 | a :: r => (if f a then 1 else 0) + cnt f r end.
Definition one (f : agent -> bool) (a : agent) : nat := if f a then 1 else 0.

Definition Inv (s : st) : Prop :=
  let S := cnt is_strong (agents s) in let W := cnt is_weak (agents s) in
  let R := cnt is_dtor (agents s) in let P := cnt is_drop (agents s) in let F := cnt is_free (agents s) in
  ref s = S /\ bad s = false /\
  (forall c, In (Trying c) (agents s) -> 0 < c) /\
  (forall r d, In (r, d) (gets s) -> r = true -> d = 0) /\
  ((0 < S /\ dtors s = 0 /\ R = 0 /\ P = 0 /\ F = 0 /\ frees s = 0 /\ weak s = W + 1) \/
   (S = 0 /\ R + dtors s = 1 /\ P <= dtors s /\ weak s = W + R + P /\
    ((0 < weak s /\ F = 0 /\ frees s = 0) \/ (weak s = 0 /\ F + frees s = 1)))).

Lemma cnt_set : forall f l i a, i < length l -> cnt f (set l i a) + one f (nth i l Gone) = cnt f l + one f a.
Proof.
  intros f. unfold one. induction l as [|y l IH]; intros [|i] a H; cbn [length] in H; try lia.
  - cbn. lia.
  - cbn. specialize (IH i a). lia.
Qed.
Lemma cnt_app : forall f a b, cnt f (a ++ b) = cnt f a + cnt f b.
Proof. induction a as [|x a IH]; intros b; cbn; auto. rewrite IH. lia. Qed.
Lemma cnt_length : forall f l, cnt f l = length (filter f l).
Proof. induction l as [|x l IH]; cbn; auto. destruct (f x); cbn; rewrite IH; reflexivity. Qed.
Lemma in_set : forall A (l : list A) i x y, In y (set l i x) -> y = x \/ In y l.
Proof.
  induction l as [|z l IH]; intros [|i] x y H; cbn in *; auto.
  - destruct H; auto.
  - destruct H as [|H]; auto. apply IH in H. tauto.
Qed.
Lemma at_lt : forall s i, at_ s i <> Gone -> i < length (agents s).
Proof. intros s i H. destruct (Nat.ltb_spec i (length (agents s))); [assumption|]. exfalso. apply H. apply nth_overflow. assumption. Qed.
Lemma at_in : forall s i, i < length (agents s) -> In (at_ s i) (agents s).
Proof. intros s i H. apply nth_In. exact H. Qed.
Lemma cnt_in : forall f l a, In a l -> f a = true -> 0 < cnt f l.
Proof. induction l as [|x l IH]; intros a [] F; cbn; [subst; rewrite F; lia|]. specialize (IH a H F). lia. Qed.

Lemma upd_try : forall s i a new, (forall c, In (Trying c) (agents s) -> 0 < c) ->
  (forall c, a = Trying c -> 0 < c) -> (forall c, ~ In (Trying c) new) ->
  forall c, In (Trying c) (upd s i a new) -> 0 < c.
Proof.
  intros s i a new H A N c I. unfold upd in I. apply in_app_or in I as [I|I]; [|destruct (N c I)].
  apply in_set in I as [I|I]; [symmetry in I; eauto|eauto].
Qed.

Ltac counts s i a new L A :=
  pose proof (cnt_set is_strong (agents s) i a L); pose proof (cnt_set is_weak (agents s) i a L);
  pose proof (cnt_set is_dtor (agents s) i a L); pose proof (cnt_set is_drop (agents s) i a L);
  pose proof (cnt_set is_free (agents s) i a L); unfold at_ in A; rewrite A in *; unfold one in *.
Ltac fin := unfold upd; rewrite ?cnt_app; cbn [cnt is_strong is_weak is_dtor is_drop is_free] in *.

Lemma step_Inv : forall i x s, Inv s -> Inv (step i x s).
Proof.
  intros i x s I. unfold step. pose proof (at_lt s i) as L. destruct (at_ s i) eqn:A.
  all: match type of L with Gone <> Gone -> _ => exact I | _ => specialize (L ltac:(discriminate)) end.
  all: destruct I as (I1 & I2 & I3 & I4 & I5).
  all: assert (T : touched s = false -> touched s = false) by auto.
  all: assert (HI : In (at_ s i) (agents s)) by (apply at_in; exact L); rewrite A in HI.
  - (* Strong *)
    pose proof (cnt_in is_strong _ _ HI eq_refl) as C. destruct I5 as [I5|I5]; [|lia].
    assert (Tc : touched s = false) by (unfold touched; rewrite I2; cbn [orb]; apply Nat.ltb_ge; lia).
    destruct x.
    + counts s i Strong [Strong] L A. unfold Inv; cbn [ref weak agents dtors frees bad gets]. fin. split; [lia|]. split; [exact Tc|].
      split; [apply upd_try; [exact I3|discriminate|]; intros c [|[]]; discriminate|]. split; [exact I4|]. left. lia.
    + counts s i Strong [Weak] L A. unfold Inv; cbn [ref weak agents dtors frees bad gets]. fin. split; [lia|]. split; [exact Tc|].
      split; [apply upd_try; [exact I3|discriminate|]; intros c [|[]]; discriminate|]. split; [exact I4|]. left. lia.
    + unfold Inv; cbn [ref weak agents dtors frees bad gets]. split; [exact I1|]. split; [rewrite Tc; cbn [orb]; apply Nat.ltb_ge; lia|].
      split; [exact I3|]. split; [exact I4|]. left. lia.
    + destruct (Nat.eqb_spec (ref s - 1) 0) as [Z|Z].
      * counts s i Dtor (@nil agent) L A. unfold Inv; cbn [ref weak agents dtors frees bad gets]. fin. split; [lia|]. split; [exact Tc|].
        split; [apply upd_try; [exact I3|discriminate|]; intros c []|]. split; [exact I4|]. right. lia.
      * counts s i Gone (@nil agent) L A. unfold Inv; cbn [ref weak agents dtors frees bad gets]. fin. split; [lia|]. split; [exact Tc|].
        split; [apply upd_try; [exact I3|discriminate|]; intros c []|]. split; [exact I4|]. left. lia.
    + unfold Inv. tauto.
  - (* Weak *)
    pose proof (cnt_in is_weak _ _ HI eq_refl) as C.
    assert (Tc : touched s = false) by (unfold touched; rewrite I2; cbn [orb]; apply Nat.ltb_ge; lia).
    assert (N : Inv (ST (ref s) (S (weak s)) (upd s i Weak [Weak]) (dtors s) (frees s) (touched s) (gets s))).
    { counts s i Weak [Weak] L A. unfold Inv; cbn [ref weak agents dtors frees bad gets]. fin. split; [lia|]. split; [exact Tc|].
      split; [apply upd_try; [exact I3|discriminate|]; intros c [|[]]; discriminate|]. split; [exact I4|]. lia. }
    destruct x; [exact N|exact N|unfold Inv; tauto| |]; clear N.
    + destruct (Nat.eqb_spec (weak s - 1) 0) as [Z|Z].
      * counts s i Freeing (@nil agent) L A. unfold Inv; cbn [ref weak agents dtors frees bad gets]. fin. split; [lia|]. split; [exact Tc|].
        split; [apply upd_try; [exact I3|discriminate|]; intros c []|]. split; [exact I4|]. lia.
      * counts s i Gone (@nil agent) L A. unfold Inv; cbn [ref weak agents dtors frees bad gets]. fin. split; [lia|]. split; [exact Tc|].
        split; [apply upd_try; [exact I3|discriminate|]; intros c []|]. split; [exact I4|]. lia.
    + destruct (Nat.eqb_spec (ref s) 0) as [Z|Z].
      * unfold Inv; cbn [ref weak agents dtors frees bad gets]. split; [exact I1|]. split; [exact Tc|]. split; [exact I3|].
        split; [|exact I5]. intros r d [E|E] R; [congruence|eauto].
      * counts s i (Trying (ref s)) (@nil agent) L A. unfold Inv; cbn [ref weak agents dtors frees bad gets]. fin. split; [lia|]. split; [exact Tc|].
        split; [apply upd_try; [exact I3| |]; [intros c E; injection E as <-; lia|intros c []]|]. split; [exact I4|]. lia.
  - (* Trying *)
    pose proof (cnt_in is_weak _ _ HI eq_refl) as C.
    assert (Tc : touched s = false) by (unfold touched; rewrite I2; cbn [orb]; apply Nat.ltb_ge; lia).
    pose proof (I3 _ HI) as Cp. destruct (Nat.eqb_spec (ref s) cur) as [E|E].
    + counts s i Weak [Strong] L A. unfold Inv; cbn [ref weak agents dtors frees bad gets]. fin. split; [lia|]. split; [exact Tc|].
      split; [apply upd_try; [exact I3|discriminate|]; intros c [|[]]; discriminate|]. split; [|lia].
      intros r d [X|X] R; [injection X as <- <-; lia|eauto].
    + destruct (Nat.eqb_spec (ref s) 0) as [Z|Z].
      * counts s i Weak (@nil agent) L A. unfold Inv; cbn [ref weak agents dtors frees bad gets]. fin. split; [lia|]. split; [exact Tc|].
        split; [apply upd_try; [exact I3|discriminate|]; intros c []|]. split; [|lia]. intros r d [X|X] R; [congruence|eauto].
      * counts s i (Trying (ref s)) (@nil agent) L A. unfold Inv; cbn [ref weak agents dtors frees bad gets]. fin. split; [lia|]. split; [exact Tc|].
        split; [apply upd_try; [exact I3| |]; [intros c X; injection X as <-; lia|intros c []]|]. split; [exact I4|]. lia.
  - (* Dtor *)
    pose proof (cnt_in is_dtor _ _ HI eq_refl) as C.
    assert (Tc : touched s = false) by (unfold touched; rewrite I2; cbn [orb]; apply Nat.ltb_ge; lia).
    counts s i DropWeak (@nil agent) L A. unfold Inv; cbn [ref weak agents dtors frees bad gets]. fin. split; [lia|]. split; [exact Tc|].
    split; [apply upd_try; [exact I3|discriminate|]; intros c []|]. split; [exact I4|]. lia.
  - (* DropWeak *)
    pose proof (cnt_in is_drop _ _ HI eq_refl) as C.
    assert (Tc : touched s = false) by (unfold touched; rewrite I2; cbn [orb]; apply Nat.ltb_ge; lia).
    destruct (Nat.eqb_spec (weak s - 1) 0) as [Z|Z].
    + counts s i Freeing (@nil agent) L A. unfold Inv; cbn [ref weak agents dtors frees bad gets]. fin. split; [lia|]. split; [exact Tc|].
      split; [apply upd_try; [exact I3|discriminate|]; intros c []|]. split; [exact I4|]. lia.
    + counts s i Gone (@nil agent) L A. unfold Inv; cbn [ref weak agents dtors frees bad gets]. fin. split; [lia|]. split; [exact Tc|].
      split; [apply upd_try; [exact I3|discriminate|]; intros c []|]. split; [exact I4|]. lia.
  - (* Freeing *)
    pose proof (cnt_in is_free _ _ HI eq_refl) as C.
    assert (Tc : touched s = false) by (unfold touched; rewrite I2; cbn [orb]; apply Nat.ltb_ge; lia).
    counts s i Gone (@nil agent) L A. unfold Inv; cbn [ref weak agents dtors frees bad gets]. fin. split; [lia|]. split; [exact Tc|].
    split; [apply upd_try; [exact I3|discriminate|]; intros c []|]. split; [exact I4|]. lia.
Qed.

Lemma run_Inv : forall l s, Inv s -> Inv (run l s).
Proof. unfold run. induction l as [|[i x] l IH]; intros s I; cbn [fold_left fst snd]; [exact I|]. apply IH, step_Inv, I. Qed.
Lemma init_Inv : Inv init.
Proof.
  unfold Inv, init; cbn. split; [reflexivity|]. split; [reflexivity|]. split; [intros c [|[]]; discriminate|]. split; [intros r d []|]. left. lia.
Qed.
Lemma run_init : forall l, Inv (run l init). Proof. intros l. apply run_Inv, init_Inv. Qed.

(** Memory is never used after Free, the object never after its destructor started. *)
Theorem C40_no_use_after_free : forall l, bad (run l init) = false.
Proof. intros l. apply (run_init l). Qed.
Print Assumptions C40_no_use_after_free.

(** The destructor has run at most once, and not while a strong holder exists; Free has run at
    most once, and not while a strong or weak holder exists; the strong count is the number of
    strong holders. *)
Theorem C40_at_most_once : forall l, let s := run l init in
  ref s = strongs s /\ dtors s <= 1 /\ frees s <= 1 /\
  (0 < strongs s -> dtors s = 0) /\ (0 < strongs s + weaks s -> frees s = 0).
Proof.
  intros l s. pose proof (run_init l) as (I1 & _ & _ & _ & I5). fold s in I1, I5. unfold strongs, weaks. rewrite <- !cnt_length.
  split; [exact I1|]. lia.
Qed.
Print Assumptions C40_at_most_once.

(** When everybody is gone the destructor and Free have run exactly once. *)
Theorem C40_exactly_once : forall l, let s := run l init in all_gone s -> dtors s = 1 /\ frees s = 1.
Proof.
  intros l s G. pose proof (run_init l) as (I1 & _ & _ & _ & I5). fold s in I1, I5.
  assert (Z : forall f, f Gone = false -> cnt f (agents s) = 0).
  { intros f F. unfold all_gone in G. clear - G F. induction (agents s) as [|a r IH]; cbn; [reflexivity|].
    rewrite (G a (or_introl eq_refl)), F. cbn. apply IH. intros b B. apply G. right. exact B. }
  rewrite !Z in I5 by reflexivity. lia.
Qed.
Print Assumptions C40_exactly_once.

(** WeakPtr::Get gives a strong pointer only before the destructor starts. *)
Theorem C40_get_before_dtor : forall l d, In (true, d) (gets (run l init)) -> d = 0.
Proof. intros l d H. pose proof (run_init l) as (_ & _ & _ & I4 & _). eapply I4; eauto. Qed.
Print Assumptions C40_get_before_dtor.

(** Once the last strong holder has left there is never a strong holder again. *)
Theorem C40_no_resurrection : forall l m, strongs (run l init) = 0 -> strongs (run (l ++ m) init) = 0.
Proof.
  intros l m H. unfold run. rewrite fold_left_app. fold (run l init). change (strongs (run m (run l init)) = 0).
  pose proof (run_init l) as I. revert I H. generalize (run l init). clear l.
  induction m as [|[i x] m IH]; intros s I H; [exact H|]. change (strongs (run m (step i x s)) = 0). apply IH; [apply step_Inv, I|].
  unfold strongs in *. rewrite <- cnt_length in *. unfold Inv in I. destruct I as (I1 & _ & I3 & _ & _). unfold step.
  pose proof (at_lt s i) as L. destruct (at_ s i) eqn:A; try exact H.
  all: specialize (L ltac:(discriminate)).
  all: assert (HI : In (at_ s i) (agents s)) by (apply at_in; exact L); rewrite A in HI.
  - pose proof (cnt_in is_strong _ _ HI eq_refl). lia.
  - destruct x; try exact H.
    + counts s i Weak [Weak] L A. cbn [agents]. fin. lia.
    + counts s i Weak [Weak] L A. cbn [agents]. fin. lia.
    + destruct (Nat.eqb (weak s - 1) 0); [counts s i Freeing (@nil agent) L A|counts s i Gone (@nil agent) L A]; cbn [agents]; fin; lia.
    + rewrite (proj2 (Nat.eqb_eq (ref s) 0)) by lia. exact H.
  - pose proof (I3 _ HI). destruct (Nat.eqb_spec (ref s) cur); [lia|]. rewrite (proj2 (Nat.eqb_eq (ref s) 0)) by lia.
    counts s i Weak (@nil agent) L A. cbn [agents]. fin. lia.
  - counts s i DropWeak (@nil agent) L A. cbn [agents]. fin. lia.
  - destruct (Nat.eqb (weak s - 1) 0); [counts s i Freeing (@nil agent) L A|counts s i Gone (@nil agent) L A]; cbn [agents]; fin; lia.
  - counts s i Gone (@nil agent) L A. cbn [agents]. fin. lia.
Qed.
Print Assumptions C40_no_resurrection.

(** After that WeakPtr::Get gives null: a call started afterwards returns at once. *)
Theorem C40_get_null_after : forall l i, let s := run l init in
  strongs s = 0 -> at_ s i = Weak -> gets (step i TryGet s) = (false, dtors s) :: gets s.
Proof.
  intros l i s H A. pose proof (run_init l) as (I1 & _). fold s in I1. unfold strongs in H. rewrite <- cnt_length in H.
  unfold step. rewrite A. rewrite (proj2 (Nat.eqb_eq (ref s) 0)) by lia. reflexivity.
Qed.
Print Assumptions C40_get_null_after.

(** Before that it gives a strong pointer, unless others change the count in between: a call
    that runs undisturbed succeeds. *)
Theorem C40_get_succeeds : forall l i, let s := run l init in
  0 < strongs s -> at_ s i = Weak ->
  let s2 := step i TryGet (step i TryGet s) in gets s2 = (true, dtors s) :: gets s /\ strongs s2 = S (strongs s).
Proof.
  intros l i s H A s2. pose proof (run_init l) as (I1 & _). fold s in I1. pose proof (at_lt s i) as L. rewrite A in L.
  specialize (L ltac:(discriminate)). unfold strongs in *. rewrite <- !cnt_length in *. unfold s2.
  assert (E : step i TryGet s = ST (ref s) (weak s) (upd s i (Trying (ref s)) []) (dtors s) (frees s) (touched s) (gets s)).
  { unfold step. rewrite A. rewrite (proj2 (Nat.eqb_neq (ref s) 0)) by lia. reflexivity. }
  rewrite E. unfold step, at_. cbn [agents]. unfold upd. rewrite app_nil_r.
  assert (N : nth i (set (agents s) i (Trying (ref s))) Gone = Trying (ref s)).
  { erewrite nth_error_nth; [reflexivity|]. apply nth_set_eq, L. }
  rewrite N. cbn [ref gets agents dtors]. rewrite Nat.eqb_refl. cbn [gets agents]. split; [reflexivity|].
  rewrite cnt_app, set_set. cbn [cnt is_strong].
  pose proof (cnt_set is_strong (agents s) i Weak L) as Q. unfold at_ in A. rewrite A in Q. unfold one in Q. cbn [is_strong] in Q. lia.
Qed.
Print Assumptions C40_get_succeeds.

(** A weak holder loads the count, the last strong holder leaves, the exchange fails; the weak
    holder is the last to leave. *)
Definition sched : list (nat * act) :=
  [(0, MakeWeak); (0, CopyStrong); (1, TryGet); (2, Drop); (1, TryGet); (1, TryGet); (3, Use); (0, Drop); (1, TryGet); (3, Drop); (3, Use); (1, TryGet); (3, Use); (1, Drop); (1, Use)].
Example C40_example : let s := run sched init in
  (dtors s, frees s, gets s, agents s) = (1, 1, [(false, 1); (true, 0)], [Gone; Gone; Gone; Gone]).
Proof. vm_compute. reflexivity. Qed.
