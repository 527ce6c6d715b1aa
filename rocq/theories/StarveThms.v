(** Property theorems C137: tasks that SendTask to other runners come to an end. *)
From Coq Require Import List Bool Arith Lia.
From Verif Require Import Slots SlotsProofs Threads StarveModel.
Import ListNotations.

(** ** Specification *)
(** How many callbacks a task is, with those that it sends and posts. *)
Fixpoint tasks (t : task) : nat :=
  match t with Tk l => S ((fix go l := match l with [] => 0 | a :: l => tasks_a a + go l end) l) end
with tasks_a (a : act) : nat := match a with Send _ t | Post _ t => tasks t end.
Definition tasks_i (i : item) : nat := tasks (fst i).
Definition total (s : list runner) : nat := suml (fun x => suml tasks_i (queue x)) s.

(** Nothing has happened yet. *)
Definition fresh (s : list runner) : Prop :=
  forall x, In x s -> now x = Off /\ forall i, In i (queue x) -> snd i = None.
(** Tasks of runner [r] SendTask only to [r] itself and to runners of a higher rank. *)
Inductive fine (n : nat) (rank : nat -> nat) : nat -> task -> Prop :=
| fine_tk : forall r l,
    (forall r' t, In (Send r' t) l -> r' < n /\ (r' = r \/ rank r < rank r') /\ fine n rank r' t) ->
    (forall r' t, In (Post r' t) l -> r' < n /\ fine n rank r' t) -> fine n rank r (Tk l).
Definition ordered (rank : nat -> nat) (s : list runner) : Prop :=
  forall r x i, nth_error s r = Some x -> In i (queue x) -> fine (length s) rank r (fst i).
(** All is done: the queues are empty, only thread runners still have their threads. *)
Definition finished (s : list runner) : Prop :=
  forall x, In x s -> queue x = [] /\ now x = if fixd x then Idle else Off.
(** Nobody can go on. *)
Definition stuck (M : nat) (s : list runner) : Prop := forall r, step M s r = None.

(** ** Sums *)
Definition acts (l : list act) : nat := suml tasks_a l.
Lemma tasks_eq : forall l, tasks (Tk l) = S (acts l).
Proof. intros l. cbn. f_equal. induction l as [|a l IH]; [reflexivity|]. cbn. rewrite IH. reflexivity. Qed.
Fixpoint wt (t : task) : nat :=
  match t with Tk l => 2 + ((fix go l := match l with [] => 0 | a :: l => wt_a a + go l end) l) end
with wt_a (a : act) : nat := match a with Send _ t | Post _ t => 3 + wt t end.
Definition wt_i (i : item) : nat := wt (fst i).
Definition wts (l : list act) : nat := suml wt_a l.
Lemma wt_eq : forall l, wt (Tk l) = 2 + wts l.
Proof. intros l. cbn. do 2 f_equal. induction l as [|a l IH]; [reflexivity|]. cbn. rewrite IH. reflexivity. Qed.
Lemma ti_eq : forall t w, tasks_i (t, w) = tasks t. Proof. reflexivity. Qed.
Lemma wi_eq : forall t w, wt_i (t, w) = wt t. Proof. reflexivity. Qed.
Lemma ta_send : forall r t, tasks_a (Send r t) = tasks t. Proof. reflexivity. Qed.
Lemma ta_post : forall r t, tasks_a (Post r t) = tasks t. Proof. reflexivity. Qed.
Lemma wa_send : forall r t, wt_a (Send r t) = 3 + wt t. Proof. reflexivity. Qed.
Lemma wa_post : forall r t, wt_a (Post r t) = 3 + wt t. Proof. reflexivity. Qed.
Lemma suml_app : forall A (f : A -> nat) l m, suml f (l ++ m) = suml f l + suml f m.
Proof. intros A f l m. induction l; cbn; lia. Qed.

Definition busy (m : mode) : nat := match m with Run l _ | Wait l _ => acts l | _ => 0 end.
Definition left_ (x : runner) : nat := suml tasks_i (queue x) + busy (now x).
Lemma left_def : forall x, left_ x = suml tasks_i (queue x) + busy (now x).
Proof. reflexivity. Qed.
Definition pot (x : runner) : nat :=
  suml wt_i (queue x) +
  match now x with
  | Off => if fixd x then 2 else match queue x with [] => 0 | _ => 2 end
  | Idle => 1
  | Run l _ | Wait l _ => 2 + wts l
  end.
Lemma pot_def : forall x, pot x = suml wt_i (queue x) +
  match now x with
  | Off => if fixd x then 2 else match queue x with [] => 0 | _ => 2 end
  | Idle => 1
  | Run l _ | Wait l _ => 2 + wts l
  end.
Proof. reflexivity. Qed.
(** An upper bound for the number of steps. *)
Definition bound (s : list runner) : nat := suml pot s.

Lemma wake_sum : forall f s w, (forall b q l w', f (Rn b q (Wait l w')) = f (Rn b q (Run l w'))) -> suml f (wake s w) = suml f s.
Proof.
  intros f s [r|] H; [|reflexivity]. cbn. destruct (nth_error s r) as [[b q [| |l w|l w]]|] eqn:E; try reflexivity.
  pose proof (suml_set _ f s r _ (Rn b q (Run l w)) E) as S. rewrite H in S. cbn in *. lia.
Qed.
Lemma enq_sum : forall f s r i x, nth_error s r = Some x ->
  suml f (enqueue s r i) + f x = suml f s + f (Rn (fixd x) (queue x ++ [i]) (now x)).
Proof. intros f s r i x H. unfold enqueue. rewrite H. apply suml_set. exact H. Qed.

Lemma left_step : forall M s r s' k, step M s r = Some (s', k) -> suml left_ s' + k = suml left_ s.
Proof.
  intros M s r s' k H. unfold step in H. destruct (nth_error s r) as [[b q m]|] eqn:E; [|discriminate]. cbn [now queue fixd] in H.
  pose proof (fun y => suml_set _ left_ s r _ y E) as S.
  destruct m as [| |[|[r' [l]|r' t] rest] w|rest w]; [destruct q as [|i q]|destruct q as [|[[l] w] q]| | | |discriminate].
  - destruct b; [|discriminate]. cbn [andb] in H. destruct (threads s <? M); [|discriminate]. injection H as <- <-. specialize (S (Rn true [] Idle)). rewrite !left_def in S. cbn [queue now suml busy fst] in S. lia.
  - destruct (threads s <? M); [|discriminate]. injection H as <- <-. specialize (S (Rn b (i :: q) Idle)). rewrite !left_def in S. cbn [queue now suml busy fst] in S. lia.
  - destruct b; [discriminate|]. injection H as <- <-. specialize (S (Rn false [] Off)). rewrite !left_def in S. cbn [queue now suml busy fst] in S. lia.
  - injection H as <- <-. specialize (S (Rn b q (Run l w))). rewrite !left_def in S. cbn [queue now suml busy] in S. rewrite ti_eq, tasks_eq in S. lia.
  - injection H as <- <-. rewrite wake_sum by reflexivity. specialize (S (Rn b q Idle)). rewrite !left_def in S. cbn [queue now suml busy fst] in S. unfold acts in S. cbn [suml] in S. lia.
  - destruct (Nat.eqb_spec r' r) as [->|N].
    + injection H as <- <-. specialize (S (Rn b q (Run (l ++ rest) w))). rewrite !left_def in S. cbn [queue now busy] in S.
      unfold acts in S. rewrite suml_app in S. cbn [suml] in S. rewrite ?ta_send, ?ta_post in S. rewrite tasks_eq in S. unfold acts in S. lia.
    + destruct (nth_error s r') as [y|] eqn:E'; [|discriminate]. injection H as <- <-.
      specialize (S (Rn b q (Wait rest w))). rewrite !left_def in S. cbn [queue now busy] in S. unfold acts in S. cbn [suml] in S. rewrite ?ta_send, ?ta_post in S.
      assert (E2 : nth_error (set s r (Rn b q (Wait rest w))) r' = Some y) by (rewrite nth_set_neq by congruence; exact E').
      pose proof (enq_sum left_ _ r' (Tk l, Some r) y E2) as S2. rewrite !left_def in S2. cbn [queue now] in S2. rewrite suml_app in S2. cbn [suml] in S2. rewrite ?ti_eq in S2. lia.
  - destruct (nth_error s r') as [y0|] eqn:E'; [|discriminate]. injection H as <- <-.
    specialize (S (Rn b q (Run rest w))). rewrite !left_def in S. cbn [queue now busy] in S. unfold acts in S. cbn [suml] in S. rewrite ?ta_send, ?ta_post in S.
    assert (E2 : exists y, nth_error (set s r (Rn b q (Run rest w))) r' = Some y).
    { destruct (nth_error (set s r (Rn b q (Run rest w))) r') eqn:E2; [eauto|]. apply nth_error_None in E2. rewrite set_length in E2.
      assert (r' < length s) by (apply nth_error_Some; congruence). lia. }
    destruct E2 as (y & E2). pose proof (enq_sum left_ _ r' (t, None) y E2) as S2. rewrite !left_def in S2. cbn [queue now] in S2. rewrite suml_app in S2. cbn [suml] in S2. rewrite ?ti_eq in S2. lia.
Qed.

Lemma pot_push : forall x i, pot (Rn (fixd x) (queue x ++ [i]) (now x)) <= pot x + wt_i i + 2.
Proof.
  intros [b q m] i. unfold pot. cbn [queue now fixd]. rewrite suml_app. cbn [suml]. destruct m; try lia.
  destruct b; [lia|]. destruct q; cbn; lia.
Qed.

Lemma pot_step : forall M s r s' k, step M s r = Some (s', k) -> bound s' < bound s.
Proof.
  intros M s r s' k H. unfold bound. unfold step in H. destruct (nth_error s r) as [[b q m]|] eqn:E; [|discriminate]. cbn [now queue fixd] in H.
  pose proof (fun y => suml_set _ pot s r _ y E) as S.
  destruct m as [| |[|[r' [l]|r' t] rest] w|rest w]; [destruct q as [|i q]|destruct q as [|[[l] w] q]| | | |discriminate].
  - destruct b; [|discriminate]. cbn [andb] in H. destruct (threads s <? M); [|discriminate]. injection H as <- <-. specialize (S (Rn true [] Idle)). rewrite !pot_def in S. cbn [queue now fixd suml fst wts] in S. lia.
  - destruct (threads s <? M); [|discriminate]. injection H as <- <-. specialize (S (Rn b (i :: q) Idle)). rewrite !pot_def in S. cbn [queue now fixd] in S. destruct b; lia.
  - destruct b; [discriminate|]. injection H as <- <-. specialize (S (Rn false [] Off)). rewrite !pot_def in S. cbn [queue now fixd suml fst wts] in S. lia.
  - injection H as <- <-. specialize (S (Rn b q (Run l w))). rewrite !pot_def in S. cbn [queue now suml] in S. rewrite wi_eq, wt_eq in S. lia.
  - injection H as <- <-. rewrite wake_sum by reflexivity. specialize (S (Rn b q Idle)). rewrite !pot_def in S. cbn [queue now fixd suml fst] in S. unfold wts in S. cbn [suml] in S. lia.
  - destruct (Nat.eqb_spec r' r) as [->|N].
    + injection H as <- <-. specialize (S (Rn b q (Run (l ++ rest) w))). rewrite !pot_def in S. cbn [queue now] in S.
      unfold wts in S. rewrite suml_app in S. cbn [suml] in S. rewrite ?wa_send, ?wa_post in S. rewrite wt_eq in S. unfold wts in S. lia.
    + destruct (nth_error s r') as [y|] eqn:E'; [|discriminate]. injection H as <- <-.
      specialize (S (Rn b q (Wait rest w))). rewrite !pot_def in S. cbn [queue now] in S. unfold wts in S. cbn [suml] in S. rewrite ?wa_send, ?wa_post in S.
      assert (E2 : nth_error (set s r (Rn b q (Wait rest w))) r' = Some y) by (rewrite nth_set_neq by congruence; exact E').
      pose proof (enq_sum pot _ r' (Tk l, Some r) y E2) as S2. pose proof (pot_push y (Tk l, Some r)) as P. rewrite wi_eq in P. lia.
  - destruct (nth_error s r') as [y0|] eqn:E'; [|discriminate]. injection H as <- <-.
    specialize (S (Rn b q (Run rest w))). rewrite !pot_def in S. cbn [queue now] in S. unfold wts in S. cbn [suml] in S. rewrite ?wa_send, ?wa_post in S.
    assert (E2 : exists y, nth_error (set s r (Rn b q (Run rest w))) r' = Some y).
    { destruct (nth_error (set s r (Rn b q (Run rest w))) r') eqn:E2; [eauto|]. apply nth_error_None in E2. rewrite set_length in E2.
      assert (r' < length s) by (apply nth_error_Some; congruence). lia. }
    destruct E2 as (y & E2). pose proof (enq_sum pot _ r' (t, None) y E2) as S2. pose proof (pot_push y (t, None)) as P. rewrite wi_eq in P. lia.
Qed.

(** Whatever the schedule: a run has no more steps than [bound] says, so every run ends. *)
Theorem C137_ends : forall M l s s' k, run M s l = Some (s', k) -> length l + bound s' <= bound s.
Proof.
  induction l as [|r l IH]; intros s s' k H; cbn in H.
  - injection H as <- <-. cbn. lia.
  - destruct (step M s r) as [[s1 k1]|] eqn:E; [|discriminate]. destruct (run M s1 l) as [[s2 k2]|] eqn:E2; [|discriminate].
    injection H as <- <-. pose proof (pot_step _ _ _ _ _ E). pose proof (IH _ _ _ E2). cbn [length]. lia.
Qed.

(** ** Progress *)
Definition fines (n : nat) (rank : nat -> nat) (r : nat) (l : list act) : Prop := fine n rank r (Tk l).
Record Inv (rank : nat -> nat) (s : list runner) : Prop := {
  i_q : ordered rank s;
  i_m : forall r x l w, nth_error s r = Some x -> now x = Run l w \/ now x = Wait l w -> fines (length s) rank r l;
  i_w : forall r x l w, nth_error s r = Some x -> now x = Wait l w ->
    exists r' y, nth_error s r' = Some y /\ rank r < rank r' /\
      ((exists t, In (t, Some r) (queue y)) \/ exists l', now y = Run l' (Some r) \/ now y = Wait l' (Some r))
}.

Lemma fine_app : forall n rank r l m, fines n rank r l -> fines n rank r m -> fines n rank r (l ++ m).
Proof.
  intros n rank r l m H K. inversion H as [r0 l0 A B]; subst. inversion K as [r1 l1 A' B']; subst.
  constructor; intros r' t Hin; apply in_app_or in Hin; destruct Hin; eauto.
Qed.
Lemma fine_tail : forall n rank r a l, fines n rank r (a :: l) -> fines n rank r l.
Proof. intros n rank r a l H. inversion H as [r0 l0 A B]; subst. constructor; intros r' t Hin; [apply A|apply B]; right; exact Hin. Qed.

Lemma inv_fresh : forall rank s, fresh s -> ordered rank s -> Inv rank s.
Proof.
  intros rank s F O. constructor; [exact O| |]; intros r x l w H E; apply nth_error_In in H; destruct (F x H) as [F1 _]; [destruct E|]; congruence.
Qed.

(** What one step does to any runner: its queue loses at most the item that it starts, and
    what it does changes only if it is the acting one or is woken. *)
Lemma in_set_len : forall (s : list runner) r x y, nth_error s r = Some x -> nth_error (set s r y) r = Some y.
Proof. intros s r x y H. apply nth_set_eq. apply nth_error_Some. congruence. Qed.

Lemma nth_wake : forall s w j y, nth_error (wake s w) j = Some y ->
  nth_error s j = Some y \/
  exists b q l w', w = Some j /\ nth_error s j = Some (Rn b q (Wait l w')) /\ y = Rn b q (Run l w').
Proof.
  intros s [r|] j y H; [|auto]. cbn in H. destruct (nth_error s r) as [[b q [| |l w|l w]]|] eqn:E; auto.
  apply nth_set in H. destruct H as [[-> ->]|[N H]]; [|auto]. right. exists b, q, l, w. auto.
Qed.
Lemma wake_nth : forall s w j x, nth_error s j = Some x ->
  exists y, nth_error (wake s w) j = Some y /\ queue y = queue x /\
    ((now y = now x /\ (w = Some j -> forall l w', now x <> Wait l w')) \/ exists l w', w = Some j /\ now x = Wait l w' /\ now y = Run l w').
Proof.
  intros s w j x H. destruct w as [r|].
  - destruct (Nat.eq_dec r j) as [->|N].
    + unfold wake. rewrite H. destruct x as [b q m]. destruct m as [| |l w|l w].
      1-3: (eexists; split; [exact H|]; split; [reflexivity|]; left; split; [reflexivity|]; intros; cbn; discriminate).
      eexists. split; [eapply in_set_len; exact H|]. split; [reflexivity|]. right. exists l, w. auto.
    + exists x. split; [|split; [reflexivity|left; split; [reflexivity|intros E; congruence]]].
      unfold wake. destruct (nth_error s r) as [[b q [| |l w|l w]]|]; cbn [now]; try exact H. rewrite nth_set_neq by exact N. exact H.
  - exists x. split; [exact H|]. split; [reflexivity|]. left. split; [reflexivity|discriminate].
Qed.
Lemma nth_enq : forall s r i j y, nth_error (enqueue s r i) j = Some y ->
  exists x, nth_error s j = Some x /\ now y = now x /\ fixd y = fixd x /\ (queue y = queue x \/ (r = j /\ queue y = queue x ++ [i])).
Proof.
  intros s r i j y H. unfold enqueue in H. destruct (nth_error s r) as [x|] eqn:E; [|exists y; auto 9].
  apply nth_set in H. destruct H as [[-> ->]|[N H]]; [|exists y; auto 9]. exists x. cbn. auto 9.
Qed.
Lemma enq_nth : forall s r i j x, nth_error s j = Some x ->
  exists y, nth_error (enqueue s r i) j = Some y /\ now y = now x /\ (forall k, In k (queue x) -> In k (queue y)) /\ (r = j -> In i (queue y)).
Proof.
  intros s r i j x H. unfold enqueue. destruct (Nat.eq_dec r j) as [->|N].
  - rewrite H. eexists. split; [eapply in_set_len; exact H|]. cbn. split; [reflexivity|].
    split; intros; apply in_or_app; [left; assumption|right; left; reflexivity].
  - exists x. split; [|split; [reflexivity|split; [auto|congruence]]].
    destruct (nth_error s r); [rewrite nth_set_neq by exact N|]; exact H.
Qed.
Lemma len_wake : forall s w, length (wake s w) = length s.
Proof. intros s [r|]; [|reflexivity]. cbn. destruct (nth_error s r) as [[b q [| |l w|l w]]|]; try reflexivity. apply set_length. Qed.
Lemma len_enq : forall s r i, length (enqueue s r i) = length s.
Proof. intros s r i. unfold enqueue. destruct (nth_error s r); [apply set_length|reflexivity]. Qed.

Lemma step_len : forall M s r s' k, step M s r = Some (s', k) -> length s' = length s.
Proof.
  intros M s r s' k H. unfold step in H. destruct (nth_error s r) as [[b q m]|]; [|discriminate]. cbn [now queue fixd] in H.
  destruct m as [| |[|[r' [l]|r' t] rest] w|rest w]; [destruct q as [|i q]|destruct q as [|[[l] w] q]| | | |discriminate].
  - destruct (b && (threads s <? M)); [|discriminate]. injection H as <- <-. apply set_length.
  - destruct (threads s <? M); [|discriminate]. injection H as <- <-. apply set_length.
  - destruct b; [discriminate|]. injection H as <- <-. apply set_length.
  - injection H as <- <-. apply set_length.
  - injection H as <- <-. rewrite len_wake. apply set_length.
  - destruct (r' =? r); [injection H as <- <-; apply set_length|]. destruct (nth_error s r'); [|discriminate]. injection H as <- <-. rewrite len_enq. apply set_length.
  - destruct (nth_error s r'); [|discriminate]. injection H as <- <-. rewrite len_enq. apply set_length.
Qed.

Lemma inv_set : forall rank s r x y, Inv rank s -> nth_error s r = Some x ->
  (forall i, In i (queue y) -> In i (queue x)) ->
  (forall l w, now y = Run l w \/ now y = Wait l w -> fines (length s) rank r l) ->
  (forall l w, now y <> Wait l w) ->
  (forall q, ((exists t, In (t, Some q) (queue x)) \/ exists l, now x = Run l (Some q) \/ now x = Wait l (Some q)) ->
     ((exists t, In (t, Some q) (queue y)) \/ exists l, now y = Run l (Some q) \/ now y = Wait l (Some q))) ->
  Inv rank (set s r y).
Proof.
  intros rank s r x y [IQ IM IW] H HQ HM HW HS. constructor.
  - intros j z i Hj Hi. rewrite set_length. apply nth_set in Hj. destruct Hj as [[-> ->]|[N Hj]]; [eapply IQ; [exact H|auto]|eapply IQ; eauto].
  - intros j z l w Hj E. rewrite set_length. apply nth_set in Hj. destruct Hj as [[-> ->]|[N Hj]]; [eapply HM; exact E|eapply IM; eauto].
  - intros j z l w Hj E. apply nth_set in Hj. destruct Hj as [[-> ->]|[N Hj]]; [destruct (HW _ _ E)|].
    destruct (IW j z l w Hj E) as (r' & y' & Hr' & R & S). destruct (Nat.eq_dec r r') as [->|N'].
    + exists r', y. split; [eapply in_set_len; exact H|]. split; [exact R|]. apply HS. replace x with y' by congruence. exact S.
    + exists r', y'. split; [rewrite nth_set_neq by exact N'; exact Hr'|]. auto.
Qed.

Lemma inv_step : forall rank M s r s' k, Inv rank s -> step M s r = Some (s', k) -> Inv rank s'.
Proof.
  intros rank M s r s' k I H. pose proof I as [IQ IM IW].
  unfold step in H. destruct (nth_error s r) as [[b q m]|] eqn:E; [|discriminate]. cbn [now queue fixd] in H.
  destruct m as [| |[|[r' [l]|r' t] rest] w|rest w]; [destruct q as [|i q]|destruct q as [|[[l] w] q]| | | |discriminate].
  - destruct (b && (threads s <? M)); [|discriminate]. injection H as <- <-.
    eapply inv_set; [exact I|exact E|cbn; auto|cbn; intros l w [?|?]; discriminate|cbn; discriminate|].
    cbn. intros j [(t & [])|(l & [?|?])]; discriminate.
  - destruct (threads s <? M); [|discriminate]. injection H as <- <-.
    eapply inv_set; [exact I|exact E|cbn; auto|cbn; intros l w [?|?]; discriminate|cbn; discriminate|].
    cbn. intros j [Hj|(l & [?|?])]; [left; exact Hj|discriminate|discriminate].
  - destruct b; [discriminate|]. injection H as <- <-.
    eapply inv_set; [exact I|exact E|cbn; auto|cbn; intros l w [?|?]; discriminate|cbn; discriminate|].
    cbn. intros j [(t & [])|(l & [?|?])]; discriminate.
  - injection H as <- <-.
    eapply inv_set; [exact I|exact E|cbn; auto| |cbn; discriminate|].
    + cbn. intros l' w' [X|X]; [injection X as <- <-|discriminate]. exact (IQ r _ (Tk l, w) E (or_introl eq_refl)).
    + cbn. intros j [(t & [X|X])|(l' & [?|?])]; [|left; eauto|discriminate|discriminate]. right. exists l. left. congruence.
  - injection H as <- <-. set (s1 := set s r (Rn b q Idle)).
    assert (NW : forall j x, nth_error s1 j = Some x -> (forall l w', now x <> Wait l w') \/ (j <> r /\ nth_error s j = Some x)).
    { intros j x Hj. apply nth_set in Hj. destruct Hj as [[-> ->]|[N Hj]]; [left; cbn; discriminate|right; auto]. }
    constructor.
    + intros j z i Hj Hi. rewrite len_wake. unfold s1. rewrite set_length.
      assert (Hz : exists x, nth_error s1 j = Some x /\ queue z = queue x).
      { apply nth_wake in Hj. destruct Hj as [Hj|(b' & q' & l' & w' & _ & Hj & ->)]; eexists; split; [exact Hj|reflexivity|exact Hj|reflexivity]. }
      destruct Hz as (x & Hx & Eq). rewrite Eq in Hi. apply nth_set in Hx. destruct Hx as [[-> ->]|[N Hx]]; [exact (IQ j _ i E Hi)|exact (IQ j x i Hx Hi)].
    + intros j z l' w' Hj Ez. rewrite len_wake. unfold s1. rewrite set_length.
      apply nth_wake in Hj. destruct Hj as [Hj|(b' & q' & l2 & w2 & _ & Hj & ->)].
      * destruct (NW _ _ Hj) as [X|[N Hj']]; [|exact (IM j z l' w' Hj' Ez)].
        apply nth_set in Hj. destruct Hj as [[-> ->]|[N Hj]]; [cbn in Ez; destruct Ez; discriminate|exact (IM j z l' w' Hj Ez)].
      * destruct (NW _ _ Hj) as [X|[N Hj']]; [destruct (X _ _ eq_refl)|].
        cbn in Ez. destruct Ez as [Ez|Ez]; [injection Ez as <- <-|discriminate]. exact (IM j _ l2 w2 Hj' (or_intror eq_refl)).
    + intros j z l' w' Hj Ez.
      assert (WJ : w <> Some j /\ j <> r /\ nth_error s j = Some z).
      { pose proof Hj as Hj2. apply nth_wake in Hj. destruct Hj as [Hj|(b' & q' & l2 & w2 & _ & Hj & ->)]; [|cbn in Ez; discriminate].
        destruct (NW _ _ Hj) as [X|[N Hj']]; [destruct (X _ _ Ez)|]. split; [|auto]. intros ->.
        destruct (wake_nth s1 (Some j) j z Hj) as (y & Hy & _ & [[En X]|(l3 & w3 & _ & _ & En)]).
        - destruct (X eq_refl _ _ Ez).
        - rewrite Hj2 in Hy. injection Hy as <-. congruence. }
      destruct WJ as (NWj & Njr & Hz).
      destruct (IW j z l' w' Hz Ez) as (r1 & y1 & Hr1 & R & S).
      assert (Hx : exists x, nth_error s1 r1 = Some x /\ ((exists t, In (t, Some j) (queue x)) \/ exists l0, now x = Run l0 (Some j) \/ now x = Wait l0 (Some j))).
      { destruct (Nat.eq_dec r r1) as [<-|N1].
        - exists (Rn b q Idle). split; [eapply in_set_len; exact E|]. rewrite E in Hr1. injection Hr1 as <-. cbn in *.
          destruct S as [S|(l0 & [S|S])]; [left; exact S| |discriminate]. injection S as _ S. congruence.
        - exists y1. split; [unfold s1; rewrite nth_set_neq by exact N1; exact Hr1|exact S]. }
      destruct Hx as (x & Hx & S'). destruct (wake_nth s1 w r1 x Hx) as (y & Hy & Eq & En).
      exists r1, y. split; [exact Hy|]. split; [exact R|]. rewrite Eq. destruct S' as [S'|(l0 & S')]; [left; exact S'|right].
      destruct En as [[En _]|(l3 & w3 & _ & En1 & En2)]; [rewrite En; exists l0; exact S'|].
      exists l3. left. rewrite En2. destruct S' as [S'|S']; congruence.
  - destruct (Nat.eqb_spec r' r) as [->|N].
    + injection H as <- <-.
      eapply inv_set; [exact I|exact E|cbn; auto| |cbn; discriminate|].
      * cbn. intros l' w' [X|X]; [injection X as <- <-|discriminate].
        pose proof (IM r _ _ _ E (or_introl eq_refl)) as F. apply fine_app; [|eapply fine_tail; exact F].
        inversion F as [r0 l0 A B]; subst. destruct (A r (Tk l) (or_introl eq_refl)) as (_ & _ & G). exact G.
      * cbn. intros j [Hj|(l' & [X|X])]; [left; exact Hj|right|discriminate]. exists (l ++ rest). left. congruence.
    + destruct (nth_error s r') as [y|] eqn:E'; [|discriminate]. injection H as <- <-.
      set (s1 := set s r (Rn b q (Wait rest w))).
      assert (F : fines (length s) rank r (Send r' (Tk l) :: rest)) by exact (IM r _ _ _ E (or_introl eq_refl)).
      assert (G : rank r < rank r' /\ fine (length s) rank r' (Tk l)).
      { inversion F as [r0 l0 A B]; subst. destruct (A r' (Tk l) (or_introl eq_refl)) as (_ & [X|X] & G); [congruence|auto]. }
      destruct G as [GR GF].
      constructor.
      * intros j z i Hj Hi. rewrite len_enq. unfold s1. rewrite set_length. apply nth_enq in Hj. destruct Hj as (x & Hx & _ & _ & Eq).
        assert (OLD : In i (queue x) -> fine (length s) rank j (fst i)).
        { intros Hi'. apply nth_set in Hx. destruct Hx as [[-> ->]|[N' Hx]]; [exact (IQ j _ i E Hi')|exact (IQ j x i Hx Hi')]. }
        destruct Eq as [Eq|[-> Eq]]; rewrite Eq in Hi; [auto|]. apply in_app_or in Hi. destruct Hi as [Hi|[<-|[]]]; [auto|exact GF].
      * intros j z l' w' Hj Ez. rewrite len_enq. unfold s1. rewrite set_length. apply nth_enq in Hj. destruct Hj as (x & Hx & En & _ & _).
        rewrite En in Ez. apply nth_set in Hx. destruct Hx as [[-> ->]|[N' Hx]]; [|exact (IM j x l' w' Hx Ez)].
        cbn in Ez. destruct Ez as [Ez|Ez]; [discriminate|]. injection Ez as <- <-. eapply fine_tail. exact F.
      * intros j z l' w' Hj Ez. apply nth_enq in Hj. destruct Hj as (x & Hx & En & _ & _). rewrite En in Ez.
        apply nth_set in Hx. destruct Hx as [[<- ->]|[N' Hx]].
        -- assert (Hy : nth_error s1 r' = Some y) by (unfold s1; rewrite nth_set_neq by congruence; exact E').
           destruct (enq_nth s1 r' (Tk l, Some r) r' y Hy) as (y2 & Hy2 & _ & _ & Hin).
           exists r', y2. split; [exact Hy2|]. split; [exact GR|]. left. exists (Tk l). auto.
        -- destruct (IW j x l' w' Hx Ez) as (r1 & y1 & Hr1 & R & S).
           assert (Hx1 : exists x1, nth_error s1 r1 = Some x1 /\ ((exists t, In (t, Some j) (queue x1)) \/ exists l0, now x1 = Run l0 (Some j) \/ now x1 = Wait l0 (Some j))).
           { destruct (Nat.eq_dec r r1) as [<-|N1].
             - exists (Rn b q (Wait rest w)). split; [eapply in_set_len; exact E|]. rewrite E in Hr1. injection Hr1 as <-. cbn in *.
               destruct S as [S|(l0 & [S|S])]; [left; exact S| |discriminate]. right. exists rest. right. congruence.
             - exists y1. split; [unfold s1; rewrite nth_set_neq by exact N1; exact Hr1|exact S]. }
           destruct Hx1 as (x1 & Hx1 & S1). destruct (enq_nth s1 r' (Tk l, Some r) r1 x1 Hx1) as (y2 & Hy2 & En2 & Hq2 & _).
           exists r1, y2. split; [exact Hy2|]. split; [exact R|]. rewrite En2. destruct S1 as [(t & S1)|S1]; [left; eauto|right; exact S1].
  - destruct (nth_error s r') as [y0|] eqn:E'; [|discriminate]. injection H as <- <-.
    set (s1 := set s r (Rn b q (Run rest w))).
    assert (F : fines (length s) rank r (Post r' t :: rest)) by exact (IM r _ _ _ E (or_introl eq_refl)).
    assert (I1 : Inv rank s1).
    { eapply inv_set; [exact I|exact E|cbn; auto| |cbn; discriminate|].
      - cbn. intros l' w' [X|X]; [injection X as <- <-|discriminate]. eapply fine_tail. exact F.
      - cbn. intros j [Hj|(l' & [X|X])]; [left; exact Hj|right|discriminate]. exists rest. left. congruence. }
    assert (GF : fine (length s) rank r' t).
    { inversion F as [r0 l0 A B]; subst. destruct (B r' t (or_introl eq_refl)) as (_ & G). exact G. }
    assert (L1 : length s1 = length s) by apply set_length.
    destruct I1 as [IQ1 IM1 IW1]. constructor.
    + intros j z i Hj Hi. rewrite len_enq. apply nth_enq in Hj. destruct Hj as (x & Hx & _ & _ & Eq).
      destruct Eq as [Eq|[-> Eq]]; rewrite Eq in Hi; [exact (IQ1 j x i Hx Hi)|]. apply in_app_or in Hi. destruct Hi as [Hi|[<-|[]]]; [exact (IQ1 j x i Hx Hi)|].
      rewrite L1. exact GF.
    + intros j z l' w' Hj Ez. rewrite len_enq. apply nth_enq in Hj. destruct Hj as (x & Hx & En & _ & _). rewrite En in Ez. exact (IM1 j x l' w' Hx Ez).
    + intros j z l' w' Hj Ez. apply nth_enq in Hj. destruct Hj as (x & Hx & En & _ & _). rewrite En in Ez.
      destruct (IW1 j x l' w' Hx Ez) as (r1 & x1 & Hx1 & R & S1). destruct (enq_nth s1 r' (t, None) r1 x1 Hx1) as (y2 & Hy2 & En2 & Hq2 & _).
      exists r1, y2. split; [exact Hy2|]. split; [exact R|]. rewrite En2. destruct S1 as [(t1 & S1)|S1]; [left; eauto|right; exact S1].
Qed.

Lemma threads_lt : forall s r x, nth_error s r = Some x -> now x = Off -> threads s < length s.
Proof.
  intros s. unfold threads. induction s as [|y s IH]; intros [|r] x H E; cbn in *; try discriminate.
  - injection H as ->. unfold on at 1. rewrite E.
    assert (suml on s <= length s); [|lia]. clear. induction s as [|y s IH]; cbn; [lia|]. unfold on at 1. destruct (now y); lia.
  - pose proof (IH r x H E). unfold on at 1. destruct (now y); lia.
Qed.

(** A runner that is not done means that somebody can go on. *)
Lemma can_go : forall rank M s, Inv rank s -> length s <= M -> stuck M s ->
  forall n r x, nth_error s r = Some x -> (forall r' y, nth_error s r' = Some y -> rank r' < n + rank r) ->
  queue x = [] /\ now x = if fixd x then Idle else Off.
Proof.
  intros rank M s [IQ IM IW] LM ST n. induction n as [|n IH]; intros r x H B.
  - pose proof (B r x H). lia.
  - pose proof (ST r) as S. unfold step in S. rewrite H in S. destruct x as [b q m]. cbn [now queue fixd] in *.
    destruct m as [| |l w|l w].
    + pose proof (threads_lt s r _ H eq_refl) as T. assert (E : (threads s <? M) = true) by (apply Nat.ltb_lt; lia). rewrite E in S.
      destruct q as [|i q]; [|discriminate]. destruct b; [discriminate|auto].
    + destruct q as [|[[l] w] q]; [|discriminate]. destruct b; [auto|discriminate].
    + exfalso. pose proof (IM r _ _ _ H (or_introl eq_refl)) as F. destruct l as [|[r' [l0]|r' t] rest]; [discriminate| |].
      * destruct (r' =? r); [discriminate|]. destruct (nth_error s r') eqn:E; [discriminate|]. apply nth_error_None in E.
        inversion F as [r0 l1 A B']; subst. destruct (A r' (Tk l0) (or_introl eq_refl)) as (A1 & _). lia.
      * destruct (nth_error s r') eqn:E; [discriminate|]. apply nth_error_None in E.
        inversion F as [r0 l1 A B']; subst. destruct (B' r' t (or_introl eq_refl)) as (A1 & _). lia.
    + exfalso. destruct (IW r _ _ _ H eq_refl) as (r' & y & Hy & R & S'). 
      destruct (IH r' y Hy) as [Q N].
      * intros r2 y2 H2. pose proof (B r2 y2 H2). lia.
      * destruct S' as [(t & S')|(l' & [S'|S'])]; [rewrite Q in S'; destruct S'| |]; rewrite S' in N; destruct (fixd y); discriminate.
Qed.

Lemma rank_bound : forall (rank : nat -> nat) (s : list runner), exists n, forall r y, nth_error s r = Some y -> rank r < n.
Proof.
  intros rank s.
  assert (G : forall m, exists n, forall r, r < m -> rank r < n).
  { induction m as [|m (n & IH)]; [exists 0; lia|]. exists (S (n + rank m)). intros r Hr. destruct (Nat.eq_dec r m) as [->|N]; [lia|]. assert (rank r < n) by (apply IH; lia). lia. }
  destruct (G (length s)) as (n & Hn). exists n. intros r y H. apply Hn. apply nth_error_Some. congruence.
Qed.

(** If SendTask goes only upwards in some order of the runners, and the pool may have a
    thread for each runner, then a run that cannot go on has finished: every task that was
    queued, sent or posted has been called, once. With [C137_ends]: all runs finish.
    Missing: other patterns of SendTask and smaller pools, refuted below. *)
Theorem C137_finishes_partial : forall rank M l s s' k, fresh s -> ordered rank s -> length s <= M ->
  run M s l = Some (s', k) -> stuck M s' -> finished s' /\ k = total s.
Proof.
  intros rank M l s s' k F O LM H ST.
  assert (G : Inv rank s' /\ length s' = length s /\ suml left_ s' + k = suml left_ s).
  { pose proof (inv_fresh rank s F O) as I. clear F O LM ST. revert s s' k H I.
    induction l as [|r l IH]; intros s s' k H I; cbn in H.
    - injection H as <- <-. split; [exact I|]. split; [reflexivity|lia].
    - destruct (step M s r) as [[s1 k1]|] eqn:E; [|discriminate]. destruct (run M s1 l) as [[s2 k2]|] eqn:E2; [|discriminate].
      injection H as <- <-. destruct (IH _ _ _ E2 (inv_step _ _ _ _ _ _ I E)) as (I2 & L2 & S2).
      pose proof (step_len _ _ _ _ _ E). pose proof (left_step _ _ _ _ _ E). split; [exact I2|]. split; lia. }
  destruct G as (I & L & S).
  assert (D : forall r x, nth_error s' r = Some x -> queue x = [] /\ now x = if fixd x then Idle else Off).
  { intros r x Hx. destruct (rank_bound rank s') as (n & Hn). apply (can_go rank M s' I ltac:(lia) ST n r x Hx).
    intros r' y Hy. pose proof (Hn r' y Hy). lia. }
  split.
  - intros x Hx. apply In_nth_error in Hx. destruct Hx as (r & Hx). exact (D r x Hx).
  - assert (Z : suml left_ s' = 0).
    { destruct (suml left_ s') eqn:E; [reflexivity|]. destruct (suml_pos _ left_ s' ltac:(lia)) as (r & x & Hx & P).
      destruct (D r x Hx) as [Q N]. rewrite left_def, Q, N in P. destruct (fixd x); cbn in P; lia. }
    assert (T : suml left_ s = total s).
    { unfold total. clear - F. induction s as [|x s IH]; [reflexivity|]. cbn [suml]. rewrite IH by (intros y Hy; apply F; right; exact Hy).
      destruct (F x (or_introl eq_refl)) as [E _]. rewrite left_def, E. cbn. lia. }
    lia.
Qed.

(** ** Refutations *)
(** Two runners: a task of the first SendTasks to the second one a task that SendTasks
    back. However large the pool is, both wait for ever. *)
Theorem C137_cycle_refuted : forall M, 2 <= M -> exists s l s' k, fresh s /\ length s <= M /\
  run M s l = Some (s', k) /\ stuck M s' /\ ~ finished s' /\ k < total s.
Proof.
  intros M HM.
  exists [Rn false [(Tk [Send 1 (Tk [Send 0 (Tk [])])], None)] Off; Rn false [] Off], [0; 0; 0; 1; 1; 1].
  assert (E0 : (0 <? M) = true) by (apply Nat.ltb_lt; lia). assert (E1 : (1 <? M) = true) by (apply Nat.ltb_lt; lia).
  eexists. eexists. split; [|split; [exact HM|split; [|split; [|split]]]].
  - intros x [<-|[<-|[]]]; cbn; split; auto; intros i Hi; [destruct Hi as [<-|[]]; reflexivity|destruct Hi].
  - cbn [run step nth_error now queue fixd threads suml on Nat.add]. rewrite E0. cbn [set run step nth_error now queue fixd threads suml on Nat.add Nat.eqb enqueue app]. rewrite E1.
    cbn. reflexivity.
  - intros [|[|[|r]]]; reflexivity.
  - intros X. destruct (X _ (or_introl eq_refl)) as [_ X2]. cbn in X2. discriminate.
  - cbn. lia.
Qed.

Lemma set_mid : forall (l : list runner) x y m, set (l ++ x :: m) (length l) y = l ++ y :: m.
Proof. induction l as [|z l IH]; intros x y m; cbn; [reflexivity|]. rewrite IH. reflexivity. Qed.
Lemma nth_mid : forall (l : list runner) x m, nth_error (l ++ x :: m) (length l) = Some x.
Proof. induction l as [|z l IH]; intros x m; cbn; [reflexivity|apply IH]. Qed.
Lemma run_app : forall M l m s s1 k1 s2 k2, run M s l = Some (s1, k1) -> run M s1 m = Some (s2, k2) -> run M s (l ++ m) = Some (s2, k1 + k2).
Proof.
  intros M l. induction l as [|r l IH]; intros m s s1 k1 s2 k2 H K; cbn in *; [injection H as <- <-; exact K|].
  destruct (step M s r) as [[s3 k3]|]; [|discriminate]. destruct (run M s3 l) as [[s4 k4]|] eqn:E; [|discriminate]. injection H as <- <-.
  rewrite (IH _ _ _ _ _ _ E K). do 2 f_equal. lia.
Qed.
Lemma repeat_S : forall A (a : A) n l, repeat a n ++ a :: l = repeat a (S n) ++ l.
Proof. intros A a n l. induction n as [|n IH]; [reflexivity|]. cbn [repeat app]. rewrite IH. reflexivity. Qed.
Lemma on_repeat : forall x n, suml on (repeat x n) = n * on x.
Proof. intros x n. induction n as [|n IH]; cbn [repeat suml]; lia. Qed.

Definition sender (M : nat) : runner := Rn false [(Tk [Send M (Tk [])], None)] Off.
Definition waiter : runner := Rn false [] (Wait [] None).
Definition sent (m : nat) : list item := map (fun r => (Tk [], Some r)) (seq 0 m).
Definition mid (M m n : nat) : list runner := repeat waiter m ++ repeat (sender M) n ++ [Rn false (sent m) Off].

Lemma mid_step : forall M m n, M = m + S n -> run M (mid M m (S n)) [m; m; m] = Some (mid M (S m) n, 1).
Proof.
  intros M m n E. unfold mid. cbn [repeat app].
  assert (Lm : forall A (a : A), length (repeat a m) = m) by (intros; apply repeat_length).
  assert (NM : forall x l, nth_error (repeat waiter m ++ x :: l) m = Some x).
  { intros x l. pose proof (nth_mid (repeat waiter m) x l) as X. rewrite Lm in X. exact X. }
  assert (SM : forall x y l, set (repeat waiter m ++ x :: l) m y = repeat waiter m ++ y :: l).
  { intros x y l. pose proof (set_mid (repeat waiter m) x y l) as X. rewrite Lm in X. exact X. }
  cbn [run]. unfold step at 1. rewrite NM. cbn [now queue fixd sender].
  assert (T : threads (repeat waiter m ++ sender M :: repeat (sender M) n ++ [Rn false (sent m) Off]) = m).
  { unfold threads. rewrite suml_app. cbn [suml]. rewrite suml_app, !on_repeat. cbn. lia. }
  rewrite T. replace (m <? M) with true by (symmetry; apply Nat.ltb_lt; lia). rewrite SM. cbv beta iota.
  unfold step at 1. rewrite NM. cbn [now queue fixd]. rewrite SM. cbv beta iota. unfold step at 1. rewrite NM. cbn [now queue fixd].
  replace (M =? m) with false by (symmetry; apply Nat.eqb_neq; lia).
  set (L := Rn false (sent m) Off).
  assert (NL : forall x, nth_error (repeat waiter m ++ x :: repeat (sender M) n ++ [L]) M = Some L).
  { intros x. pose proof (nth_mid (repeat waiter m ++ x :: repeat (sender M) n) L []) as X.
    rewrite app_length in X. cbn [length] in X. rewrite !repeat_length in X. rewrite <- E, <- app_assoc in X. exact X. }
  rewrite NL, SM. unfold enqueue. rewrite NL.
  assert (SL : forall x y, set (repeat waiter m ++ x :: repeat (sender M) n ++ [L]) M y = repeat waiter m ++ x :: repeat (sender M) n ++ [y]).
  { intros x y. pose proof (set_mid (repeat waiter m ++ x :: repeat (sender M) n) L y []) as X.
    rewrite app_length in X. cbn [length] in X. rewrite !repeat_length in X. rewrite <- E, <- !app_assoc in X. exact X. }
  rewrite SL. fold waiter. unfold L. cbn [queue fixd now].
  assert (Q : sent (S m) = sent m ++ [(Tk [], Some m)]) by (unfold sent; rewrite seq_S, map_app; reflexivity).
  rewrite Q,  (repeat_S _ waiter m). reflexivity.
Qed.

Lemma mid_run : forall M m n, M = m + n -> exists l, run M (mid M 0 M) l = Some (mid M m n, m).
Proof.
  intros M m. induction m as [|m IH]; intros n E.
  - exists []. cbn in E. subst n. reflexivity.
  - destruct (IH (S n) ltac:(lia)) as (l & H). exists (l ++ [m; m; m]).
    rewrite (run_app _ _ _ _ _ _ _ _ H (mid_step M m n ltac:(lia))). do 2 f_equal. lia.
Qed.

(** As many runners as the pool may have threads, each with one task that SendTasks to one
    further runner: the order is as [C137_finishes_partial] wants it, but all threads of
    the pool wait for tasks that no thread is left to run. *)
Theorem C137_starved_refuted : forall M, 1 <= M -> exists s l s' rank k, fresh s /\ ordered rank s /\ length s = S M /\
  run M s l = Some (s', k) /\ stuck M s' /\ ~ finished s' /\ k = M /\ total s = 2 * M.
Proof.
  intros M HM. destruct (mid_run M M 0 ltac:(lia)) as (l & H).
  exists (mid M 0 M), l, (mid M M 0), (fun r => r), M.
  assert (L : length (mid M 0 M) = S M) by (unfold mid; cbn [repeat app]; rewrite app_length, repeat_length; cbn; lia).
  assert (ALL : forall x, In x (mid M 0 M) -> x = sender M \/ x = Rn false [] Off).
  { intros x Hx. unfold mid in Hx. cbn [repeat app] in Hx. apply in_app_or in Hx. destruct Hx as [Hx|[<-|[]]]; [left; eapply repeat_spec; exact Hx|right; reflexivity]. }
  split; [|split; [|split; [exact L|split; [exact H|split; [|split; [|split; [reflexivity|]]]]]]].
  - intros x Hx. destruct (ALL x Hx) as [-> | ->]; cbn; split; auto; [|intros i []]. intros i [<-|[]]. reflexivity.
  - intros r x i Hx Hi. destruct (ALL x (nth_error_In _ _ Hx)) as [-> | ->]; cbn in Hi; [|destruct Hi]. destruct Hi as [<-|[]]. rewrite L.
    assert (Hr : r < M).
    { assert (r < S M) by (rewrite <- L; apply nth_error_Some; congruence). destruct (Nat.eq_dec r M) as [->|]; [|lia].
      unfold mid in Hx. cbn [repeat app] in Hx. pose proof (nth_mid (repeat (sender M) M) (Rn false (sent 0) Off) []) as X. rewrite repeat_length in X. rewrite X in Hx. discriminate. }
    cbn [fst]. constructor; intros r' t [X|[]]; [|discriminate]. injection X as <- <-. split; [lia|]. split; [right; exact Hr|].
    constructor; intros r' t [].
  - intros r. unfold step. destruct (nth_error (mid M M 0) r) as [x|] eqn:E; [|reflexivity].
    assert (T : threads (mid M M 0) = M). { unfold threads, mid. cbn [repeat app]. rewrite suml_app, on_repeat. cbn. lia. }
    apply nth_error_In in E. unfold mid in E. cbn [repeat app] in E. apply in_app_or in E.
    rewrite T, Nat.ltb_irrefl. destruct E as [E|[<-|[]]]; [apply repeat_spec in E; subst x; reflexivity|].
    cbn [now queue fixd]. destruct (sent M); [rewrite andb_false_r|]; reflexivity.
  - intros X. destruct (X waiter) as [_ X2]; [|discriminate]. unfold mid. destruct M as [|M']; [lia|]. left. reflexivity.
  - unfold total, mid. cbn [repeat app]. rewrite suml_app. cbn [suml queue sent map seq].
    assert (forall n, suml (fun x => suml tasks_i (queue x)) (repeat (sender M) n) = 2 * n) as ->; [|lia].
    induction n as [|n IHn]; [reflexivity|]. cbn [repeat suml]. rewrite IHn. cbn. lia.
Qed.

Definition holder (m : mode) : runner := Rn true [] m.
Definition held (m n : nat) : list runner := repeat (holder Idle) m ++ repeat (holder Off) n ++ [Rn false [(Tk [], None)] Off].
Lemma held_run : forall M m n, M = m + n -> exists l, run M (held 0 M) l = Some (held m n, 0).
Proof.
  intros M m. induction m as [|m IH]; intros n E.
  - exists []. cbn in E. subst n. reflexivity.
  - destruct (IH (S n) ltac:(lia)) as (l & H). exists (l ++ [m]).
    assert (K : run M (held m (S n)) [m] = Some (held (S m) n, 0)).
    { unfold held. cbn [repeat app run]. unfold step.
      pose proof (nth_mid (repeat (holder Idle) m) (holder Off) (repeat (holder Off) n ++ [Rn false [(Tk [], None)] Off])) as X.
      rewrite repeat_length in X. rewrite X. cbn [now queue fixd holder].
      assert (T : threads (repeat (holder Idle) m ++ holder Off :: repeat (holder Off) n ++ [Rn false [(Tk [], None)] Off]) = m).
      { unfold threads. rewrite suml_app. cbn [suml]. rewrite suml_app, !on_repeat. cbn. lia. }
      rewrite T. replace (m <? M) with true by (symmetry; apply Nat.ltb_lt; lia). cbn [andb].
      pose proof (set_mid (repeat (holder Idle) m) (holder Off) (holder Idle) (repeat (holder Off) n ++ [Rn false [(Tk [], None)] Off])) as Y.
      rewrite repeat_length in Y. unfold holder in Y at 4. rewrite Y. rewrite (repeat_S _ (holder Idle) m). reflexivity. }
    rewrite (run_app _ _ _ _ _ _ _ _ H K). reflexivity.
Qed.

(** Thread runners keep their threads: as many of them as the pool may have threads, though
    they have nothing to do, and a task of a sequenced runner is never called. *)
Theorem C137_held_refuted : forall M, exists s l s' rank, fresh s /\ ordered rank s /\ length s = S M /\
  run M s l = Some (s', 0) /\ stuck M s' /\ ~ finished s' /\ total s = 1.
Proof.
  intros M. destruct (held_run M M 0 ltac:(lia)) as (l & H).
  exists (held 0 M), l, (held M 0), (fun r => r).
  assert (ALL : forall x, In x (held 0 M) -> x = holder Off \/ x = Rn false [(Tk [], None)] Off).
  { intros x Hx. unfold held in Hx. cbn [repeat app] in Hx. apply in_app_or in Hx. destruct Hx as [Hx|[<-|[]]]; [left; eapply repeat_spec; exact Hx|right; reflexivity]. }
  split; [|split; [|split; [|split; [exact H|split; [|split]]]]].
  - intros x Hx. destruct (ALL x Hx) as [-> | ->]; cbn; split; auto; intros i Hi; [destruct Hi|destruct Hi as [<-|[]]; reflexivity].
  - intros r x i Hx Hi. destruct (ALL x (nth_error_In _ _ Hx)) as [-> | ->]; cbn in Hi; [destruct Hi|]. destruct Hi as [<-|[]].
    constructor; intros r' t [].
  - unfold held. cbn [repeat app]. rewrite app_length, repeat_length. cbn. lia.
  - intros r. unfold step. destruct (nth_error (held M 0) r) as [x|] eqn:E; [|reflexivity].
    assert (T : threads (held M 0) = M). { unfold threads, held. cbn [repeat app]. rewrite suml_app, on_repeat. cbn. lia. }
    apply nth_error_In in E. unfold held in E. cbn [repeat app] in E. apply in_app_or in E.
    rewrite T, Nat.ltb_irrefl. destruct E as [E|[<-|[]]]; [apply repeat_spec in E; subst x; reflexivity|reflexivity].
  - intros X. destruct (X (Rn false [(Tk [], None)] Off)) as [X2 _]; [|discriminate]. unfold held. apply in_or_app. right. left. reflexivity.
  - unfold total, held. cbn [repeat app]. rewrite suml_app. cbn [suml queue].
    assert (forall n, suml (fun x => suml tasks_i (queue x)) (repeat (holder Off) n) = 0) as ->; [|reflexivity].
    induction n as [|n IHn]; [reflexivity|]. cbn [repeat suml]. rewrite IHn. reflexivity.
Qed.

(** ** Cases *)
(** Three runners, the last one a thread runner; the task of the first one sends to the
    second one, whose task sends to the third one and posts back to the first one. *)
Definition three : list runner :=
  [Rn false [(Tk [Send 1 (Tk [Post 0 (Tk []); Send 2 (Tk [])])], None)] Off; Rn false [] Off; Rn true [] Off].
Example ex_three : fresh three /\ ordered (fun r => r) three /\ total three = 4 /\ bound three = 21 /\
  exists l s', run 3 three l = Some (s', 4) /\ finished s' /\ stuck 3 s'.
Proof.
  split; [|split; [|split; [reflexivity|split; [reflexivity|]]]].
  - intros x [<-|[<-|[<-|[]]]]; cbn; split; auto; intros i Hi; repeat destruct Hi as [<-|Hi]; try reflexivity; destruct Hi.
  - intros [|[|[|r]]] x i Hx Hi; cbn in Hx; try injection Hx as <-; cbn in Hi; try (destruct Hi; fail).
    + destruct Hi as [<-|[]]. cbn. constructor; intros r' t [X|[]]; [|discriminate]. injection X as <- <-.
      split; [lia|]. split; [right; lia|]. constructor; intros r' t [X|[X|[]]]; try discriminate; injection X as <- <-.
      * split; [lia|]. split; [right; lia|]. constructor; intros ? ? [].
      * split; [lia|]. constructor; intros ? ? [].
    + destruct r; discriminate.
  - exists [0; 0; 0; 1; 1; 1; 1; 2; 2; 2; 1; 1; 0; 0; 0; 0]. eexists. split; [reflexivity|]. split.
    + intros x [<-|[<-|[<-|[]]]]; split; reflexivity.
    + intros [|[|[|r]]]; try reflexivity. destruct r; reflexivity.
Qed.
(** With a pool of two threads the same tasks are stuck. *)
Example ex_two : exists l s', run 2 three l = Some (s', 2) /\ stuck 2 s' /\ ~ finished s'.
Proof.
  exists [0; 0; 0; 1; 1; 1; 1]. eexists. split; [reflexivity|]. split.
  - intros [|[|[|r]]]; try reflexivity. destruct r; reflexivity.
  - intros X. destruct (X _ (or_introl eq_refl)) as [X1 _]. discriminate.
Qed.
(** SendTask to the own runner is called at once, also before what is queued. *)
Example ex_own : exists l s', run 1 [Rn false [(Tk [Send 0 (Tk [])], None); (Tk [], None)] Off] l = Some (s', 3) /\ finished s'.
Proof. exists [0; 0; 0; 0; 0; 0; 0]. eexists. split; [reflexivity|]. intros x [<-|[]]. split; reflexivity. Qed.

Print Assumptions C137_ends.
Print Assumptions C137_finishes_partial.
Print Assumptions C137_cycle_refuted.
Print Assumptions C137_starved_refuted.
Print Assumptions C137_held_refuted.
