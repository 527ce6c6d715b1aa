(** Property theorems C135 and C136: the current task runner of a thread. *)
From Coq Require Import List Bool Arith Lia.
From Verif Require Import Slots SlotsProofs CurrentModel CurrentProofs.
Import ListNotations.

(** ** C135: in a callback of a runner, that runner is the current one. *)

(** Somebody keeps the runner: a user, or a job or a loop of it on this thread's stack. *)
Definition kept (s : state) (th : thread) (r : nat) : Prop :=
  0 < nth r (users s) 0 \/ In (Job r) (stack th) \/ In (Loop r) (stack th).

Lemma kept_alive : forall s t th r, nth_error (ths s) t = Some th -> kept s th r -> alive s r = true.
Proof.
  intros s t th r H [K|[K|K]]; apply alive_held; [left; exact K|right; right|right; right].
  - exists t, th, (Job r). cbn. rewrite Nat.eqb_refl. auto.
  - exists t, th, (Loop r). cbn. rewrite Nat.eqb_refl. auto.
Qed.

(** Whatever happened before: while a task of a runner, or a callback called because a
    thread runner drops its tasks, is running on a thread, GetCurrent gives that runner.
    (A user reference or a loop keeps the runner; a task that came out of a queue always has
    a loop below it, [C135_queued].) *)
Theorem C135_current : forall l s t th r rest, reach (init l) s -> nth_error (ths s) t = Some th ->
  stack th = Task r :: rest \/ stack th = Drop r :: rest -> kept s th r ->
  GetCurrent s th Any = Some r.
Proof.
  intros l s t th r rest R Ht Es K. destruct (reach_inv l s R) as [(_ & _ & _ & IW) _].
  pose proof (kept_alive s t th r Ht K) as A.
  assert (W : weak th = Some r).
  { destruct Es as [Es|Es].
    - apply (IW t th (Task r) Ht); [rewrite Es; left; reflexivity|reflexivity|exact A].
    - apply (IW t th (Drop r) Ht); [rewrite Es; left; reflexivity|reflexivity|exact A]. }
  unfold GetCurrent. assert (G : Get s th = Some r) by (apply Get_some; auto). rewrite G. reflexivity.
Qed.

(** A task taken from a queue: the thread is inside a job or a loop of the runner, so the
    runner is the current one whatever the users release. *)
Theorem C135_queued : forall l s t s' a, reach (init l) s -> step s (EBegin t) = Some (s', a) ->
  exists th r rest, nth_error (ths s') t = Some th /\ stack th = Task r :: rest /\
    (In (Job r) rest \/ In (Loop r) rest) /\ GetCurrent s' th Any = Some r.
Proof.
  intros l s t s' a R H. assert (R' : reach (init l) s') by (eapply reach_step; eauto). cbn [step] in H.
  destruct (nth_error (ths s) t) as [th|] eqn:Ht; [|discriminate].
  assert (L : t < length (ths s)) by (apply nth_error_Some; congruence).
  destruct (stack th) as [|[r|r|r|r|r] rest] eqn:Es; try discriminate; injection H as <- <-.
  - exists (Th (pool th) (weak th) (Task r :: stack th)), r, (Job r :: rest). rewrite Es.
    assert (N : nth_error (ths (push s t th (Task r))) t = Some (Th (pool th) (weak th) (Task r :: Job r :: rest)))
      by (cbn; rewrite Es; apply nth_set_eq; exact L).
    repeat split; auto; [left; left; reflexivity|]. 
    apply (C135_current l _ t _ r (Job r :: rest) R' N); [left; reflexivity|]. right. left. right. left. reflexivity.
  - exists (Th (pool th) (weak th) (Task r :: stack th)), r, (Loop r :: rest). rewrite Es.
    assert (N : nth_error (ths (push s t th (Task r))) t = Some (Th (pool th) (weak th) (Task r :: Loop r :: rest)))
      by (cbn; rewrite Es; apply nth_set_eq; exact L).
    repeat split; auto; [right; left; reflexivity|]. 
    apply (C135_current l _ t _ r (Loop r :: rest) R' N); [left; reflexivity|]. right. right. right. left. reflexivity.
Qed.

(** SendTask to the runner whose task is running calls the callback at once, and does not
    wait for itself. *)
Theorem C135_send_inline : forall l s t th r rest, reach (init l) s -> nth_error (ths s) t = Some th ->
  stack th = Task r :: rest -> kept s th r ->
  exists s', step s (ESend t r) = Some (s', Inline) /\
    nth_error (ths s') t = Some (Th (pool th) (weak th) (Task r :: stack th)).
Proof.
  intros l s t th r rest R Ht Es K. pose proof (C135_current l s t th r rest R Ht (or_introl Es) K) as G.
  assert (G' : Get s th = Some r) by (unfold GetCurrent in G; destruct (Get s th); [congruence|discriminate]).
  exists (push s t th (Task r)). split.
  - cbn [step]. rewrite Ht. unfold user_code. rewrite Es. rewrite (kept_alive s t th r Ht K), G', Nat.eqb_refl. reflexivity.
  - cbn. apply nth_set_eq. apply nth_error_Some. congruence.
Qed.
(** To any other runner it is posted. *)
Theorem C135_send_other : forall l s t th r q rest, reach (init l) s -> nth_error (ths s) t = Some th ->
  stack th = Task r :: rest -> kept s th r -> q <> r -> alive s q = true -> step s (ESend t q) = Some (s, Posted).
Proof.
  intros l s t th r q rest R Ht Es K N A. pose proof (C135_current l s t th r rest R Ht (or_introl Es) K) as G.
  assert (G' : Get s th = Some r) by (unfold GetCurrent in G; destruct (Get s th); [congruence|discriminate]).
  cbn [step]. rewrite Ht. unfold user_code. rewrite Es, A, G'. cbn. destruct (Nat.eqb_spec r q); [congruence|reflexivity].
Qed.

(** REFUTED for the callbacks that are called when a sequenced or parallel runner drops its
    tasks: the pointer has been reset before, and they run without a current runner. *)
Theorem C135_dropped_refuted : forall l s t s' a th r, reach (init l) s -> nth_error (ths s) t = Some th ->
  In (Job r) (stack th) -> kind_of s r = Par \/ kind_of s r = Seq -> step s (EEndJob t) = Some (s', a) ->
  exists th', nth_error (ths s') t = Some th' /\ stack th' = [Late r] /\ user_code th' = true /\ GetCurrent s' th' Any = None.
Proof.
  intros l s t s' a th r R Ht Hin Hf H. cbn [step] in H. rewrite Ht in H.
  assert (L : t < length (ths s)) by (apply nth_error_Some; congruence).
  destruct (stack th) as [|[q|q|q|q|q] [|g rest]]; try discriminate. destruct Hin as [E|[]]. injection E as ->.
  assert (E : has_fixed (GetStyle (kind_of s r)) = false) by (destruct Hf as [-> | ->]; reflexivity). rewrite E in H.
  injection H as <- <-. eexists. split; [cbn; apply nth_set_eq; exact L|]. repeat split; reflexivity.
Qed.

(** REFUTED as well for a task that SendTask calls directly outside of any loop, once it
    has released the last reference to its runner. *)
Definition run (s : state) (l : list event) : state :=
  fold_left (fun s e => match step s e with Some (s', _) => s' | None => s end) l s.
Lemma run_reach : forall l s0 s, reach s0 s -> reach s0 (run s l).
Proof.
  induction l as [|e l IH]; intros s0 s R; [exact R|]. cbn. apply IH.
  destruct (step s e) as [[s' a]|] eqn:E; [eapply reach_step; eauto|exact R].
Qed.
Theorem C135_released_refuted : exists l s t th r, reach (init l) s /\ nth_error (ths s) t = Some th /\
  stack th = [Task r] /\ GetCurrent s th Any = None.
Proof.
  exists [false]. exists (run (init [false]) [EBind 0 Thr; ESend 0 0; ERelease 0]). exists 0. eexists. exists 0.
  split; [apply run_reach; apply reach_here|]. cbn. auto.
Qed.

(** The typed forms give a runner exactly when it has the style that the class needs, so
    their static casts are right. *)
Theorem C135_typed : forall s th r, Get s th = Some r ->
  (GetCurrent s th Thread = Some r <-> kind_of s r = Thr \/ kind_of s r = Proxy) /\
  (GetCurrent s th Sequenced = Some r <-> kind_of s r <> Par) /\
  (GetCurrent s th Parallel = Some r <-> kind_of s r = Par) /\
  (forall w q, GetCurrent s th w = Some q -> q = r).
Proof.
  intros s th r G. unfold GetCurrent. rewrite G.
  assert (Q : forall w q, (if match w with Any => true | Sequenced => has_sequenced (GetStyle (kind_of s r)) | Thread => has_fixed (GetStyle (kind_of s r)) | Parallel => GetStyle (kind_of s r) =? 0 end then Some r else None) = Some q -> q = r)
    by (intros w q; destruct (match w with Any => _ | _ => _ end); congruence).
  split; [|split; [|split; [|exact Q]]]; clear Q; destruct (kind_of s r); cbn; split; intros H; try discriminate; try congruence; auto; destruct H; discriminate.
Qed.

(** ** C136: a thread has at most one runner, and a fixed runner at most one thread. *)

(** Inside a task BindCurrentThread is refused. *)
Theorem C136_refused : forall l s t th r rest k, reach (init l) s -> nth_error (ths s) t = Some th ->
  stack th = Task r :: rest -> kept s th r -> k = Thr \/ k = Proxy -> step s (EBind t k) = Some (s, Gives None).
Proof.
  intros l s t th r rest k R Ht Es K Hk. pose proof (C135_current l s t th r rest R Ht (or_introl Es) K) as G.
  assert (G' : Get s th = Some r) by (unfold GetCurrent in G; destruct (Get s th); [congruence|discriminate]).
  cbn [step]. rewrite Ht, G'. unfold user_code. rewrite Es. destruct Hk as [->| ->]; reflexivity.
Qed.

(** A runner bound to a thread outside the pool stays the current one there for as long as
    it lives; until then binding again is refused. *)
Definition bound (r t : nat) (s : state) : Prop :=
  r < length (kinds s) /\ exists th, nth_error (ths s) t = Some th /\ pool th = false /\ (weak th = Some r \/ alive s r = false).
(** Jobs run on threads of the pool. *)
Definition JobPool (s : state) : Prop := forall t th r, nth_error (ths s) t = Some th -> In (Job r) (stack th) -> pool th = true.
Lemma jobpool_change : forall s s', JobPool s -> change s s' -> JobPool s'.
Proof.
  intros s s' J C t th' r Ht' Hin.
  destruct C as [u Hu HL| |k|k|q Aq Fq|u th0 k Ht0 G U|u th0 g Ht0 Lg NJob Hg|u th0 q Ht0 Es Ep Hq|u th0 g l Ht0 Es|u th0 q l Ht0 Es Hl]; cbn [ths push with_th] in Ht'; eauto;
    (apply nth_set1 in Ht'; destruct Ht' as [[-> ->]|[N Ht']]; [|eauto]); cbn in *; eauto.
  - destruct Hin as [E|Hin]; [destruct (NJob r E)|eauto].
  - apply (J _ _ r Ht0). rewrite Es. right. exact Hin.
  - destruct Hl as [->| ->]; [destruct Hin|destruct Hin as [E|[]]; discriminate].
Qed.
Lemma reach_jobpool : forall l s, reach (init l) s -> JobPool s.
Proof.
  intros l s R. induction R as [|s1 e s2 a R IH H].
  - intros t th r H Hin. apply nth_error_In, in_map_iff in H. destruct H as (b & <- & _). destruct Hin.
  - destruct (reach_inv l s1 R) as [I _]. exact (jobpool_change _ _ IH (step_change _ _ _ _ (proj1 I) H)).
Qed.

Lemma bound_change : forall r t s s', Inv s -> JobPool s -> change s s' -> bound r t s -> bound r t s'.
Proof.
  intros r t s s' I JP C (L & th & Ht & P & W).
  destruct (change_kinds s s' C) as (kl & Ek).
  split; [rewrite Ek, app_length; lia|].
  assert (D : alive s r = false -> alive s' r = false).
  { intros D. destruct (alive s' r) eqn:E; [|reflexivity]. pose proof (no_resurrection s s' r I C L E). congruence. }
  assert (LT : t < length (ths s)) by (apply nth_error_Some; congruence).
  destruct C as [u Hu HL| |k|k|q Aq Fq|u th0 k Ht0 G U|u th0 g Ht0 Lg NJob Hg|u th0 q Ht0 Es Ep Hq|u th0 g l Ht0 Es|u th0 q l Ht0 Es Hl]; cbn [ths push with_th];
    try (exists th; split; [exact Ht|]; split; [exact P|]; destruct W as [W|W]; [left; exact W|right; apply D; exact W]);
    (destruct (Nat.eq_dec u t) as [->|N]; [|exists th; rewrite nth_set_neq by exact N; split; [exact Ht|]; split; [exact P|]; destruct W as [W|W]; [left; exact W|right; apply D; exact W]]);
    replace th0 with th in * by congruence; (eexists; split; [apply nth_set_eq; exact LT|]; split; [exact P|]); cbn [weak].
  - right. apply D. destruct W as [W|W]; [|exact W]. destruct (alive s r) eqn:E; [|reflexivity].
    assert (Get s th = Some r) by (apply Get_some; auto). congruence.
  - destruct W as [W|W]; [left; exact W|right; apply D; exact W].
  - congruence.
  - destruct W as [W|W]; [left; exact W|right; apply D; exact W].
  - assert (pool th = true) by (apply (JP _ _ q Ht); rewrite Es; left; reflexivity). congruence.
Qed.

Theorem C136_bound : forall l s t k s1 r s2 th, reach (init l) s ->
  nth_error (ths s) t = Some th -> pool th = false ->
  step s (EBind t k) = Some (s1, Gives (Some r)) -> reach s1 s2 -> 0 < nth r (users s2) 0 ->
  exists th2, nth_error (ths s2) t = Some th2 /\ GetCurrent s2 th2 Thread = Some r /\ (user_code th2 = true -> step s2 (EBind t Thr) = Some (s2, Gives None)).
Proof.
  intros l s t k s1 r s2 th R Ht P HB R2 U.
  assert (R1 : reach (init l) s1) by (eapply reach_step; eauto).
  assert (B : bound r t s1 /\ fixed s1 r).
  { cbn [step] in HB. rewrite Ht in HB. destruct (user_code th && _) eqn:Ek; [|discriminate]. apply andb_true_iff in Ek. destruct Ek as [_ Ek].
    destruct (Get s th); [discriminate|]. injection HB as <- <-. cbn. split.
    - split; [cbn; rewrite app_length; cbn; lia|]. eexists. cbn. split; [apply nth_set_eq; apply nth_error_Some; congruence|]. auto.
    - exists k. cbn. rewrite nth_error_app2, Nat.sub_diag by lia. split; [reflexivity|]. destruct k; try discriminate; reflexivity. }
  destruct B as [B F].
  assert (G : reach (init l) s2 /\ bound r t s2 /\ fixed s2 r).
  { clear U. induction R2 as [|s3 e s4 a R2 (R3 & B3 & F3) H]; [auto|].
    destruct (reach_inv l s3 R3) as [I _]. pose proof (step_change _ _ _ _ (proj1 I) H) as C.
    split; [eapply reach_step; eauto|]. split; [|exact (fixed_mono _ _ _ C F3)].
    exact (bound_change r t s3 s4 I (reach_jobpool l s3 R3) C B3). }
  destruct G as (R3 & (_ & th2 & Ht2 & P2 & W) & F2).
  assert (A : alive s2 r = true) by (apply alive_held; left; exact U).
  destruct W as [W|W]; [|congruence].
  assert (G : Get s2 th2 = Some r) by (apply Get_some; auto).
  exists th2. split; [exact Ht2|]. split.
  - unfold GetCurrent. rewrite G, (fixed_kind _ _ F2). reflexivity.
  - intros UC. cbn [step]. rewrite Ht2, UC, G. reflexivity.
Qed.

(** All tasks of a thread runner ever run on one thread. *)
Theorem C136_one_thread : forall l s t th s' t' th' r, reach (init l) s -> reach s s' ->
  nth_error (kinds s) r = Some Thr \/ nth_error (kinds s) r = Some Proxy ->
  nth_error (ths s) t = Some th -> In (Task r) (stack th) ->
  nth_error (ths s') t' = Some th' -> In (Task r) (stack th') -> t' = t.
Proof.
  intros l s t th s' t' th' r R R2 K Ht Hin Ht' Hin'.
  assert (F : fixed s r) by (destruct K as [K|K]; eexists; split; [exact K|reflexivity|exact K|reflexivity]).
  destruct (reach_inv l s R) as [_ FX]. destruct (FX r F) as [_ TO].
  assert (O : reach (init l) s' /\ only r t s').
  { clear Ht' Hin'. induction R2 as [|s3 e s4 a R2 IH H].
    - split; [exact R|]. apply (TO t th Ht). right. exists (Task r). auto.
    - destruct IH as [R3 O3]. destruct (reach_inv l s3 R3) as [I _]. split; [eapply reach_step; eauto|].
      exact (only_change r t s3 s4 I (step_change _ _ _ _ (proj1 I) H) O3). }
  destruct O as (_ & _ & _ & O). apply (O t' th' Ht'). right. exists (Task r). auto.
Qed.

(** A message loop is only run for a fixed runner that is bound to the thread; on a pool
    thread inside a task of a sequenced or parallel runner it throws. *)
Theorem C136_loop : forall l s t th r rest, reach (init l) s -> nth_error (ths s) t = Some th ->
  stack th = Task r :: rest -> kept s th r -> kind_of s r = Par \/ kind_of s r = Seq ->
  step s (ERun t) = Some (s, Throws).
Proof.
  intros l s t th r rest R Ht Es K Hk. pose proof (C135_current l s t th r rest R Ht (or_introl Es) K) as G.
  assert (G' : Get s th = Some r) by (unfold GetCurrent in G; destruct (Get s th); [congruence|discriminate]).
  cbn [step]. rewrite Ht, G'. unfold user_code. rewrite Es. destruct Hk as [-> | ->]; reflexivity.
Qed.

(** REFUTED on threads of the pool: a callback called while a runner drops its tasks can
    bind the thread, and the next job on it takes the binding away although the runner
    lives. *)
Theorem C136_pool_refuted : exists l s t th r k, reach (init l) s /\ nth_error (ths s) t = Some th /\
  weak th = Some r /\ kind_of s r = Thr /\ stack th = [] /\
  let s' := run s k in 0 < nth r (users s') 0 /\ forall th', nth_error (ths s') t = Some th' -> GetCurrent s' th' Any = None.
Proof.
  exists [true].
  exists (run (init [true]) [ECreate Seq; EPost 0; EJob 0 0; EEndJob 0; EBind 0 Thr; EEndDrop 0]). exists 0. eexists. exists 1.
  exists [EPost 0; EJob 0 0; EEndJob 0; EEndDrop 0].
  split; [apply run_reach; apply reach_here|]. cbn. repeat split; auto. intros th' E. injection E as <-. reflexivity.
Qed.

(** Loops are run for thread task runners only: a message loop or the window procedure of the
    proxy never runs tasks of a sequenced or parallel runner. *)
Theorem C136_loops : forall l s t th r, reach (init l) s -> nth_error (ths s) t = Some th -> In (Loop r) (stack th) ->
  nth_error (kinds s) r = Some Thr \/ nth_error (kinds s) r = Some Proxy.
Proof.
  assert (G : forall l s, reach (init l) s -> forall t th r, nth_error (ths s) t = Some th -> In (Loop r) (stack th) -> fixed s r).
  { intros l s R. induction R as [|s1 e s2 a R IH H].
    - intros t th r H Hin. apply nth_error_In, in_map_iff in H. destruct H as (b & <- & _). destruct Hin.
    - destruct (reach_inv l s1 R) as [I _]. pose proof (step_change _ _ _ _ (proj1 I) H) as C.
      intros t th r Ht Hin.
      assert (P : forall u th0 q, nth_error (ths s1) u = Some th0 -> Get s1 th0 = Some q -> has_fixed (GetStyle (kind_of s1 q)) = true -> fixed s1 q).
      { intros u th0 q Hu G F. apply Get_some in G. destruct G as [G _]. destruct I as (_ & _ & IT & _).
        assert (L : q < length (kinds s1)) by (apply (IT u th0 q Hu); left; exact G).
        exists (kind_of s1 q). split; [|exact F]. unfold kind_of. apply nth_error_nth'. exact L. }
      assert (Q : fixed s1 r -> fixed s2 r) by (apply fixed_mono; exact C).
      apply Q. clear Q.
      destruct e; cbn [step] in H; inv_step H; cbn [ths push with_th] in Ht; eauto;
        (apply nth_set1 in Ht; destruct Ht as [[-> ->]|[N Ht]]; [|eauto]); cbn [stack] in Hin; eauto;
        try (destruct Hin as [Hin|Hin]; [try discriminate Hin; injection Hin as <-|]; eauto; fail).
      all: try (destruct Hin as [Hin|Hin]; [injection Hin as <-; eapply P; eauto; match goal with E : kind_of _ _ = _ |- _ => rewrite E; reflexivity end|eauto]; fail).
      all: try (match goal with E : stack _ = _ :: _ |- _ => apply (IH _ _ r ltac:(eassumption)); rewrite E; right; exact Hin end).
      all: try (destruct (has_fixed _); [destruct Hin|destruct Hin as [Hin|[]]; discriminate]).
      all: try (cbn in *; congruence).
      destruct Hin as [Hin|[]]. discriminate. }
  intros l s t th r R Ht Hin. destruct (G l s R t th r Ht Hin) as (k & Hk & F). destruct k; try discriminate; auto.
Qed.
Print Assumptions C135_current.
Print Assumptions C135_queued.
Print Assumptions C135_send_inline.
Print Assumptions C135_send_other.
Print Assumptions C135_dropped_refuted.
Print Assumptions C135_released_refuted.
Print Assumptions C135_typed.
Print Assumptions C136_refused.
Print Assumptions C136_bound.
Print Assumptions C136_one_thread.
Print Assumptions C136_loop.
Print Assumptions C136_loops.
Print Assumptions C136_pool_refuted.

(** A concrete run: a bound thread runs its loop, a task calls SendTask on its own runner
    and a nested loop, while a pool thread runs a task of a sequenced runner. *)
Definition demo : state := run (init [false; true])
  [EBind 0 Thr; ERun 0; EBegin 0; ESend 0 0; ERun 0; EBegin 0; ECreate Seq; EPost 1; EJob 1 1; EBegin 1; ERelease 1].
Example C135_case : map (fun th => (GetCurrent demo th Any, GetCurrent demo th Thread, stack th)) (ths demo) =
  [(Some 0, Some 0, [Task 0; Loop 0; Task 0; Task 0; Loop 0]); (Some 1, None, [Task 1; Job 1])].
Proof. reflexivity. Qed.
Example C136_case : (step demo (EBind 0 Thr), option_map snd (step demo (ERun 1)), option_map snd (step demo (ESend 1 0))) =
  (Some (demo, Gives None), Some Throws, Some Posted).
Proof. reflexivity. Qed.
Example C136_case_proxy : let s := run (init [false]) [EBind 0 Proxy; EMsg 0; EBegin 0] in
  (map (fun th => GetCurrent s th Thread) (ths s), option_map snd (step s (ERun 0))) = ([Some 0], Some Throws).
Proof. reflexivity. Qed.
Example C135_case_drop : let s := run (init [true]) [ECreate Thr; EJob 0 0; EDrop 0] in
  map (fun th => (GetCurrent s th Any, stack th)) (ths s) = [(Some 0, [Drop 0; Job 0])].
Proof. reflexivity. Qed.
