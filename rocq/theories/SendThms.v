(** C63, C86: SendTask returns when the task is over and leaves nobody with its entry. *)
From Coq Require Import List Bool Arith Lia.
From Verif Require Import SendModel.
Import ListNotations.

(** * Specification *)
(** No spurious return of WaitOnAddress, and no failure of the thread pool in a parallel runner. *)
Definition calm (p : bool) (a : act) : Prop := a <> Spur /\ (p = true -> a <> Snd Fail).
Definition isRun (e : event) : bool := match e with ERun => true | _ => false end.
Definition isRet (e : event) : bool := match e with ERet _ => true | _ => false end.
Definition isTouch (e : event) : bool := match e with ETouch _ => true | _ => false end.
Definition count (f : event -> bool) (l : list event) : nat := length (filter f l).
Lemma count_app : forall f a b, count f (a ++ b) = count f a + count f b.
Proof. intros. unfold count. rewrite filter_app, app_length. reflexivity. Qed.

(** * Invariant *)
(** What was done for the entry. *)
Definition did (l : list event) (c : code) : Prop := In (EEnd c) l \/ (c = CA /\ ~ In ERun l).
Definition J (s : st) : Prop :=
  (forall t, In (ETouch t) (log s) -> t = TRef) /\
  match wk s with
  | NO => log s = [] \/ exists v, log s = [ERet v]
  | QU | CW | R0 => hr s = None /\ can s = false /\ ~ In ERun (log s) /\ (sd s = S2 \/ sd s = S3)
  | R1 => hr s = None /\ (sd s = S2 \/ sd s = S3)
  | R2 c => hr s = None /\ In (EEnd c) (log s) /\ (sd s = S2 \/ sd s = S3)
  | R3 => (exists c, hr s = Some c /\ did (log s) c) /\ sd s <> S0
  | R4 | FIN => (exists c, hr s = Some c /\ did (log s) c) /\ sd s <> S0 /\ sd s <> S3
  end /\
  match sd s with
  | S0 => wk s = NO /\ log s = [] /\ can s = false
  | S2 => wk s <> NO /\ ~ (exists v, In (ERet v) (log s)) /\ can s = false
  | S3 => wk s <> NO /\ ~ (exists v, In (ERet v) (log s)) /\ can s = false
  | S4 => ~ (exists v, In (ERet v) (log s)) /\ can s = false /\ match wk s with R3 | R4 | FIN => True | _ => False end
  | S5 v => can s = false /\ ~ (exists v', In (ERet v') (log s)) /\ match v with VErr => wk s = NO | VHr h => wk s <> NO /\ h = hr s end
  | S6 v => ~ (exists v', In (ERet v') (log s)) /\ match v with VErr => wk s = NO | VHr h => wk s <> NO /\ h = hr s end
  | S7 v => (forall v', In (ERet v') (log s) -> v' = v) /\ match v with VErr => wk s = NO | VHr h => wk s <> NO /\ h = hr s end
  end.
Lemma start_J : forall p, J (start p).
Proof. intros p. repeat split; cbn; auto; try tauto. Qed.
Ltac snoc := repeat match goal with
  | H : In _ (_ ++ [_]) |- _ => apply in_app_or in H; destruct H as [H|[H|[]]]
  | |- In _ (_ ++ [_]) => apply in_or_app
  | H : exists _, _ |- _ => destruct H
  | H : _ /\ _ |- _ => destruct H
  end.
Lemma did_app : forall l c e, e <> ERun -> did l c -> did (l ++ [e]) c.
Proof. intros l c e N [H|[H1 H2]]; [left; apply in_or_app; auto|right; split; [exact H1|]]. intros X. snoc; [auto|congruence]. Qed.
Lemma exec_J : forall s a s', J s -> calm (par s) a -> exec s a = Some s' -> J s' /\ par s' = par s.
Proof.
  intros [p d w h c l] a s' (T & W & D) [C1 C2] E. cbn [par sd wk hr can log] in *. destruct a as [x|b c0|]; [| |congruence]; cbn [exec] in E.
  - unfold send in E. cbn [sd par] in E. destruct d.
    + destruct D as (-> & -> & ->). destruct x; [| |destruct p; [exfalso; apply C2; reflexivity|]]; injection E as <-; split; try reflexivity; unfold J; cbn; intuition (try congruence); snoc; intuition.
    + destruct D as (D1 & D2 & ->). injection E as <-. split; [|reflexivity]. unfold J. cbn. split; [exact T|]. destruct h; cbn; (split; [destruct w; intuition (try congruence); snoc; intuition congruence|]); destruct w; intuition (try congruence); snoc; intuition congruence.
    + discriminate.
    + destruct D as (D1 & -> & D2). injection E as <-. split; [|reflexivity]. unfold J. cbn. split; [exact T|]. destruct w; try contradiction; cbn; intuition congruence.
    + destruct D as (-> & D1 & D2). cbn in E. injection E as <-. split; [|reflexivity]. unfold J. cbn. split; [exact T|]. split; [|auto]. destruct w; intuition (try congruence); subst; try (destruct v; intuition congruence).
    + destruct D as (D1 & D2). injection E as <-. split; [|destruct h; reflexivity]. destruct v as [|h'].
      * subst w. destruct W as [->|[v ->]]; [|exfalso; apply D1; exists v; left; reflexivity]. unfold J, cas. destruct h; cbn; (split; [intros t [X|[]]; discriminate|]; split; [right; eexists; reflexivity|split; [|reflexivity]; intros v' [X|[]]; congruence]).
      * destruct D2 as [D2 ->]. assert (HS : exists c', h = Some c' /\ did l c' /\ match w with R3 | R4 | FIN => True | _ => False end) by (destruct w; intuition (try congruence); snoc; eauto). destruct HS as (c' & -> & HD & HW). unfold J, cas. cbn. split; [intros t X; snoc; [auto|discriminate]|].
        split; [|split; [|auto]]; [|intros v' X; snoc; [exfalso; apply D1; eauto|congruence]].
        assert (HE : exists c, Some c' = Some c /\ did (l ++ [ERet (VHr (Some c'))]) c) by (exists c'; split; [reflexivity|apply did_app; [discriminate|exact HD]]).
        destruct w; try contradiction; (split; [exact HE|intuition congruence]).
    + discriminate.
  - unfold work in E. cbn [wk] in E. destruct w; try discriminate.
    + injection E as <-. destruct W as (-> & -> & W3 & W4). unfold use. assert (N : dead (ST p d QU None false l) = false) by (destruct W4; subst d; reflexivity). rewrite N. split; [|reflexivity]. unfold J. cbn. split; [exact T|].
      split; [destruct b; auto|]. destruct W4; subst d; destruct b; intuition congruence.
    + injection E as <-. destruct W as (-> & -> & W3 & W4). unfold use. assert (N : dead (ST p d CW None false l) = false) by (destruct W4; subst d; reflexivity). rewrite N. split; [|reflexivity]. unfold J. cbn. split; [exact T|].
      split; [split; [exists CA; split; [reflexivity|right; auto]|destruct W4; subst d; discriminate]|]. destruct W4; subst d; intuition congruence.
    + destruct W as (-> & -> & W3 & W4). unfold use in E. assert (N : dead (ST p d R0 None false l) = false) by (destruct W4; subst d; reflexivity). rewrite N in E. cbn in E. injection E as <-. split; [|reflexivity]. unfold J. cbn. split; [intros t X; snoc; [auto|discriminate]|].
      split; [auto|]. assert (NR : (exists v, In (ERet v) l) -> exists v, In (ERet v) (l ++ [ERun])) by (intros [v X]; exists v; apply in_or_app; auto). destruct W4; subst d; destruct D as (D1 & D2 & D3); (split; [discriminate|split; [|reflexivity]]; intros [v X]; snoc; [apply D2; eauto|discriminate]).
    + injection E as <-. destruct W as (-> & W4). unfold use. assert (N : dead (ST p d R1 None c l) = false) by (destruct W4; subst d; reflexivity). rewrite N. split; [|reflexivity]. unfold J. cbn. split; [intros t X; snoc; [auto|discriminate]|].
      split; [split; [reflexivity|split; [apply in_or_app; right; left; reflexivity|exact W4]]|]. destruct W4; subst d; destruct D as (D1 & D2 & D3); (split; [discriminate|split; [|exact D3]]; intros [v X]; snoc; [apply D2; eauto|discriminate]).
    + injection E as <-. destruct W as (-> & W3 & W4). unfold use. assert (N : dead (ST p d (R2 c1) None c l) = false) by (destruct W4; subst d; reflexivity). rewrite N. split; [|reflexivity]. unfold J. cbn. split; [exact T|].
      split; [split; [exists c1; split; [reflexivity|left; exact W3]|destruct W4; subst d; discriminate]|]. destruct W4; subst d; intuition congruence.
    + injection E as <-. destruct W as (W1 & W2). destruct d; (split; [|reflexivity]); unfold J; cbn; (split; [exact T|]); (split; [intuition congruence|]); intuition (try congruence); try (destruct v; intuition congruence).
    + injection E as <-. destruct W as ((c' & -> & HD) & W1 & W2). destruct (dead (ST p d R4 (Some c') c l)) eqn:N; unfold use; rewrite N; (split; [|reflexivity]); unfold J; cbn.
      * destruct d; try discriminate. destruct D as (D1 & D2). split; [intros t X; snoc; [auto|congruence]|]. split; [split; [exists c'; split; [reflexivity|apply did_app; [discriminate|exact HD]]|auto]|]. split; [intros v' X; snoc; [auto|discriminate]|]. destruct v; intuition congruence.
      * split; [exact T|]. split; [split; [exists c'; auto|auto]|]. destruct d; try discriminate; try (destruct v); intuition congruence.
Qed.
Lemma run_J : forall l s s', J s -> Forall (calm (par s)) l -> run s l = Some s' -> J s'.
Proof.
  induction l as [|a l IH]; intros s s' I F R; cbn in R; [injection R as <-; exact I|]. inversion F; subst. destruct (exec s a) as [s1|] eqn:E; [|discriminate].
  destruct (exec_J _ _ _ I H1 E) as [I1 P1]. apply (IH s1); [exact I1|rewrite P1; exact H2|exact R].
Qed.

(** * Theorems *)
(** Full statement (C63): after SendTask has returned, nobody uses its entry.  It is false ([C63_refuted] ff.);
    true is: if WaitOnAddress does not return spuriously and the pool of a parallel runner does not fail,
    the only such use is Release, at most once. *)
Theorem C63_partial : forall p l s t, Forall (calm p) l -> run (start p) l = Some s -> In (ETouch t) (log s) -> t = TRef.
Proof. intros p l s t F R H. destruct (run_J l (start p) s (start_J p) F R) as (T & _). apply T, H. Qed.
(** Each entry is run at most once and SendTask returns at most once, whatever happens. *)
Definition N1 (s : st) : Prop :=
  count isRun (log s) = match wk s with NO | QU | CW | R0 => 0 | _ => count isRun (log s) end /\ count isRun (log s) <= 1 /\
  count isRet (log s) = match sd s with S7 _ => 1 | _ => 0 end /\ (sd s = S0 -> wk s = NO).
Lemma exec_N1 : forall s a s', N1 s -> exec s a = Some s' -> N1 s'.
Proof.
  intros [p d w h c l] a s' (A & B & C & Z) E. cbn [log sd wk] in *. unfold N1.
  destruct a as [x|b c0|]; cbn [exec] in E.
  - unfold send in E. cbn in E. destruct d; try discriminate; [rewrite Z in * by reflexivity; destruct x; [| |destruct p]| | | |]; try destruct c; injection E as <-; unfold cas; cbn; try destruct h; cbn; unfold count in *; rewrite ?filter_app, ?app_length; cbn in *; rewrite ?Nat.add_0_r; try destruct w; (split; [|split; [|split; [|try discriminate; auto]]]); lia.
  - unfold work in E. cbn in E. destruct w; try discriminate.
    all: unfold use, dead in E; cbn in E; destruct d; cbn in E; try (destruct c; cbn in E); injection E as <-; unfold cas; cbn; try destruct h; try destruct b; cbn; unfold count in *; rewrite ?filter_app, ?app_length; cbn in *; rewrite ?Nat.add_0_r; try (specialize (Z eq_refl); discriminate); (split; [|split; [|split; [|discriminate]]]); lia.
  - cbn in E. destruct d; try discriminate. injection E as <-. cbn. repeat split; auto; discriminate.
Qed.
Lemma reach_N1 : forall p l s, run (start p) l = Some s -> N1 s.
Proof.
  intros p l. assert (X : forall l s s', N1 s -> run s l = Some s' -> N1 s').
  { clear. induction l as [|a l IH]; intros s s' I R; cbn in R; [injection R as <-; exact I|]. destruct (exec s a) eqn:E; [|discriminate]. eapply IH; [eapply exec_N1; eassumption|exact R]. }
  intros s R. eapply X; [|exact R]. unfold N1. cbn. auto.
Qed.
Theorem C86_once : forall p l s, run (start p) l = Some s -> count isRun (log s) <= 1 /\ count isRet (log s) <= 1.
Proof. intros p l s R. destruct (reach_N1 _ _ _ R) as (_ & A & B & _). split; [exact A|]. rewrite B. destruct (sd s); lia. Qed.
(** At most one use of the dead entry. *)
Definition N2 (s : st) : Prop := match wk s with FIN => count isTouch (log s) <= 1 | _ => count isTouch (log s) = 0 end.
Lemma exec_N2 : forall s a s', J s -> calm (par s) a -> N2 s -> exec s a = Some s' -> N2 s'.
Proof.
  intros [p d w h c l] a s' (T & W & D) [C1 C2] H E. unfold N2 in *. cbn [log wk sd par hr can] in *. destruct a as [x|b c0|]; [| |congruence]; cbn [exec] in E.
  - unfold send in E. cbn in E. destruct d; try discriminate.
    + destruct D as (-> & -> & ->). destruct x; [| |destruct p; [exfalso; apply C2; reflexivity|]]; injection E as <-; cbn; exact H.
    + injection E as <-. exact H.
    + injection E as <-. exact H.
    + destruct c; injection E as <-; cbn; unfold count in *; rewrite ?filter_app, ?app_length; cbn in *; rewrite ?Nat.add_0_r; exact H.
    + injection E as <-. unfold cas. destruct h; cbn; unfold count in *; rewrite ?filter_app, ?app_length; cbn in *; rewrite ?Nat.add_0_r; exact H.
  - unfold work, use, dead in E. cbn in E. destruct w; try discriminate; cbn in E.
    1-5: destruct W as (W1 & W2); try (destruct W2 as (W2 & W3)); try (destruct W3 as (W3 & W4)); assert (X : d = S2 \/ d = S3) by tauto; destruct X; subst d; subst h; cbn in E; try (destruct c; cbn in E); injection E as <-; try destruct b; cbn; unfold count in *; rewrite ?filter_app, ?app_length; cbn in *; lia.
    + destruct d; injection E as <-; cbn; exact H.
    + destruct d; injection E as <-; cbn; unfold count in *; rewrite ?filter_app, ?app_length; cbn in *; lia.
Qed.
Theorem C63_once_partial : forall p l s, Forall (calm p) l -> run (start p) l = Some s -> count isTouch (log s) <= 1.
Proof.
  intros p l s F R. assert (X : forall l s s', J s -> N2 s -> Forall (calm (par s)) l -> run s l = Some s' -> N2 s').
  { clear. induction l as [|a l IH]; intros s s' I N F R; cbn in R; [injection R as <-; exact N|]. inversion F; subst. destruct (exec s a) as [s1|] eqn:E; [|discriminate]. destruct (exec_J _ _ _ I H1 E) as [I1 P1].
    apply (IH s1); [exact I1|exact (exec_N2 _ _ _ I H1 N E)|rewrite P1; exact H2|exact R]. }
  assert (N : N2 s) by (eapply (X l (start p)); [apply start_J|reflexivity|exact F|exact R]). unfold N2 in N. destruct (wk s); lia.
Qed.
(** Full statement (C86): SendTask returns the error of PostTaskInternal, or after the task is over and with
    its result: that of the callback, or ERROR_CANCELLED if the callback will never run.  It is false
    ([C86_refuted]); it is true if WaitOnAddress does not return spuriously and the pool of a parallel runner does not fail. *)
Definition answers (l : list event) (v : value) : Prop :=
  match v with VErr => ~ In ERun l | VHr h => exists c, h = Some c /\ (In (EEnd c) l \/ (c = CA /\ ~ In ERun l)) end.
Theorem C86_partial : forall p l s v, Forall (calm p) l -> run (start p) l = Some s -> In (ERet v) (log s) -> answers (log s) v.
Proof.
  intros p l s v F R H. destruct (run_J l (start p) s (start_J p) F R) as (T & W & D). assert (X : exists v', sd s = S7 v').
  { destruct (reach_N1 _ _ _ R) as (_ & _ & C & _). assert (Y : 0 < count isRet (log s)) by (clear -H; induction (log s) as [|e q IH]; [destruct H|destruct H as [->|H]; [unfold count; cbn; lia|specialize (IH H); unfold count in *; cbn; destruct (isRet e); cbn; lia]]). destruct (sd s); try lia. eauto. }
  destruct X as [v' X]. rewrite X in D. destruct D as [D1 D2]. pose proof (D1 _ H). subst v'. destruct v as [|h]; cbn.
  - rewrite D2 in W. destruct W as [W|[v W]]; rewrite W; cbn; intuition congruence.
  - destruct D2 as [D2 ->]. destruct (wk s); intuition (try congruence); destruct H0 as [c [A B]]; exists c; auto.
Qed.
(** If nobody can go on, SendTask has returned and the runner is done: no wake-up is lost. *)
Theorem C86_wakes_partial : forall p l s, Forall (calm p) l -> run (start p) l = Some s -> (forall x, send s x = None) -> (forall b c, work s b c = None) ->
  (exists v, In (ERet v) (log s)) /\ (wk s = NO \/ wk s = FIN).
Proof.
  intros p l s F R A B. destruct (run_J l (start p) s (start_J p) F R) as (T & W & D). destruct (reach_N1 _ _ _ R) as (_ & _ & C & _). assert (X : wk s = NO \/ wk s = FIN).
  { specialize (B true OK). unfold work, use in B. destruct (wk s); auto; try discriminate. destruct (dead s); cbn in B; destruct (can s); discriminate. }
  split; [|exact X]. specialize (A Accept). unfold send in A. destruct (sd s); try discriminate.
  - destruct D as (D1 & D2 & D3). destruct X as [X|X]; [congruence|]. rewrite X in W. intuition congruence.
  - destruct (can s); discriminate.
  - clear -C. induction (log s) as [|e q IH]; [discriminate|]. destruct e; try (destruct IH as [v' IH]; [exact C|exists v'; right; exact IH]). eexists. left. reflexivity.
Qed.
(** A send takes at most twelve steps of sender and runner. *)
Definition dist_s (d : spos) : nat := match d with S0 => 12 | S2 => 5 | S3 => 4 | S4 => 3 | S5 _ => 2 | S6 _ => 1 | S7 _ => 0 end.
Definition dist_w (w : wpos) : nat := match w with NO => 0 | QU => 6 | CW => 3 | R0 => 5 | R1 => 4 | R2 _ => 3 | R3 => 2 | R4 => 1 | FIN => 0 end.
Theorem C86_bounded : forall p l s, run (start p) l = Some s -> length l <= 12.
Proof.
  intros p l s R. assert (X : forall l s s', N1 s -> run s l = Some s' -> length l <= dist_s (sd s) + dist_w (wk s)).
  { clear. induction l as [|a l IH]; intros s s' I R; cbn in R |- *; [lia|]. destruct (exec s a) as [s1|] eqn:E; [|discriminate]. pose proof (IH _ _ (exec_N1 _ _ _ I E) R) as L. destruct I as (_ & _ & _ & Z). enough (dist_s (sd s1) + dist_w (wk s1) < dist_s (sd s) + dist_w (wk s)) by lia. clear -E Z.
    destruct s as [p d w h c l]. cbn [sd wk] in *. destruct a as [x|b c0|]; cbn [exec] in E.
    - unfold send in E. cbn in E. destruct d; try discriminate; [rewrite Z by reflexivity; destruct x; [| |destruct p]| | | |]; try destruct c; injection E as <-; unfold cas; cbn; try destruct h; cbn; try destruct w; cbn; lia.
    - unfold work, use, dead in E. cbn in E. destruct w; try discriminate; destruct d; cbn in E; try (specialize (Z eq_refl); discriminate); try (destruct c; cbn in E); injection E as <-; unfold cas; cbn; try destruct h; try destruct b; cbn; lia.
    - cbn in E. destruct d; try discriminate. injection E as <-. cbn. lia. }
  apply X in R; [exact R|]. unfold N1. cbn. auto.
Qed.

(** * Refutations *)
(** The worker's Release comes after its Wakeup, and the sender does not wait for it
    (SequencedTaskRunnerImpl.cpp 145-146): the worker decrements a count in a dead stack frame. *)
Theorem C63_refuted : exists l s v a b, Forall (calm false) l /\ run (start false) l = Some s /\ log s = a ++ ERet v :: b /\ In (ETouch TRef) b.
Proof.
  exists [Snd Accept; Snd Accept; Wrk true OK; Wrk true OK; Wrk true OK; Wrk true OK; Wrk true OK; Snd Accept; Snd Accept; Snd Accept; Wrk true OK].
  eexists. exists (VHr (Some OK)), [ERun; EEnd OK], [ETouch TRef]. split; [repeat (apply Forall_cons; [split; [discriminate|intros; discriminate]|]); apply Forall_nil|]. split; [vm_compute; reflexivity|]. split; [reflexivity|left; reflexivity].
Qed.
(** WaitTask does not look at hr again after WaitOnAddress (line 67; Sync::WaitEqualOnAddress, Sync.cpp 17-56, does):
    a spurious return makes SendTask return E_PENDING before the task has run, and the worker then runs a
    callback in a dead frame. *)
Theorem C63_spurious_refuted : exists l s, run (start false) l = Some s /\ log s = [ERet (VHr None); ETouch TPop; ETouch TStyle].
Proof. exists [Snd Accept; Snd Accept; Spur; Snd Accept; Snd Accept; Snd Accept; Wrk true OK; Wrk true OK]. eexists. split; [vm_compute; reflexivity|reflexivity]. Qed.
Theorem C86_refuted : exists l s, run (start false) l = Some s /\ log s = [ERun; ERet (VHr None); ETouch TCall; EEnd OK].
Proof. exists [Snd Accept; Snd Accept; Wrk true OK; Wrk true OK; Spur; Snd Accept; Snd Accept; Snd Accept; Wrk true OK]. eexists. split; [vm_compute; reflexivity|reflexivity]. Qed.
(** ParallelTaskRunnerImpl::PostTaskInternal reports the failure of the pool with the task still queued
    (ParallelTaskRunnerImpl.hpp 271-281): SendTask returns and the next worker pops the dead entry. *)
Theorem C63_parallel_refuted : exists l s, Forall (fun a => a <> Spur) l /\ run (start true) l = Some s /\ log s = [ERet VErr; ETouch TPop; ETouch TStyle; ETouch TRef].
Proof. exists [Snd Fail; Snd Fail; Snd Fail; Wrk true OK; Wrk true OK; Wrk true OK]. eexists. split; [repeat (apply Forall_cons; [discriminate|]); apply Forall_nil|]. split; [vm_compute; reflexivity|reflexivity]. Qed.

(** * Concrete cases *)
Example C63_case : match run (start false) ([Snd Accept; Snd Accept] ++ repeat (Wrk true CA) 6 ++ repeat (Snd Accept) 3) with
  | Some s => log s = [ERun; EEnd CA; ERet (VHr (Some CA))] /\ wk s = FIN | None => False end.
Proof. vm_compute. split; reflexivity. Qed.
Example C86_case_cancelled : match run (start true) ([Snd Accept; Wrk false OK; Snd Accept; Wrk false OK; Wrk false OK] ++ repeat (Snd Accept) 3) with
  | Some s => log s = [ERet (VHr (Some CA))] /\ wk s = R4 | None => False end.
Proof. vm_compute. split; reflexivity. Qed.
Example C86_case_refused : match run (start false) [Snd Fail; Snd Fail; Snd Fail] with Some s => log s = [ERet VErr] /\ wk s = NO | None => False end.
Proof. vm_compute. split; reflexivity. Qed.
(** The hypotheses of [C86_wakes_partial] are met at the end of the first case. *)
Example C86_case_end : match run (start false) ([Snd Accept; Snd Accept] ++ repeat (Wrk true CA) 6 ++ repeat (Snd Accept) 3) with
  | Some s => send s Accept = None /\ work s true OK = None | None => False end.
Proof. vm_compute. split; reflexivity. Qed.
Print Assumptions C63_partial.
Print Assumptions C63_once_partial.
Print Assumptions C63_refuted.
Print Assumptions C63_spurious_refuted.
Print Assumptions C63_parallel_refuted.
Print Assumptions C86_once.
Print Assumptions C86_partial.
Print Assumptions C86_wakes_partial.
Print Assumptions C86_bounded.
Print Assumptions C86_refuted.
