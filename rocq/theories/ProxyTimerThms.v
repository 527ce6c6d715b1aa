(** Property C110: the window timer of a proxy runner is set for the next timer. *)
From Coq Require Import ZArith Lia Bool List Permutation.
From Verif Require Import Word BitMapModel BitMapThms TimerModel TimerProofs TimerInv TimerThms ProxyTimerModel.
Import ListNotations.
Local Open Scope Z_scope.

(** ** Specification *)
(** The timers set by a history. *)
Fixpoint psets (l : list pop) : list timer :=
  match l with [] => [] | POwn _ t :: r | POther _ t :: r => t :: psets r | _ :: r => psets r end.
Definition own_only (l : list pop) : Prop := forall now t, ~ In (POther now t) l.

(** ** Proofs *)
Section P.
Variable tpm : Z.
Hypothesis tpm0 : 0 < tpm.
Definition SW (s : tm) : Prop := SI tpm (fun _ => True) False s.
Lemma SW_set : forall s t, SW s -> is_tick t -> SW (fst (SetTimer tpm s t)).
Proof.
  intros s t H T. destruct (runs_ok tpm tpm0 (fun _ => True) False (or_intror (fun x => x)) [OSet t] s H) as (s' & ev & E & I & _).
  - cbn [along okop]. split; [|cbn [step]; destruct (SetTimer tpm s t); exact I]. split; [exact T|]. split; [left; exact I|intros []].
  - cbn [runs step] in E. destruct (SetTimer tpm s t) as [w l]. injection E as <- _. exact I.
Qed.
Lemma SW_process : forall s now, SW s -> exists w l, Process tpm s now = Some (w, l) /\ SW w.
Proof.
  intros s now H. destruct (runs_ok tpm tpm0 (fun _ => True) False (or_intror (fun x => x)) [OProcess now] s H) as (s' & ev & E & I & _).
  - cbn [along okop]. split; [left; intros []|]. cbn [step]. destruct (Process tpm s now) as [[w l]|]; exact I.
  - cbn [runs step] in E. destruct (Process tpm s now) as [[w l]|]; [|discriminate]. injection E as <- _. exists w, l. auto.
Qed.
Lemma SW_cancel : forall s f, SW s -> SW (mktm (last s) (base s) (w1 s) (w2 s) (w3 s) (oth s) f).
Proof. intros s f H. exact H. Qed.
Lemma min_none : forall s, SW s -> MinimumWakeup s = None -> pending s = [].
Proof.
  intros s [_ ((O1 & O2 & O3) & _)]. unfold MinimumWakeup. rewrite <- all_pending.
  change kTick with 8 in *; change kN1 with 128 in *; change kN2 with 64 in *; change kN3 with 64 in *.
  destruct (IsEmpty (bmp (w1 s))) eqn:E1.
  2:{ destruct (0 <=? _); discriminate. }
  destruct (IsEmpty (bmp (w2 s))) eqn:E2.
  2:{ destruct (0 <? _); discriminate. }
  destruct (IsEmpty (bmp (w3 s))) eqn:E3.
  2:{ destruct (0 <=? _); discriminate. }
  intros H. assert (H4 : oth s = []) by (destruct (oth s); [reflexivity|discriminate]).
  unfold all. rewrite H4.
  rewrite (content_nil 128 (w1 s)) by (apply (wok_empty 128); [exact O1|unfold W32; lia|exact E1]).
  rewrite (content_nil 64 (w2 s)) by (apply (wok_empty 64); [exact O2|unfold W32; lia|exact E2]).
  rewrite (content_nil 64 (w3 s)) by (apply (wok_empty 64); [exact O3|unfold W32; lia|exact E3]).
  reflexivity.
Qed.
Lemma same_wk_eq : forall a m, same_wk a m = true <-> a = Some m.
Proof. intros [n|] m; cbn; split; intros H; try discriminate. - apply Z.eqb_eq in H. congruence. - injection H as ->. apply Z.eqb_refl. Qed.
Definition PI (s : pst) : Prop := SW (wh s) /\ wk s = MinimumWakeup (wh s) /\ (wk s = None <-> wnd s = None).
Lemma execute_PI : forall s now, SW (wh s) -> (wk s = None <-> wnd s = None) -> exists s' l, execute tpm s now = Some (s', l) /\ PI s'.
Proof.
  intros s now H A. destruct (SW_process _ now H) as (w & l & E & I). unfold execute. rewrite E. eexists. eexists. split; [reflexivity|].
  destruct (MinimumWakeup w) as [m|] eqn:M.
  - destruct (same_wk (wk s) m) eqn:S.
    + apply same_wk_eq in S. split; [exact I|]. split; [cbn; congruence|exact A].
    + split; [exact I|]. split; [cbn; congruence|]. split; discriminate.
  - destruct (wk s) eqn:K; (split; [exact I|]); (split; [cbn; congruence|]); cbn; [tauto|]. exact A.
Qed.
Lemma pstep_PI : forall s o s' e, pstep tpm s o = Some (s', e) -> (forall t, In t (psets [o]) -> is_tick t) -> own_only [o] -> PI s -> PI s'.
Proof.
  intros s o s' e E T O (H & K & A). destruct o as [now t|now t|now|i]; cbn in E.
  - destruct (now <? ck s); [discriminate|]. destruct (canc (wh s) (tid t)).
    + injection E as <- _. split; [exact H|]. split; [exact K|exact A].
    + pose proof (SW_set _ t H (T t (or_introl eq_refl))) as H1. destruct (SetTimer tpm (wh s) t) as [w l]. cbn in H1.
      destruct (execute_PI (PS w (wk s) (wnd s) now) now H1 A) as (s2 & l2 & E2 & P2). rewrite E2 in E. injection E as <- _. exact P2.
  - exfalso. apply (O now t). left. reflexivity.
  - destruct (wnd s) as [[due p]|] eqn:W; [|discriminate]. destruct (_ || _); [discriminate|].
    assert (A1 : wk s = None <-> Some (now + p * tpm, p) = None) by (split; [intros X; apply A in X; discriminate|discriminate]).
    destruct (execute_PI (PS (wh s) (wk s) (Some (now + p * tpm, p)) now) now H A1) as (s2 & l2 & E2 & P2). rewrite E2 in E. injection E as <- _. exact P2.
  - injection E as <- _. split; [exact (SW_cancel _ _ H)|]. split; [exact K|exact A].
Qed.
Lemma pruns_PI : forall l s s' e, pruns tpm s l = Some (s', e) -> (forall t, In t (psets l) -> is_tick t) -> own_only l -> PI s -> PI s'.
Proof.
  induction l as [|o l IH]; intros s s' e E T O P; cbn in E; [injection E as <- _; exact P|].
  destruct (pstep tpm s o) as [[s1 e1]|] eqn:E1; [|discriminate]. destruct (pruns tpm s1 l) as [[s2 e2]|] eqn:E2; [|discriminate]. injection E as <- _.
  eapply IH; [exact E2| | |].
  - intros t H. apply T. destruct o; cbn; auto.
  - intros now t H. apply (O now t). right. exact H.
  - eapply pstep_PI; [exact E1| | |exact P].
    + intros t H. apply T. destruct o; cbn in *; tauto.
    + intros now t [H|[]]. apply (O now t). left. exact H.
Qed.
End P.

(** If timers are set on the runner's own thread, the window timer runs whenever a timer is pending, and
    uTimerWakeupTickCount is the wake-up time of the wheel (C57).  Missing: timers set on other threads, and that
    WM_TIMER comes by that time (both refuted below). *)
Theorem C110_armed_partial : forall tpm now0 l s e, 0 < tpm -> 0 <= now0 -> (forall t, In t (psets l) -> is_tick t) -> own_only l ->
  pruns tpm (pinit tpm now0) l = Some (s, e) ->
  wk s = MinimumWakeup (wh s) /\ (pending (wh s) <> [] -> exists due p, wnd s = Some (due, p)).
Proof.
  intros tpm now0 l s e H0 N0 T O E.
  assert (P0 : PI tpm (pinit tpm now0)).
  { split; [apply init_ok; assumption|]. cbn. split; [reflexivity|tauto]. }
  destruct (pruns_PI tpm H0 _ _ _ _ E T O P0) as (I & K & A). split; [exact K|]. intros NE.
  destruct (wnd s) as [[due p]|] eqn:W; [eauto|]. exfalso. apply NE. apply (min_none tpm); [exact I|]. rewrite <- K. apply A. reflexivity.
Qed.
Print Assumptions C110_armed_partial.

(** When the window timer is set, the first WM_TIMER is due after now and not after the wake-up time, unless that
    is less than a millisecond away. *)
Theorem C110_set : forall tpm s o s' e m, 0 < tpm -> pstep tpm s o = Some (s', e) -> wk s' = Some m -> wk s' <> wk s ->
  exists due p, wnd s' = Some (due, p) /\ ck s' < due <= Z.max (m * tpm) (ck s' + tpm).
Proof.
  intros tpm s o s' e m H0 E W N.
  assert (K : forall z now s1 l, execute tpm z now = Some (s1, l) -> wk s1 = Some m -> wk s1 <> wk z ->
    exists due p, wnd s1 = Some (due, p) /\ ck s1 < due <= Z.max (m * tpm) (ck s1 + tpm)).
  { intros z now s1 l X Y V. unfold execute in X. destruct (Process tpm (wh z) now) as [[w k]|]; [|discriminate]. injection X as <- _.
    destruct (MinimumWakeup w) as [n|]; [|destruct (wk z); discriminate].
    destruct (same_wk (wk z) n) eqn:S; [exfalso; apply V; reflexivity|]. cbn in Y. injection Y as ->. cbn. eexists. eexists. split; [reflexivity|].
    unfold wait_ms. destruct (Z.leb_spec (m * tpm - now) 0) as [L|L]; [nia|].
    assert (D : (m * tpm - now) / tpm * tpm <= m * tpm - now) by (pose proof (Z.mul_div_le (m * tpm - now) tpm H0); lia).
    set (d := (m * tpm - now) / tpm) in *. assert (1 <= Z.min (2 ^ 32 - 1) (Z.max d 1) <= Z.max d 1) as (Q1 & Q2) by lia. set (x := Z.min (2 ^ 32 - 1) (Z.max d 1)) in *.
    split; [nia|]. destruct (Z.max_spec d 1) as [(_ & Q)|(_ & Q)]; rewrite Q in Q2; nia. }
  destruct o as [now t|now t|now|i]; cbn in E.
  - destruct (now <? ck s); [discriminate|]. destruct (canc (wh s) (tid t)); [injection E as <- _; exfalso; apply N; reflexivity|].
    destruct (SetTimer tpm (wh s) t) as [w l]. destruct (execute tpm _ now) as [[s2 l2]|] eqn:E2; [|discriminate]. injection E as <- _. exact (K _ _ _ _ E2 W N).
  - destruct (now <? ck s); [discriminate|]. destruct (canc (wh s) (tid t)); [injection E as <- _; exfalso; apply N; reflexivity|].
    destruct (SetTimer tpm (wh s) t) as [w l]. injection E as <- _. exfalso; apply N; reflexivity.
  - destruct (wnd s) as [[due p]|]; [|discriminate]. destruct (_ || _); [discriminate|]. exact (K _ _ _ _ E W N).
  - injection E as <- _. exfalso; apply N; reflexivity.
Qed.
Print Assumptions C110_set.

(** Without a window timer only a timer set on the runner's own thread helps: no WM_TIMER comes, and nothing is
    dispatched but timers set on other threads that had expired when the wheel was last processed. *)
Theorem C110_never : forall tpm l s s' e, wnd s = None -> (forall now t, ~ In (POwn now t) l) -> pruns tpm s l = Some (s', e) ->
  wnd s' = None /\ last (wh s') = last (wh s) /\ forall t now c, In (t, now, c) e -> In t (psets l) /\ texp t <= last (wh s).
Proof.
  intros tpm. induction l as [|o l IH]; intros s s' e W N E; cbn in E.
  - injection E as <- <-. split; [exact W|]. split; [reflexivity|]. intros t now c [].
  - destruct (pstep tpm s o) as [[s1 e1]|] eqn:E1; [|discriminate]. destruct (pruns tpm s1 l) as [[s2 e2]|] eqn:E2; [|discriminate]. injection E as <- <-.
    assert (K : wnd s1 = None /\ last (wh s1) = last (wh s) /\ forall t now c, In (t, now, c) e1 -> In t (psets [o]) /\ texp t <= last (wh s)).
    { destruct o as [now t|now t|now|i]; cbn in E1.
      - exfalso. apply (N now t). left. reflexivity.
      - destruct (now <? ck s); [discriminate|]. destruct (canc (wh s) (tid t)).
        + injection E1 as <- <-. split; [exact W|]. split; [reflexivity|]. intros u n c [].
        + unfold SetTimer in E1. cbv zeta in E1. destruct (Z.leb_spec (texp t) (last (wh s))) as [L|L].
          * injection E1 as <- <-. split; [exact W|]. split; [reflexivity|]. intros u n c [X|[]]. injection X as <- _ _. split; [left; reflexivity|exact L].
          * repeat match type of E1 with context [if ?c then _ else _] => destruct c end; injection E1 as <- <-; split; try exact W; split; try reflexivity; intros u n c [].
      - rewrite W in E1. discriminate.
      - injection E1 as <- <-. split; [exact W|]. split; [reflexivity|]. intros u n c []. }
    destruct K as (K1 & K2 & K3). destruct (IH _ _ _ K1 (fun now t H => N now t (or_intror H)) E2) as (I1 & I2 & I3).
    split; [exact I1|]. split; [congruence|]. intros t now c H. apply in_app_or in H. destruct H as [H|H].
    + destruct (K3 _ _ _ H) as (A & B). split; [|exact B]. destruct o; cbn in *; tauto.
    + destruct (I3 _ _ _ H) as (A & B). split; [|rewrite <- K2; exact B]. destruct o; cbn; auto.
Qed.
Print Assumptions C110_never.

(** A timer set on another thread goes into the wheel, but no window timer is set: with C110_never, it is not
    dispatched until a timer is set on the runner's own thread. *)
Theorem C110_other_thread_refuted : exists s e, pruns 1 (pinit 1 1000) [POther 1000 (mkt 7 1500)] = Some (s, e)
  /\ pending (wh s) = [mkt 7 1500] /\ wnd s = None /\ last (wh s) < 1500 /\ e = [].
Proof. eexists. eexists. split; [reflexivity|]. split; [vm_compute; reflexivity|]. split; [reflexivity|]. split; [cbn; lia|reflexivity]. Qed.
Print Assumptions C110_other_thread_refuted.

(** The wait is rounded down to milliseconds, WM_TIMER comes before the wake-up time and finds nothing to do; since
    the wake-up time is what it was, the window timer is not set anew and comes a whole period later: a timer of one
    second (10 ticks per millisecond) is due at 10005, the next WM_TIMER at 19985. *)
Theorem C110_period_refuted : exists s e due, pruns 10 (pinit 10 5) [POwn 5 (mkt 7 10005); PTick 9995] = Some (s, e)
  /\ pending (wh s) = [mkt 7 10005] /\ e = [] /\ wnd s = Some (due, 999) /\ due = 19985 /\ wk s = Some 1000.
Proof.
  assert (E : match pruns 10 (pinit 10 5) [POwn 5 (mkt 7 10005); PTick 9995] with
    | Some (s, e) => pending (wh s) = [mkt 7 10005] /\ e = [] /\ wnd s = Some (19985, 999) /\ wk s = Some 1000 | None => False end) by (vm_compute; repeat split; reflexivity).
  destruct (pruns 10 (pinit 10 5) [POwn 5 (mkt 7 10005); PTick 9995]) as [[s e]|]; [|destruct E].
  destruct E as (E1 & E2 & E3 & E4). exists s, e, 19985. repeat split; assumption.
Qed.
Print Assumptions C110_period_refuted.

(** ** Cases *)
Definition h0 : list pop := [POwn 1000 (mkt 1 1500); POwn 1100 (mkt 2 3000); PTick 1504; PCancel 2].
Example ex_C110 : match pruns 1 (pinit 1 1000) h0 with
  | Some (s, e) => e = [(mkt 1 1500, 1504, false)] /\ pending (wh s) = [mkt 2 3000] /\ (exists due p, wnd s = Some (due, p)) /\ wk s <> None
  | None => False end.
Proof. vm_compute. repeat split; try (eexists; eexists; reflexivity); discriminate. Qed.
Example ex_C110_hyp : own_only h0 /\ forall t, In t (psets h0) -> is_tick t.
Proof.
  split; [intros now t [H|[H|[H|[H|[]]]]]; discriminate|]. intros t [<-|[<-|[]]]; unfold is_tick, W64; cbn; lia.
Qed.
Example ex_C110_set : match pstep 1 (pinit 1 1000) (POwn 1000 (mkt 1 1500)) with Some (s', _) => wk s' = Some 1024 /\ wnd s' = Some (1024, 24) | None => False end.
Proof. vm_compute. split; reflexivity. Qed.
(** Two more timers of other threads; one had expired. *)
Example ex_C110_never : match pruns 1 (pinit 1 1000) [POther 1000 (mkt 7 1500); POther 9000 (mkt 8 900); PCancel 7; POther 20000 (mkt 9 20100)] with
  | Some (s, e) => wnd s = None /\ e = [(mkt 8 900, 1000, false)] /\ length (pending (wh s)) = 2%nat | None => False end.
Proof. vm_compute. repeat split. Qed.
