(** Theorems about asynchronous file operations. *)
From Coq Require Import List Bool Arith Lia.
From Verif Require Import Slots SlotsProofs Threads FileModel FileProofs FileInv FileObj.
Import ListNotations.

(** Nobody is in the middle of anything: a thread has nothing to do or holds a Task. *)
Definition quiet (s : st) : Prop := forall a p, nth_error (ags s) a = Some p -> p = [] \/ p = [Own].
(** No thread holds a Task. *)
Definition dropped (s : st) : Prop := forall a p, nth_error (ags s) a = Some p -> ~ In Own p.
(** States of a program that starts one operation with [n] other threads. *)
Definition reach (tok skip says : bool) (n : nat) (s : st) : Prop := exists l, run tok skip says (init n) l = Some s.
(** The object never says that packets are skipped when they are not; C106 shows that it does not. *)
Definition honest (skip says : bool) : Prop := says = true -> skip = true.

Lemma reach_V : forall tok skip says n s, honest skip says -> reach tok skip says n s -> V tok skip says s.
Proof. intros tok skip says n s T (l & R). eapply run_V; [exact T|apply init_V|exact R]. Qed.
Lemma quiet_sum : forall s (f : instr -> nat), quiet s -> f Own = 0 -> cnt f s = 0.
Proof.
  intros s f. unfold quiet, cnt. induction (ags s) as [|p l IH]; intros Q F; cbn [suml]; [reflexivity|]. rewrite IH; [|intros a q K; exact (Q (S a) q K)|exact F].
  destruct (Q 0 p eq_refl) as [-> | ->]; cbn [suml]; lia.
Qed.
Lemma dropped_sum : forall s, quiet s -> dropped s -> cnt w_ref s = 0.
Proof.
  intros s. unfold quiet, dropped, cnt. induction (ags s) as [|p l IH]; intros Q D; cbn [suml]; [reflexivity|]. rewrite IH; [|intros a q K; exact (Q (S a) q K)|intros a q K; exact (D (S a) q K)].
  destruct (Q 0 p eq_refl) as [-> | ->]; [reflexivity|]. exfalso. apply (D 0 [Own] eq_refl). left. reflexivity.
Qed.
Lemma sum0 : forall (f : instr -> nat) s a p i, cnt f s = 0 -> nth_error (ags s) a = Some p -> In i p -> f i = 0.
Proof.
  intros f s a p i C N K. unfold cnt in C. pose proof (suml_0 _ _ _ C _ _ N) as Z. apply In_nth_error in K. destruct K as (k & K). exact (suml_0 _ _ _ Z _ _ K).
Qed.

(** ** C101: the operation is freed once, and only when nothing uses it *)
Theorem C101_safe : forall tok skip says n l, honest skip says -> exists s, run tok skip says (init n) l = Some s.
Proof. intros tok skip says n l T. eapply run_total; [exact T|apply init_V]. Qed.
Theorem C101_no_dangling : forall tok skip says n s, honest skip says -> reach tok skip says n s -> freed s = true ->
  rc s = 0 /\ kern s = KIdle /\ reg s = false /\ forall a p, nth_error (ags s) a = Some p -> forall i, In i p -> touch i = false.
Proof.
  intros tok skip says n s T R F. destruct (reach_V _ _ _ _ _ T R) as (IG & _). pose proof (g_live _ _ IG) as IL. pose proof (g_rc _ _ IG) as IR. pose proof (g_un _ _ IG) as IU. pose proof (g_reg _ _ IG) as IE. rewrite F in *. cbn [b2n] in *.
  assert (Z : rc s = 0 /\ kref (kern s) = 0 /\ cnt w_ref s = 0 /\ cnt w_free s = 0 /\ cnt w_unreg s = 0 /\ ctk s = 0 /\ b2n (reg s) = 0) by (unfold ctk in *; lia). destruct Z as (Z1 & Z2 & Z3 & Z4 & Z5 & Z6 & Z7).
  split; [exact Z1|]. split; [destruct (kern s); [reflexivity|discriminate Z2..]|]. split; [destruct (reg s); [discriminate Z7|reflexivity]|].
  intros a p N i K. pose proof (g_wf _ _ IG _ _ N) as WF.
  destruct WF as [WF|[WF|[WF|[WF|[WF|[WF|[WF|WF]]]]]]].
  - subst p. destruct K.
  - exfalso. pose proof (okw_w _ WF) as (B & _). unfold cnt in Z3. pose proof (suml_0 _ _ _ Z3 _ _ N). lia.
  - exfalso. subst p. pose proof (sum0 _ _ _ _ Unreg Z5 N (or_introl eq_refl)) as X. discriminate X.
  - exfalso. subst p. pose proof (sum0 _ _ _ _ Free Z4 N (or_introl eq_refl)) as X. discriminate X.
  - subst p. destruct K as [<-|[]]. reflexivity.
  - subst p. destruct K as [<-|[]]. reflexivity.
  - exfalso. subst p. unfold ctk in Z6. pose proof (suml_0 _ _ _ Z6 _ _ N) as X. discriminate X.
  - subst p. destruct K as [<-|[]]. reflexivity.
Qed.
(** Missing: an object that does not know that its handle skips packets. *)
Theorem C101_partial : forall tok skip n s, reach tok skip skip n s -> quiet s -> dropped s -> kern s = KIdle -> freed s = true.
Proof.
  intros tok skip n s R Q D K. destruct (reach_V _ _ _ _ _ (fun x => x) R) as (IG & _ & _ & (_ & _ & LK)). specialize (LK eq_refl).
  pose proof (g_live _ _ IG) as (IL & _). pose proof (g_rc _ _ IG) as IR. rewrite (dropped_sum _ Q D), K, LK in IR. cbn in IR. specialize (IL IR). rewrite (quiet_sum _ w_free Q eq_refl) in IL. destruct (freed s); [reflexivity|discriminate IL].
Qed.
Lemma leak_step : forall tok skip says s x s', honest skip says -> V tok skip says s -> leak s = 1 -> exec tok skip says s x = Go s' -> leak s' = 1.
Proof.
  intros tok skip says s x s' T IV L E. pose proof (exec_V tok skip says T _ _ _ IV E) as IV'. destruct IV as (IG & _).
  destruct x as [a c|e b|a|a|a|a b|a]; cbn [exec] in E.
  - destruct (nth_error (ags s) a) as [[|i r]|] eqn:N; [discriminate E| |discriminate E]. destruct (touch i && freed s); [discriminate E|].
    destruct i; cbn [step] in E; try (injection E as <-; exact L);
      repeat match goal with E : (if ?b then _ else _) = Go _ |- _ => destruct b end; try discriminate E; try (injection E as <-; exact L); try (destruct (sts s); injection E as <-; exact L); try (destruct (rc s); [discriminate E|injection E as <-; exact L]).
    exfalso. pose proof (g_pre _ _ IG) as P. unfold cnt in P. pose proof (suml_ge _ (suml w_pre) _ _ _ N) as A. cbn [suml w_pre] in A. lia.
  - destruct (kern s); try discriminate E. destruct (freed s); [discriminate E|]. injection E as <-. exact L.
  - destruct (kern s); try discriminate E. destruct (res s) as [[? ?]|]; [|discriminate E]. destruct (nth_error (ags s) a) as [[|? ?]|]; try discriminate E. injection E as <-. exact L.
  - destruct (nth_error (ags s) a) as [[|i [|? ?]]|]; try discriminate E; destruct i; try discriminate E. injection E as <-. exact L.
  - destruct (nth_error (ags s) a) as [[|i [|? ?]]|]; try discriminate E; destruct i; try discriminate E. injection E as <-. exact L.
  - destruct (nth_error (ags s) a) as [[|i [|? ?]]|]; try discriminate E; destruct i; try discriminate E. destruct (nth_error (ags s) b) as [[|? ?]|]; try discriminate E. destruct (freed s); [discriminate E|]. injection E as <-. exact L.
  - destruct tok; [|discriminate E]. destruct (nth_error (ags s) a) as [[|? ?]|]; try discriminate E. injection E as <-. exact L.
Qed.
(** One read that succeeds at once through an AsyncFile made by the move constructor (C106_refuted). *)
Definition sync_run : list act := [Run 0 CPend; Run 0 (CSync 7); Run 0 CPend; Run 0 CPend; Run 0 CPend; Run 0 CPend; Run 0 CPend; Run 0 CPend; Run 0 CPend; UDrop 0; Run 0 CPend; Run 0 CPend].
Theorem C101_refuted : exists s, reach false true false 0 s /\ quiet s /\ dropped s /\ kern s = KIdle /\
  forall l s', run false true false s l = Some s' -> freed s' = false.
Proof.
  assert (T : honest true false) by (intros K; discriminate K). destruct (run false true false (init 0) sync_run) as [s|] eqn:R; [|vm_compute in R; discriminate R]. assert (RS : reach false true false 0 s) by (exists sync_run; exact R).
  exists s. split; [exact RS|]. pose proof (reach_V _ _ _ _ _ T RS) as IV. clear RS. vm_compute in R. injection R as <-.
  split; [intros [|[|a]] p K; cbn in K; inversion K; auto|]. split; [intros [|[|a]] p K; cbn in K; inversion K; auto|]. split; [reflexivity|].
  match type of IV with V _ _ _ ?s => assert (L : leak s = 1) by reflexivity; generalize dependent s end.
  intros s IV L l. revert s IV L. induction l as [|x l IH]; intros s IV L s' R; cbn [run] in R.
  - injection R as <-. destruct IV as (IG & _). pose proof (g_live _ _ IG) as (_ & IL). pose proof (g_rc _ _ IG) as IR. assert (P : 1 <= rc s) by lia. specialize (IL P). destruct (freed s); [cbn in IL; lia|reflexivity].
  - destruct (exec false true false s x) as [| |s1] eqn:E; [discriminate R|eauto|]. eapply IH; [eapply exec_V; eauto|eapply leak_step; eauto|exact R].
Qed.
(** With the flag right the same read frees the operation. *)
Example C101_example : exists s, run false true true (init 0) sync_run = Some s /\ freed s = true /\ hr s = true /\ res s = Some (0, 7).
Proof. eexists. split; [vm_compute; reflexivity|]. repeat split. Qed.
(** A flag that is wrong the other way would be a use after free: the packet is delivered to a freed operation. *)
Example C101_liar : run false false true (init 1) (sync_run ++ [Deliver 1; Run 1 CPend]) = None.
Proof. vm_compute. reflexivity. Qed.

(** ** C102: the result is the kernel's, and is set once *)
Theorem C102_result : forall tok skip says n s, honest skip says -> reach tok skip says n s -> hr s = true -> sts s = Completed -> exists b, res s = Some (lst s, b).
Proof.
  intros tok skip says n s T R H S. destruct (reach_V _ _ _ _ _ T R) as (_ & (_ & (J1 & J2 & J3 & J4) & _) & _). rewrite S, H in *. cbn in J1. apply J4; [cbn; lia|lia].
Qed.
Theorem C102_settled : forall tok skip says n s, honest skip says -> reach tok skip says n s -> hr s = true -> sts s <> Started.
Proof. intros tok skip says n s T R H S. destruct (reach_V _ _ _ _ _ T R) as (_ & (_ & (J1 & _) & _) & _). rewrite S, H in *. cbn in J1. lia. Qed.
Lemma stable_step : forall tok skip says s x s', V tok skip says s -> hr s = true -> exec tok skip says s x = Go s' -> hr s' = true /\ sts s' = sts s /\ lst s' = lst s.
Proof.
  intros tok skip says s x s' (IG & (_ & (J1 & _) & _) & _) H E. rewrite H in J1. cbn [b2n] in J1.
  destruct x as [a c|e b|a|a|a|a b|a]; cbn [exec] in E.
  - destruct (nth_error (ags s) a) as [[|i r]|] eqn:N; [discriminate E| |discriminate E]. destruct (touch i && freed s); [discriminate E|].
    destruct i; cbn [step] in E; try (injection E as <-; auto; fail);
      repeat match goal with E : (if ?b then _ else _) = Go _ |- _ => destruct b eqn:? end; try discriminate E; try (injection E as <-; auto; fail); try (destruct c; injection E as <-; auto; fail); try (destruct (sts s) eqn:ST; injection E as <-; auto; fail); try (destruct (rc s); [discriminate E|injection E as <-; auto; fail]).
    + exfalso. destruct (sts s); [|discriminate..]. cbn in J1. lia.
    + exfalso. unfold cnt in J1. pose proof (suml_ge _ (suml w_wl) _ _ _ N) as A. cbn [suml w_wl] in A. lia.
    + exfalso. destruct (sts s); [|discriminate..]. cbn in J1. lia.
  - destruct (kern s); try discriminate E. destruct (freed s); [discriminate E|]. injection E as <-. auto.
  - destruct (kern s); try discriminate E. destruct (res s) as [[? ?]|]; [|discriminate E]. destruct (nth_error (ags s) a) as [[|? ?]|]; try discriminate E. injection E as <-. auto.
  - destruct (nth_error (ags s) a) as [[|i [|? ?]]|]; try discriminate E; destruct i; try discriminate E. injection E as <-. auto.
  - destruct (nth_error (ags s) a) as [[|i [|? ?]]|]; try discriminate E; destruct i; try discriminate E. injection E as <-. auto.
  - destruct (nth_error (ags s) a) as [[|i [|? ?]]|]; try discriminate E; destruct i; try discriminate E. destruct (nth_error (ags s) b) as [[|? ?]|]; try discriminate E. destruct (freed s); [discriminate E|]. injection E as <-. auto.
  - destruct tok; [|discriminate E]. destruct (nth_error (ags s) a) as [[|? ?]|]; try discriminate E. injection E as <-. auto.
Qed.
Theorem C102_once : forall tok skip says n s l s', honest skip says -> reach tok skip says n s -> hr s = true -> run tok skip says s l = Some s' -> hr s' = true /\ sts s' = sts s /\ lst s' = lst s.
Proof.
  intros tok skip says n s l s' T R. pose proof (reach_V _ _ _ _ _ T R) as IV. clear R. revert s IV. induction l as [|x l IH]; intros s IV H E; cbn [run] in E; [injection E as <-; auto|].
  destruct (exec tok skip says s x) as [| |s1] eqn:X; [discriminate E|eauto|]. destruct (stable_step _ _ _ _ _ _ IV H X) as (A & B & C). destruct (IH s1 (exec_V _ _ _ T _ _ _ IV X) A E) as (D & F & G). split; [exact D|]. split; congruence.
Qed.
(** A read that is pending, then completes with status 5 and 3 bytes. *)
Definition pend_run : list act := [Run 0 CPend; Run 0 CPend; Run 0 CPend; Run 0 CPend; Run 0 CPend; Run 0 CPend; Run 0 CPend; Complete 5 3; Deliver 1; Run 1 CPend; Run 1 CPend; Run 1 CPend; Run 1 CPend; Run 1 CPend; Run 1 CPend; Run 1 CPend].
Example C102_example : exists s, reach true false false 1 s /\ hr s = true /\ sts s = Completed /\ lst s = 5 /\ res s = Some (5, 3) /\ reg s = true.
Proof. destruct (run true false false (init 1) pend_run) as [s|] eqn:R; [|vm_compute in R; discriminate R]. exists s. split; [exists pend_run; exact R|]. vm_compute in R. injection R as <-. repeat split. Qed.

(** ** C103: a settled operation no longer uses the buffer *)
(** Missing: Cancel settles the operation while the kernel still has the buffer. *)
Theorem C103_partial : forall tok skip says n s, honest skip says -> reach tok skip says n s -> sts s <> Started -> kern s = KPend -> sts s = Canceled /\ forced s = true.
Proof.
  intros tok skip says n s T R S K. destruct (reach_V _ _ _ _ _ T R) as (_ & ((_ & I2 & _) & (_ & J2 & _) & J3) & _). unfold Q3 in J3. rewrite K in *. cbn in I2. assert (RN : rn (res s) = 0) by (apply I2; lia).
  destruct (sts s) eqn:ST; [congruence| |].
  - exfalso. destruct J2 as (_ & Z); [cbn; lia|]. lia.
  - split; [reflexivity|]. destruct (forced s); [reflexivity|]. exfalso. rewrite RN in J3. cbn in J3. lia.
Qed.
Definition cancel_run : list act := [Run 0 CPend; Run 0 CPend; Run 0 CPend; Run 0 CPend; Run 0 CPend; Run 0 CPend; Run 0 CPend; UCancel 0; Run 0 CPend; Run 0 CPend; Run 0 CPend].
Theorem C103_refuted : exists s, reach true true true 1 s /\ quiet s /\ hr s = true /\ sts s = Canceled /\ kern s = KPend.
Proof.
  destruct (run true true true (init 1) cancel_run) as [s|] eqn:R; [|vm_compute in R; discriminate R]. exists s. split; [exists cancel_run; exact R|]. vm_compute in R. injection R as <-.
  split; [intros [|[|[|a]]] p K; cbn in K; inversion K; auto|]. repeat split.
Qed.

(** ** C104: cancelling stops the operation *)
Theorem C104_cancel : forall tok skip says n s, honest skip says -> reach tok skip says n s -> quiet s -> forced s = true -> kern s = KPend -> creq s = true.
Proof.
  intros tok skip says n s T R Q F K. destruct (reach_V _ _ _ _ _ T R) as (_ & _ & _ & (I7 & _)). unfold Q7 in I7. rewrite K, F, (quiet_sum _ w_onc Q eq_refl) in I7. cbn in I7. destruct (creq s); [reflexivity|]. cbn in I7. lia.
Qed.
(** Missing: a token that is cancelled between the last look at it and Register. *)
Theorem C104_partial : forall skip says n s, honest skip says -> reach true skip says n s -> quiet s -> flag s = true -> kern s = KPend -> missed s = false -> creq s = true.
Proof.
  intros skip says n s T R Q F K M. destruct (reach_V _ _ _ _ _ T R) as (_ & _ & (_ & _ & (I6 & I7)) & _). rewrite K, F, M, (quiet_sum _ w_onc Q eq_refl), (quiet_sum _ w_busy Q eq_refl), (quiet_sum _ w_tl Q eq_refl) in *. cbn in I6, I7. destruct (creq s); [reflexivity|]. cbn in I6. destruct (reg s); cbn in *; lia.
Qed.
Definition late_run : list act := [Run 0 CPend; Run 0 CPend; Run 0 CPend; Run 0 CPend; Run 0 CPend; Run 0 CPend; UTok 1; Run 1 CPend; Run 1 CPend; Run 1 CPend; Run 0 CPend].
Theorem C104_refuted : exists s, reach true true true 1 s /\ quiet s /\ flag s = true /\ kern s = KPend /\ sts s = Started /\ creq s = false /\ reg s = false.
Proof.
  destruct (run true true true (init 1) late_run) as [s|] eqn:R; [|vm_compute in R; discriminate R]. exists s. split; [exists late_run; exact R|]. vm_compute in R. injection R as <-.
  split; [intros [|[|[|a]]] p K; cbn in K; inversion K; auto|]. repeat split.
Qed.
(** Cancelled in time: the registration calls CancelIoEx. *)
Example C104_example : exists s, reach true true true 1 s /\ quiet s /\ flag s = true /\ kern s = KPend /\ missed s = false /\ creq s = true.
Proof.
  destruct (run true true true (init 1) [Run 0 CPend; Run 0 CPend; Run 0 CPend; Run 0 CPend; Run 0 CPend; Run 0 CPend; Run 0 CPend; UTok 1; Run 1 CPend; Run 1 CPend; Run 1 CPend; Run 1 CPend]) as [s|] eqn:R; [|vm_compute in R; discriminate R].
  exists s. split; [eexists; exact R|]. vm_compute in R. injection R as <-. split; [intros [|[|[|a]]] p K; cbn in K; inversion K; auto|]. repeat split.
Qed.

(** ** C105: the operation settles *)
Definition work1 (x : instr) : nat :=
  match x with
  | IChk => 11 | Issue => 10 | SetF | Reg | WrH | WrX | OnC | Unreg | Free | TUnlock => 1
  | S1 | R1 _ => 6 | S2 | R2 _ => 5 | S3 | R3 _ => 4 | CasC _ => 3 | WrL _ | CasX => 2 | Rel | TLock => 3 | TExch => 5 | Own => 0
  end.
(** What the threads still have to do. *)
Definition work (s : st) : nat := suml (suml work1) (ags s).
Theorem C105_bounded : forall tok skip says s a c s', exec tok skip says s (Run a c) = Go s' -> work s' < work s.
Proof.
  intros tok skip says s a c s' E. cbn [exec] in E. destruct (nth_error (ags s) a) as [[|i r]|] eqn:N; [discriminate E| |discriminate E]. destruct (touch i && freed s); [discriminate E|].
  assert (K : exists p, ags s' = set (ags s) a p /\ suml work1 p < suml work1 (i :: r)).
  { destruct i; cbn [step] in E; repeat match goal with E : (if ?b then _ else _) = Go _ |- _ => destruct b end; try discriminate E;
      try (destruct c; injection E as <-; cbn [ags sp]; eexists; (split; [reflexivity|]); destruct says; cbn [suml work1]; lia);
      try (injection E as <-; cbn [ags sp]; eexists; (split; [reflexivity|]); destruct (sts s), (tok && flag s), (flag s), (reg s); cbn [suml work1]; lia);
      try (destruct (sts s); injection E as <-; cbn [ags sp]; eexists; (split; [reflexivity|]); cbn [suml work1]; lia);
      try (destruct (rc s) as [|[|k]]; [discriminate E|..]; injection E as <-; cbn [ags sp]; eexists; (split; [reflexivity|]); destruct tok; cbn [suml work1]; lia). }
  destruct K as (p & KE & L). unfold work. rewrite KE. pose proof (suml_set _ (suml work1) _ _ _ p N) as Z. lia.
Qed.
Theorem C105_no_deadlock : forall tok skip says n s a p, honest skip says -> reach tok skip says n s -> nth_error (ags s) a = Some p -> p <> [] -> p <> [Own] ->
  exists b, forall c, exists s', exec tok skip says s (Run b c) = Go s'.
Proof.
  intros tok skip says n s a p T R N P1 P2. destruct (reach_V _ _ _ _ _ T R) as (IG & _).
  assert (K : exists b i r, nth_error (ags s) b = Some (i :: r) /\ forall c, step tok skip says s b i r c <> Stay).
  { pose proof (g_lock _ _ IG) as IK. destruct (lock s) as [h|] eqn:L; cbn [ln] in IK.
    - destruct (suml_pos _ (suml w_tu) (ags s)) as (b & q & NB & PB); [unfold cnt in IK; lia|]. pose proof (g_wf _ _ IG _ _ NB) as WF.
      destruct WF as [WF|[WF|[WF|[WF|[WF|[WF|[WF|WF]]]]]]]; try (subst q; cbn in PB; lia).
      + exfalso. pose proof (okw_w _ WF) as (_ & _ & _ & Z & _). pose proof (t_tu q). lia.
      + subst q. exists b, OnC, [TUnlock]. split; [exact NB|]. intros c. discriminate.
      + subst q. exists b, TUnlock, []. split; [exact NB|]. intros c. discriminate.
    - destruct p as [|i r]; [congruence|]. exists a, i, r. split; [exact N|]. intros c. assert (FL : free_lock s = true) by (unfold free_lock; rewrite L; reflexivity).
      destruct i; cbn [step]; rewrite ?FL; cbn [negb]; try discriminate; try (destruct c; discriminate); try (destruct (sts s); discriminate); try (destruct (tok && flag s); discriminate); try (destruct (is_started (sts s)); discriminate); try (destruct tok; discriminate); try (destruct (rc s); discriminate).
      exfalso. pose proof (g_wf _ _ IG _ _ N) as WF. destruct WF as [WF|[WF|[WF|[WF|[WF|[WF|[WF|WF]]]]]]]; try discriminate WF. destruct (okw_tail _ _ WF) as [(-> & _)|(_ & Z & _)]; [congruence|discriminate Z]. }
  destruct K as (b & i & r & NB & ST). exists b. intros c. destruct (exec_G tok skip says T s (Run b c) IG) as (NU & _). cbn [exec] in *. rewrite NB in *. destruct (touch i && freed s); [congruence|]. specialize (ST c). destruct (step tok skip says s b i r c) as [| |s']; [congruence..|eauto].
Qed.
(** The threads alone come to rest: at most [work s] accesses, whatever the order. *)
Lemma rest_at : forall (l : list (list instr)), (forall a p, nth_error l a = Some p -> p = [] \/ p = [Own]) \/ exists a p, nth_error l a = Some p /\ p <> [] /\ p <> [Own].
Proof.
  induction l as [|p l [IH|(a & q & K)]]; [left; intros [|a] p K; discriminate K| |right; exists (S a), q; exact K].
  destruct p as [|i [|j r]]; [left|destruct i|right; exists 0, (i :: j :: r); repeat split; discriminate].
  1: intros [|a] q K; [injection K as <-; auto|exact (IH _ _ K)].
  all: try (right; eexists 0, _; split; [reflexivity|]; split; discriminate). left. intros [|a] q K; [injection K as <-; auto|exact (IH _ _ K)].
Qed.
Theorem C105_rest : forall tok skip says n s, honest skip says -> reach tok skip says n s -> exists l s', run tok skip says s (map (fun a => Run a CPend) l) = Some s' /\ length l <= work s /\ quiet s'.
Proof.
  intros tok skip says n s T R. remember (work s) as w eqn:W. assert (B : work s <= w) by lia. clear W. revert s R B. induction w as [|w IH]; intros s R B.
  - exists [], s. split; [reflexivity|]. split; [auto|]. destruct (rest_at (ags s)) as [Q|(a & p & N & P1 & P2)]; [exact Q|]. exfalso.
    destruct (C105_no_deadlock _ _ _ _ _ _ _ T R N P1 P2) as (b & K). destruct (K CPend) as (s' & E). pose proof (C105_bounded _ _ _ _ _ _ _ E). lia.
  - destruct (rest_at (ags s)) as [Q|(a & p & N & P1 & P2)]; [exists [], s; split; [reflexivity|]; split; [cbn; lia|exact Q]|].
    destruct (C105_no_deadlock _ _ _ _ _ _ _ T R N P1 P2) as (b & K). destruct (K CPend) as (s1 & E). pose proof (C105_bounded _ _ _ _ _ _ _ E) as L.
    assert (R1 : reach tok skip says n s1). { destruct R as (l & R). exists (l ++ [Run b CPend]). clear -R E. revert R. generalize (init n). induction l as [|x l IH]; intros s0 R; cbn [run app] in *; [injection R as ->; rewrite E; reflexivity|]. destruct (exec tok skip says s0 x); [discriminate R|auto..]. }
    destruct (IH s1 R1) as (l & s' & X & Y & Z); [lia|]. exists (b :: l), s'. cbn [map run length]. rewrite E. split; [exact X|]. split; [lia|exact Z].
Qed.
Theorem C105_settles : forall tok skip says n s, honest skip says -> reach tok skip says n s -> quiet s -> kern s = KIdle -> hr s = true /\ (sts s = Completed \/ sts s = Canceled).
Proof.
  intros tok skip says n s T R Q K. destruct (reach_V _ _ _ _ _ T R) as (_ & (_ & (J1 & _) & _) & _ & (_ & J8 & _)). unfold Q8 in J8.
  rewrite (quiet_sum _ w_obl Q eq_refl), K in J8. rewrite (quiet_sum _ w_wl Q eq_refl), (quiet_sum _ w_wh Q eq_refl), (quiet_sum _ w_wx Q eq_refl) in J1. destruct (sts s); [cbn in J8; lia|..]; cbn in J1; (destruct (hr s); [auto|cbn in J1; lia]).
Qed.
Example C105_example : exists s, reach true false false 1 s /\ quiet s /\ kern s = KIdle /\ work s = 0.
Proof.
  destruct (run true false false (init 1) pend_run) as [s|] eqn:R; [|vm_compute in R; discriminate R]. exists s. split; [exists pend_run; exact R|]. vm_compute in R. injection R as <-. split; [intros [|[|[|a]]] p K; cbn in K; inversion K; auto|]. split; reflexivity.
Qed.

(** ** C106: AsyncFile objects *)
Definition fstart (n : nat) : fst_ := ([], repeat None n, []).
Definition holds (s : fst_) (i h : nat) (b : bool) : Prop := nth_error (snd (fst s)) i = Some (Some (mkf (Some h) b)).
Definition is_open (s : fst_) (h : nat) (m : bool) : Prop := nth_error (fst (fst s)) h = Some (Some m).
(** A handle that was created and is not closed is in exactly one object; objects hold only such handles; no handle
    is closed twice. *)
Theorem C106_ownership : forall n l, let s := frun (fstart n) l in
  NoDup (snd s) /\ (forall h m, is_open s h m -> exists i b, holds s i h b) /\ (forall i j h b b', holds s i h b -> holds s j h b' -> i = j) /\
  (forall i h b, holds s i h b -> exists m, is_open s h m) /\ (forall h, nth_error (fst (fst s)) h = Some None <-> In h (snd s)).
Proof.
  intros n l s. assert (I : FI s) by (apply frun_FI, finit_FI). clearbody s. destruct s as [[hs fs] c]. unfold holds, is_open. pose proof (held hs fs c) as HL. cbn [fst snd].
  assert (OI : forall h, 1 <= FileObj.occ h c <-> In h c) by (intros h; unfold FileObj.occ; rewrite (count_occ_In Nat.eq_dec); unfold gt; lia).
  split; [|split; [|split; [|split]]].
  - apply (NoDup_count_occ Nat.eq_dec). intros h. pose proof (f_one _ I h) as F. cbn [fst snd] in F. unfold FileObj.occ in F. destruct (h <? length hs); cbn [b2n] in F; lia.
  - intros h m O. pose proof (f_one _ I h) as F. pose proof (f_open _ I h) as P. cbn [fst snd] in F, P. assert (L : h < length hs) by (apply nth_error_Some; congruence). rewrite (proj2 (Nat.ltb_lt _ _) L) in F. cbn [b2n] in F.
    assert (Z : FileObj.occ h c = 0). { destruct (FileObj.occ h c); [reflexivity|]. exfalso. assert (nth_error hs h = Some None) by (apply P; lia). congruence. }
    destruct (suml_pos _ (FileObj.own h) fs) as (i & [[[x|] b]|] & N & K); [lia|..]; cbn in K; try lia. destruct (Nat.eqb_spec x h) as [->|]; cbn in K; [|lia]. eauto.
  - intros i j h b b' N1 N2. destruct (Nat.eq_dec i j) as [E|D]; [exact E|]. exfalso. pose proof (suml_two _ (FileObj.own h) _ _ _ _ _ D N1 N2) as K. cbn [FileObj.own] in K. rewrite Nat.eqb_refl in K. cbn [b2n] in K. pose proof (f_one _ I h) as F. cbn [fst snd] in F. destruct (h <? length hs); cbn [b2n] in F; lia.
  - intros i h b N. destruct (HL _ _ _ I N) as (L & Z). destruct (nth_error hs h) as [[m|]|] eqn:E; [eauto| |apply nth_error_None in E; lia]. exfalso. pose proof (proj1 (f_open _ I h) E) as P. cbn [snd] in P. lia.
  - intros h. rewrite <- OI. exact (f_open _ I h).
Qed.
(** The flag is never a false promise: the hypothesis of the theorems above. *)
Theorem C106_honest : forall n l i h b m, holds (frun (fstart n) l) i h b -> is_open (frun (fstart n) l) h m -> honest m b.
Proof. intros n l i h b m N O B. eapply (f_flag (frun (fstart n) l)); [apply frun_FI, finit_FI|exact N|exact O|exact B]. Qed.
(** Missing: the move constructor. *)
Theorem C106_partial : forall n l i h b m, forallb (fun o => negb (moves o)) l = true -> holds (frun (fstart n) l) i h b -> is_open (frun (fstart n) l) h m -> b = m.
Proof.
  intros n l i h b m M N O. eapply (frun_exact l (fstart n)); [apply finit_FI| |exact M|exact N|exact O]. intros k x c d K. cbn in K. apply nth_error_In, repeat_spec in K. discriminate K.
Qed.
Theorem C106_refuted : exists n l i h, holds (frun (fstart n) l) i h false /\ is_open (frun (fstart n) l) h true.
Proof. exists 2, [FOpen 0 true true; FMove 1 0], 1, 0. split; reflexivity. Qed.
Example C106_example : frun (fstart 3) [FOpen 0 true true; FOpen 1 true false; FMove 2 0; FAssign 1 2; FAssign 1 1; FClose 1 true; FDrop 0; FDrop 1; FOpen 0 true true] =
  ([None; None; Some true], [Some (mkf (Some 2) true); None; Some (mkf None false)], [0; 1]).
Proof. reflexivity. Qed.

Print Assumptions C101_safe.
Print Assumptions C101_no_dangling.
Print Assumptions C101_partial.
Print Assumptions C101_refuted.
Print Assumptions C102_result.
Print Assumptions C102_settled.
Print Assumptions C102_once.
Print Assumptions C103_partial.
Print Assumptions C103_refuted.
Print Assumptions C104_cancel.
Print Assumptions C104_partial.
Print Assumptions C104_refuted.
Print Assumptions C105_bounded.
Print Assumptions C105_no_deadlock.
Print Assumptions C105_rest.
Print Assumptions C105_settles.
Print Assumptions C106_ownership.
Print Assumptions C106_honest.
Print Assumptions C106_partial.
Print Assumptions C106_refuted.
