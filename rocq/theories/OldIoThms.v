(** C149, C150: the deprecated AsyncRead, AsyncWrite and AsyncConnect with their callback. *)
From Coq Require Import List Bool ZArith Lia.
From Verif Require Import OldIoModel OldIoProofs.
Import ListNotations.
Local Open Scope Z_scope.

Section Thms.
  Variable conn skip has_runner : bool.

  (** The states that can be met, with or without waits that end early. *)
  Definition reach (early : bool) (s : st) : Prop :=
    exists c p r l, s = run conn skip has_runner early (init c p r) l.
  Lemma reach_inv early s : reach early s -> inv conn has_runner early s.
  Proof. intros (c & p & r & l & ->). apply inv_run, inv_init. Qed.

  (** Nobody has anything left to do: the function has returned, the system owes nothing, no
      thread is at work and no task waits. *)
  Definition rest (s : st) : Prop :=
    (exists r, cp s = CDone r) /\ kern s = KIdle /\ (pp s = PIdle \/ pp s = PDone) /\ rp s = RIdle /\ task s = false.

  (** *** C149: the callback is called once. *)
  Theorem C149_once : forall early s, reach early s -> (length (calls s) <= 1)%nat.
  Proof. intros early s H. apply reach_inv in H. destruct H as [H _]. unfold balance in H. lia. Qed.

  (** When everything has come to rest it was called, or the runner refused or dropped it. *)
  Theorem C149_called_partial : forall early s, reach early s -> rest s ->
    (length (calls s) + lost s = 1)%nat /\ (has_runner = false -> length (calls s) = 1%nat).
  Proof.
    intros early s H (Hc & Hk & Hp & Hr & Ht). pose proof (reach_inv _ _ H) as I.
    destruct I as (Hb & Ic & Ip & Ir & Ik & (I1 & I2 & I3 & I4 & I5 & I6) & Il).
    assert (Hh : hand s = false).
    { destruct (hand s) eqn:Eh; [|reflexivity]. exfalso. destruct (sts s) eqn:Es.
      - destruct Hc as [r Hc]. unfold k_ok in Ik. rewrite Hk in Ik.
        assert (Ha : ans s <> None) by (intros Ea; rewrite (Ik Ea) in Hc; discriminate).
        specialize (I5 eq_refl Ha). rewrite Hc, Hk in I5. destruct Hp as [Hp|Hp]; rewrite Hp in I5; exact I5.
      - specialize (I6 eq_refl eq_refl). destruct Hp as [Hp|Hp]; rewrite Hp in I6; exact I6. }
    unfold balance in Hb. destruct Hc as [r Hc]. rewrite Hh, Hc, Hr, Ht in Hb. cbn in Hb.
    assert (E : (length (calls s) + lost s = 1)%nat) by (destruct Hp as [Hp|Hp]; rewrite Hp in Hb; cbn in Hb; lia).
    split; [exact E|]. intros Hn.
    assert (Hl : lost s = 0%nat); [|lia].
    clear -H Hn. destruct H as (c & p & q & l & ->).
    assert (G : forall s, lost s = 0%nat /\ task s = false /\ rp s = RIdle -> lost (run conn skip has_runner early s l) = 0%nat).
    2:{ apply G. cbn. auto. }
    induction l as [|x l IH]; intros s (A & B & C); [exact A|]. cbn. apply IH. clear IH.
    destruct x; cbn; unfold caller, pool, runner; rewrite ?Hn, ?B, ?C; cbn; auto.
    - destruct (cp s); cbn; auto; try (destruct c0); try (destruct (sts s)); try (destruct (hr s || early)); cbn; auto.
    - destruct (kern s); cbn; auto.
    - destruct (pp s); cbn; auto; try (destruct (kern s)); try (destruct (sts s)); try (destruct (hand s)); cbn; auto.
  Qed.

  (** The function reports success whatever happened. *)
  Theorem C149_result : forall early s r, reach early s -> cp s = CDone r -> r = ERROR_SUCCESS.
  Proof. intros early s r H E. apply reach_inv in H. destruct H as (_ & H & _). unfold c_ok in H. rewrite E in H. exact H. Qed.

  (** Where: with a runner in the caller's thread (which is the runner's then) or on the
      runner, without one in the caller's thread or the pool's. *)
  Theorem C149_where : forall early s c, reach early s -> In c (calls s) ->
    by_ c = Caller \/ by_ c = if has_runner then Runner else Pool.
  Proof.
    intros early s c H Hin. apply reach_inv in H. destruct H as (_ & _ & _ & _ & _ & _ & H).
    rewrite Forall_forall in H. destruct (H c Hin) as (_ & H1 & H2 & _).
    destruct (by_ c) eqn:E; [left; reflexivity|right|right].
    - rewrite (H2 eq_refl). reflexivity.
    - rewrite (H1 eq_refl). reflexivity.
  Qed.

  (** *** C150: what the callback is told. *)
  (** A connection: the status that the system gave. *)
  Theorem C150_connect_partial : forall s c, conn = true -> reach false s -> In c (calls s) ->
    exists b, ans s = Some (told c, b).
  Proof.
    intros s c Hc H Hin. apply reach_inv in H. destruct H as (_ & _ & _ & _ & _ & _ & H).
    rewrite Forall_forall in H. destruct (H c Hin) as (H1 & _). specialize (H1 eq_refl).
    destruct (ans s) as [[e b]|]; [|destruct H1]. destruct H1 as [H1 _]. unfold right in H1. rewrite Hc in H1.
    exists b. rewrite H1. reflexivity.
  Qed.

  (** A transfer: the bytes that the system moved; the status only if there were none and the
      callback was attached before the end was noticed. *)
  Theorem C150_transfer_partial : forall s c, conn = false -> reach false s -> In c (calls s) ->
    exists e, ans s = Some (e, bytes c) /\
      (from c = Continuation /\ bytes c = 0 -> told c = e) /\
      (from c = Switch \/ bytes c <> 0 -> told c = ERROR_SUCCESS).
  Proof.
    intros s c Hc H Hin. apply reach_inv in H. destruct H as (_ & _ & _ & _ & _ & _ & H).
    rewrite Forall_forall in H. destruct (H c Hin) as (H1 & _). specialize (H1 eq_refl).
    destruct (ans s) as [[e b]|]; [|destruct H1]. destruct H1 as [H1 H2]. unfold right in H1. rewrite Hc in H1.
    exists e. rewrite H2. split; [reflexivity|]. rewrite H1. split.
    - intros [-> ->]. reflexivity.
    - intros [->|Hb]; [reflexivity|]. destruct (from c); [reflexivity|]. destruct (Z.eqb_spec b 0); [contradiction|reflexivity].
  Qed.

  (** So an operation that succeeded is always reported as it went. *)
  Theorem C150_success : forall s c b, reach false s -> ans s = Some (ERROR_SUCCESS, b) -> In c (calls s) ->
    told c = ERROR_SUCCESS /\ bytes c = b.
  Proof.
    intros s c b H Ha Hin. apply reach_inv in H. destruct H as (_ & _ & _ & _ & _ & _ & H).
    rewrite Forall_forall in H. destruct (H c Hin) as (H1 & _). specialize (H1 eq_refl). rewrite Ha in H1.
    destruct H1 as [H1 H2]. split; [|exact H2]. rewrite H1. unfold right. destruct conn; [reflexivity|].
    destruct (from c); [reflexivity|]. destruct (b =? 0); reflexivity.
  Qed.
End Thms.

(** The steps left when nothing new comes from outside. *)
Definition cwork (c : cpc) : nat :=
  match c with CIssue => 30 | CCas _ => 8 | CWrL _ => 7 | CWrH => 6 | CSwitch => 5 | CAttach => 4 | CWait _ => 3 | CGet _ => 2 | CCall _ _ => 1 | CDone _ => 0 end.
Definition pwork (s : st) : nat :=
  match pp s with PIdle => match kern s with KPkt _ => 12 | _ => 0 end | PCas _ => 11 | PWrL _ => 10 | PWrH => 9 | PSwap => 8 | POn => 7 | PGet => 2 | PCall _ => 1 | PDone => 0 end.
Definition rwork (s : st) : nat :=
  ((match rp s with RIdle => 0 | RGet => 2 | RCall _ => 1 end) + (if task s then 3 else 0))%nat.
Definition work (s : st) : nat := (cwork (cp s) + pwork s + rwork s)%nat.

Lemma work_down conn skip has_runner early s : inv conn has_runner early s -> kern s <> KPend ->
  rest s \/ exists x, (work (exec conn skip has_runner early s x) < work s)%nat /\ kern (exec conn skip has_runner early s x) <> KPend.
Proof.
  intros (_ & Ic & _ & _ & Ik & (_ & _ & _ & I4 & _ & _) & _) Hk.
  set (goal := exists x, (work (exec conn skip has_runner early s x) < work s)%nat /\ kern (exec conn skip has_runner early s x) <> KPend).
  assert (Kp : (pp s = PIdle \/ pp s = PDone) /\ kern s = KIdle \/ goal).
  { destruct (pp s) eqn:Ep.
    1: destruct (kern s) eqn:Ek; [left; auto|contradiction|].
    9: left; split; [auto|]; unfold k_ok in Ik; destruct (kern s); [reflexivity|contradiction|destruct Ik as [_ Ik]; rewrite Ep in Ik; discriminate].
    all: right; exists (Work true); unfold work, pwork, rwork; cbn [exec]; unfold pool; rewrite ?Ep, ?Ek.
    - cbn. split; [lia|discriminate].
    - destruct (sts s); cbn; split; auto; lia.
    - cbn. split; auto; lia.
    - cbn. split; auto; lia.
    - destruct (hand s); cbn; split; auto; lia.
    - destruct has_runner; [destruct (alive s)|]; cbn; split; auto; destruct (task s); lia.
    - cbn. split; auto; lia.
    - cbn. split; auto; lia. }
  destruct Kp as [[Hp Hkk]|]; [|right; assumption].
  assert (Kr : rp s = RIdle /\ task s = false \/ goal).
  { destruct (rp s) eqn:Er; [destruct (task s) eqn:Et; [|left; auto]; destruct (alive s) eqn:Ea|..]; right.
    1,3,4: exists Task. 4: exists End.
    all: unfold work, pwork, rwork; cbn [exec]; unfold runner; rewrite ?Er, ?Et, ?Ea; cbn; rewrite ?Er, ?Et; split; auto; try lia. }
  destruct Kr as [[Hr Ht]|]; [|right; assumption].
  destruct (cp s) eqn:Ec.
  10: left; repeat split; auto; rewrite Ec; eauto.
  all: right; exists (Do (Sync 0)); unfold work, pwork, rwork; cbn [exec]; unfold caller; rewrite ?Ec.
  - destruct Hp as [Hp|Hp]; rewrite ?Hp, ?Hr, ?Ht, ?Hkk; destruct skip; cbn; rewrite ?Hp, ?Hr, ?Ht; split; try lia; discriminate.
  - destruct (sts s); cbn; split; auto; lia.
  - cbn. split; auto; lia.
  - cbn. split; auto; lia.
  - destruct (sts s); cbn; split; auto; lia.
  - unfold c_ok in Ic. rewrite Ec in Ic. specialize (I4 Ic).
    destruct (hr s) eqn:Eh; [cbn; split; auto; lia|]. specialize (I4 eq_refl).
    destruct Hp as [Hp|Hp]; rewrite Hp in I4; destruct I4.
  - cbn. split; auto; lia.
  - cbn. split; auto; lia.
  - destruct (sts s); cbn; split; auto; lia.
Qed.

(** From every state in which the system owes no answer the threads come to rest by
    themselves: no wait is for ever. *)
Theorem C149_ends : forall conn skip has_runner early s, reach conn skip has_runner early s -> kern s <> KPend ->
  exists l, rest (run conn skip has_runner early s l) /\ (length l <= work s)%nat.
Proof.
  intros conn skip has_runner early s H Hk.
  remember (work s) as n eqn:En. revert s H Hk En. induction n as [n IH] using lt_wf_ind; intros s H Hk ->.
  destruct (work_down conn skip has_runner early s (reach_inv _ _ _ _ _ H) Hk) as [R|(x & Hw & Hk')].
  - exists []. split; [exact R|cbn; lia].
  - assert (H' : reach conn skip has_runner early (exec conn skip has_runner early s x)).
    { destruct H as (c & p & r & l & ->). exists c, p, r, (l ++ [x]). unfold run. rewrite fold_left_app. reflexivity. }
    destruct (IH _ Hw _ H' Hk' eq_refl) as (l & Hr & Hl). exists (x :: l). split; [exact Hr|cbn; lia].
Qed.

Definition D := Do Pend.
Definition W := Work true.

Lemma run_cons conn skip has_runner early s x s' l s'' :
  exec conn skip has_runner early s x = s' -> run conn skip has_runner early s' l = s'' ->
  run conn skip has_runner early s (x :: l) = s''.
Proof. intros <- <-. reflexivity. Qed.
(** One step at a time, so that the states stay small. *)
Ltac steps := unfold init; repeat (eapply run_cons; [lazy; reflexivity|]); reflexivity.

(** The runner ends before the operation does: the function has reported success and the
    callback is never called. *)
Theorem C149_called_refuted : forall conn skip e b, exists s, reach conn skip true false s /\ rest s /\
  cp s = CDone ERROR_SUCCESS /\ ans s = Some (e, if conn then 0 else b) /\ calls s = [].
Proof.
  intros conn skip e b.
  assert (E : exists s, run conn skip true false (init 0 0 0) [D; D; D; End; Complete e b; W; W; W; W; W; W] = s /\ rest s /\
    cp s = CDone ERROR_SUCCESS /\ ans s = Some (e, if conn then 0 else b) /\ calls s = []).
  { eexists. split; [steps|]. unfold rest. cbn. repeat split; eauto. }
  destruct E as (s & E & H). exists s. split; [|exact H]. eexists _, _, _, _. symmetry. exact E.
Qed.

(** A transfer that fails at once, with any error: the callback is told success. *)
Theorem C150_failure_refuted : forall skip has_runner e, exists s, reach false skip has_runner false s /\ rest s /\
  cp s = CDone ERROR_SUCCESS /\ ans s = Some (e, 0) /\ calls s = [Call Caller Switch ERROR_SUCCESS 0].
Proof.
  intros skip has_runner e.
  assert (E : exists s, run false skip has_runner false (init 0 0 0) [Do (Fail e); D; D; D; D; D; D; D] = s /\ rest s /\
    cp s = CDone ERROR_SUCCESS /\ ans s = Some (e, 0) /\ calls s = [Call Caller Switch ERROR_SUCCESS 0]).
  { eexists. split; [steps|]. unfold rest. cbn. repeat split; eauto. }
  destruct E as (s & E & H). exists s. split; [|exact H]. eexists _, _, _, _. symmetry. exact E.
Qed.

(** A transfer that is pending and then fails: what the callback is told depends on how fast. *)
Theorem C150_race_refuted : forall skip e, exists s s',
  (reach false skip false false s /\ rest s /\ ans s = Some (e, 0) /\ calls s = [Call Caller Switch ERROR_SUCCESS 0]) /\
  (reach false skip false false s' /\ rest s' /\ ans s' = Some (e, 0) /\ calls s' = [Call Pool Continuation e 0]).
Proof.
  intros skip e.
  assert (E : exists s, run false skip false false (init 0 0 0) [D; Complete e 0; W; W; W; W; W; D; D; D; D] = s /\ rest s /\
    ans s = Some (e, 0) /\ calls s = [Call Caller Switch ERROR_SUCCESS 0]).
  { eexists. split; [steps|]. unfold rest. cbn. repeat split; eauto. }
  assert (E' : exists s, run false skip false false (init 0 0 0) [D; D; D; Complete e 0; W; W; W; W; W; W; W; W] = s /\ rest s /\
    ans s = Some (e, 0) /\ calls s = [Call Pool Continuation e 0]).
  { eexists. split; [steps|]. unfold rest. cbn. repeat split; eauto. }
  destruct E as (s & E & H), E' as (s' & E' & H'). exists s, s'.
  split; (split; [|assumption]); eexists _, _, _, _; symmetry; eassumption.
Qed.

(** A read that moved bytes and did not end well (ERROR_MORE_DATA of a message pipe) is
    success in every execution. *)
Theorem C150_bytes_refuted : forall skip has_runner s c e b, reach false skip has_runner false s ->
  ans s = Some (e, b) -> b <> 0 -> In c (calls s) -> told c = ERROR_SUCCESS.
Proof.
  intros skip has_runner s c e b H Ha Hb Hin.
  destruct (C150_transfer_partial false skip has_runner s c eq_refl H Hin) as (e' & Ha' & _ & H2).
  rewrite Ha in Ha'. injection Ha' as _ E. apply H2. right. congruence.
Qed.

(** If WaitOnAddress returns early, the callback can be told ERROR_IO_PENDING, a connection too. *)
Theorem C150_early_refuted : forall conn skip has_runner e, exists s c, reach conn skip has_runner true s /\
  ans s = Some (e, 0) /\ calls s = [c] /\ told c = ERROR_IO_PENDING.
Proof.
  intros conn skip has_runner e.
  assert (E : exists s c, run conn skip has_runner true (init 0 0 0) [D; D; Complete e 0; W; W; D; D; D; D] = s /\
    ans s = Some (e, 0) /\ calls s = [c] /\ told c = ERROR_IO_PENDING).
  { destruct conn; eexists; eexists; (split; [steps|]); repeat split; reflexivity. }
  destruct E as (s & c & E & H). exists s, c. split; [|exact H]. eexists _, _, _, _. symmetry. exact E.
Qed.

(** *** Cases. *)
(** A read of 5 bytes that is pending; a runner is current: called there, once. *)
Definition ex_l := [D; D; D; Complete 0 5; W; W; W; W; W; W; Task; Task; Task].
Example ex_read : exists s, run false false true false (init 1 2 3) ex_l = s /\
  reach false false true false s /\ rest s /\ kern s <> KPend /\ calls s = [Call Runner Continuation 0 5] /\ cp s = CDone 0 /\ lost s = 0%nat.
Proof.
  assert (E : exists s, run false false true false (init 1 2 3) ex_l = s /\ rest s /\ kern s <> KPend /\ calls s = [Call Runner Continuation 0 5] /\ cp s = CDone 0 /\ lost s = 0%nat).
  { unfold ex_l. eexists. split; [steps|]. unfold rest. cbn. repeat split; eauto; discriminate. }
  destruct E as (s & E & H). exists s. split; [exact E|]. split; [|exact H]. eexists _, _, _, _. symmetry. exact E.
Qed.
(** The end of the file (38) met by a pending read, without a runner. *)
Example ex_eof : exists s, run false false false false (init 1 2 3) [D; D; D; Complete 38 0; W; W; W; W; W; W; W; W] = s /\
  calls s = [Call Pool Continuation 38 0].
Proof. eexists. split; [steps|]. reflexivity. Qed.
(** ERROR_MORE_DATA (234) with 4 bytes. *)
Example ex_more : exists s, run false false false false (init 1 2 3) [D; D; D; Complete 234 4; W; W; W; W; W; W; W; W] = s /\
  ans s = Some (234, 4) /\ calls s = [Call Pool Continuation 0 4].
Proof. eexists. split; [steps|]. split; reflexivity. Qed.
(** A client is there already (535): the call fails at once and the callback learns it. *)
Example ex_connect : exists s, run true false true false (init 1 2 3) [Do (Fail 535); D; D; D; D; D; D; D] = s /\
  ans s = Some (535, 0) /\ calls s = [Call Caller Switch 535 0].
Proof. eexists. split; [steps|]. split; reflexivity. Qed.
(** A read that is done at once, whose packet comes as well. *)
Example ex_sync : exists s, run false false false false (init 1 2 3) [Do (Sync 7); W; D; W; D; D; D; D; D; D; D] = s /\
  ans s = Some (0, 7) /\ calls s = [Call Caller Switch 0 7] /\ rest s.
Proof. eexists. split; [steps|]. unfold rest. cbn. repeat split; eauto. Qed.

Print Assumptions C149_once.
Print Assumptions C149_called_partial.
Print Assumptions C149_result.
Print Assumptions C149_where.
Print Assumptions C150_connect_partial.
Print Assumptions C150_transfer_partial.
Print Assumptions C150_success.
Print Assumptions C149_ends.
Print Assumptions C149_called_refuted.
Print Assumptions C150_failure_refuted.
Print Assumptions C150_race_refuted.
Print Assumptions C150_bytes_refuted.
Print Assumptions C150_early_refuted.
