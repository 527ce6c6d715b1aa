(** Invariants of the model in OldIoModel.v. *)
From Coq Require Import List Bool ZArith Lia.
From Verif Require Import OldIoModel.
Import ListNotations.
Local Open Scope Z_scope.

Definition b2n (b : bool) : nat := if b then 1 else 0.
(** Who still owes the call of the callback. *)
Definition owes_c (c : cpc) : nat := match c with CDone _ => 0 | _ => 1 end.
Definition owes_p (p : ppc) : nat := match p with POn | PGet | PCall _ => 1 | _ => 0 end.
Definition owes_r (r : rpc) : nat := match r with RIdle => 0 | _ => 1 end.
Definition balance (s : st) : nat :=
  (length (calls s) + lost s + owes_c (cp s) + owes_p (pp s) + owes_r (rp s) + b2n (hand s) + b2n (task s))%nat.

Section Inv.
  Variable conn skip has_runner early : bool.
  Notation exec := (exec conn skip has_runner early).
  Notation run := (run conn skip has_runner early).

  (** What the arguments of a call must be when the system answered [e] and [b]. *)
  Definition right (o : origin) (e b : Z) : Z :=
    if conn then e else match o with Switch => ERROR_SUCCESS | Continuation => if b =? 0 then e else ERROR_SUCCESS end.

  (** The status the thread will pass on, and where it is in the protocol. *)
  Definition c_ok (s : st) : Prop :=
    match cp s with
    | CIssue => ans s = None /\ kern s = KIdle /\ sts s = Started
    | CCas e => option_map fst (ans s) = Some e
    | CWrL e => option_map fst (ans s) = Some e /\ sts s = Completed /\ hr s = false /\ hand s = false /\ match pp s with PIdle | PCas _ | PDone => True | _ => False end
    | CWrH => option_map fst (ans s) = Some (lst s) /\ sts s = Completed /\ hr s = false /\ hand s = false /\ match pp s with PIdle | PCas _ | PDone => True | _ => False end
    | CSwitch | CAttach => True
    | CWait _ => sts s = Completed
    | CGet _ => sts s = Completed /\ (early = false -> hr s = true)
    | CCall o v => sts s = Completed /\ (early = false -> hr s = true /\ v = result conn s /\ (conn = false -> v = 0 -> lec s = lst s))
                   /\ (conn = false -> v = ih s)
    | CDone r => r = ERROR_SUCCESS
    end.
  Definition p_ok (s : st) : Prop :=
    match pp s with
    | PIdle => True
    | PCas e => option_map fst (ans s) = Some e
    | PWrL e => option_map fst (ans s) = Some e /\ sts s = Completed /\ hr s = false
    | PWrH => option_map fst (ans s) = Some (lst s) /\ sts s = Completed /\ hr s = false
    | PSwap => hr s = true
    | POn => hr s = true
    | PGet => hr s = true /\ has_runner = false
    | PCall v => hr s = true /\ has_runner = false /\ v = result conn s /\ (conn = false -> v = 0 -> lep s = lst s)
    | PDone => sts s = Completed
    end.
  Definition r_ok (s : st) : Prop :=
    (task s = true -> hr s = true /\ has_runner = true) /\
    match rp s with
    | RIdle => True
    | RGet => hr s = true /\ has_runner = true
    | RCall v => hr s = true /\ has_runner = true /\ v = result conn s /\ (conn = false -> v = 0 -> ler s = lst s)
    end.
  Definition k_ok (s : st) : Prop :=
    match kern s with
    | KPend => ans s = None /\ pp s = PIdle /\ match cp s with CSwitch | CAttach | CDone _ => True | _ => False end
    | KPkt e => option_map fst (ans s) = Some e /\ pp s = PIdle
    | KIdle => ans s = None -> cp s = CIssue
    end.
  Definition o_ok (s : st) : Prop :=
    (match ans s with None => sts s = Started /\ pp s = PIdle /\ calls s = [] | Some (e, b) => ih s = b /\ (conn = true -> b = 0) end) /\
    (sts s = Started -> hr s = false /\ match pp s with PIdle | PCas _ => True | _ => False end) /\
    (hr s = true -> sts s = Completed /\ option_map fst (ans s) = Some (lst s)) /\
    (sts s = Completed -> hr s = false -> match cp s, pp s with CWrL _, _ | CWrH, _ | _, PWrL _ | _, PWrH => True | _, _ => False end) /\
    (sts s = Started -> ans s <> None -> match cp s, pp s, kern s with CCas _, _, _ | _, PCas _, _ | _, _, KPkt _ => True | _, _, _ => False end) /\
    (hand s = true -> sts s = Completed -> match pp s with PWrL _ | PWrH | PSwap => True | _ => False end).
  Definition call_ok (s : st) (c : call) : Prop :=
    (early = false -> match ans s with Some (e, b) => told c = right (from c) e b /\ bytes c = b | None => False end) /\
    (by_ c = Runner -> has_runner = true) /\ (by_ c = Pool -> has_runner = false) /\
    (from c = Switch -> by_ c = Caller).
  Definition inv (s : st) : Prop :=
    balance s = 1%nat /\ c_ok s /\ p_ok s /\ r_ok s /\ k_ok s /\ o_ok s /\ Forall (call_ok s) (calls s).

  Lemma inv_init c p r : inv (init c p r).
  Proof. unfold inv, c_ok, p_ok, r_ok, k_ok, o_ok, init. cbn. repeat split; try congruence; auto. Qed.

  Lemma calls_same s s' : ans s' = ans s -> Forall (call_ok s) (calls s) -> Forall (call_ok s') (calls s).
  Proof. intros E H. eapply Forall_impl; [|exact H]. intros c [H1 H2]. split; [rewrite E; exact H1|exact H2]. Qed.

  Ltac known := cbn in *; repeat (match goal with
    | H : _ /\ _ |- _ => destruct H
    | H : ?x = ?x -> _ |- _ => specialize (H eq_refl)
    | H : ?x = ?y -> _, H' : ?x = ?y |- _ => specialize (H H')
    | H : Some _ = Some _ |- _ => injection H as H; subst
    | H : False |- _ => destruct H
    | H : ?a = ?b |- _ => discriminate H
    | H : true = false -> _ |- _ => clear H
    | H : false = true -> _ |- _ => clear H
    | H : Started = Completed -> _ |- _ => clear H
    | H : Completed = Started -> _ |- _ => clear H
    | H : Some _ <> None -> _ |- _ => specialize (H ltac:(discriminate))
    | H : ?x = _ |- _ => is_var x; subst x
    | H : _ = ?x |- _ => is_var x; subst x
    | H : context [match ?x with _ => _ end] |- _ => is_var x; destruct x
    end; cbn in *).
  Ltac go := known; repeat (match goal with
    | |- _ /\ _ => split
    | |- Forall _ _ => fail 1
    | |- _ -> _ => intro
    | |- context [match ?x with _ => _ end] => is_var x; destruct x
    end; known); auto; try discriminate; try congruence; try lia; try tauto.

  Ltac res := unfold result, last_error in *; cbn in *; go; try (subst; cbn; auto; fail);
    repeat match goal with H : conn = false |- _ => rewrite H in *; cbn in * end; subst; cbn in *; auto;
    try (match goal with |- (if ?z =? 0 then _ else _) = _ => destruct (Z.eqb_spec z 0); congruence end).
  Ltac called := match goal with |- Forall _ (_ ++ _) => apply Forall_app; split; [assumption|constructor; [|constructor]] end;
    unfold call_ok, mkcall, right, told_switch, told_cont, result in *; cbn in *; repeat split; intros; try discriminate; go; subst; auto;
    repeat match goal with o : origin |- _ => destruct o end; destruct conn; cbn in *; go;
    try (match goal with |- context [?z =? 0] => destruct (Z.eqb_spec z 0) end); auto; try congruence.
  Ltac open_inv H0 := clear H0; unfold inv, c_ok, p_ok, r_ok, k_ok, o_ok, balance; cbn in *.
  Lemma inv_exec s x : inv s -> inv (exec s x).
  Proof.
    intros H0. pose proof H0 as (Hb & Hc & Hp & Hr & Hk & Ho & Hl).
    assert (E : ans s = None -> calls s = []) by (intros E; destruct Ho as [Ho _]; rewrite E in Ho; apply Ho).
    destruct s as [sts lst hr ih hand kern ans cp pp rp task alive lec lep ler calls lost]; cbn in E.
    assert (Hl' : ans = None -> forall s', Forall (call_ok s') calls) by (intros Q s'; rewrite (E Q); constructor).
    clear E.
    unfold c_ok, p_ok, r_ok, k_ok, o_ok, balance in *. cbn in *.
    assert (Hb1 : hand = true -> (length calls + lost + owes_c cp + owes_p pp + owes_r rp + b2n task)%nat = 0%nat)
      by (intros ->; cbn in Hb; lia).
    assert (Hb2 : task = true -> (length calls + lost + owes_c cp + owes_p pp + owes_r rp + b2n hand)%nat = 0%nat)
      by (intros ->; cbn in Hb; lia).
    destruct x as [ch|e b|acc| |]; cbn [OldIoModel.exec].
    - destruct cp; cbn in *; try (assert (hand = false) by (destruct hand; auto; exfalso; lia)); try (assert (task = false) by (destruct task; auto; exfalso; lia)).
      + destruct ch; open_inv H0; go.
      + destruct sts; open_inv H0; go.
      + open_inv H0; go.
      + open_inv H0; go.
      + destruct sts; open_inv H0; go.
      + destruct (hr || early) eqn:Eh; [|exact H0]. open_inv H0; go; apply orb_prop in Eh; destruct Eh; congruence.
      + open_inv H0; res.
      + open_inv H0; rewrite app_length; cbn; go; called.
      + destruct sts; open_inv H0; go.
      + exact H0.
    - destruct kern; cbn; try exact H0. open_inv H0; go.
    - destruct pp; cbn in *.
      + destruct kern; try exact H0. open_inv H0; go.
      + destruct sts; open_inv H0; go.
      + open_inv H0; go.
      + open_inv H0; go.
      + destruct hand; open_inv H0; go.
      + destruct has_runner eqn:Er; [destruct alive, acc; cbn|]; open_inv H0; go.
      + open_inv H0; res.
      + open_inv H0; rewrite app_length; cbn; go; called.
      + exact H0.
    - destruct rp; cbn in *.
      + destruct task, alive; cbn; try exact H0. open_inv H0; go.
      + open_inv H0; res.
      + open_inv H0; rewrite app_length; cbn; go; called.
    - destruct rp; cbn in *; [|exact H0..]. destruct task; open_inv H0; go.
  Qed.

  Lemma inv_run l : forall s, inv s -> inv (run s l).
  Proof. induction l as [|x l IH]; intros s H; [exact H|]. apply IH, inv_exec, H. Qed.
End Inv.
