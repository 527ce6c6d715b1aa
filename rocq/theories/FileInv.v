(** Invariants of asynchronous file operations: results, cancellation, progress. *)
From Coq Require Import List Bool Arith Lia.
From Verif Require Import Slots SlotsProofs Threads FileModel FileProofs.
Import ListNotations.

Definition w_res (x : instr) : nat := match x with R1 _ | R2 _ | R3 _ | CasC _ | WrL _ => 1 | _ => 0 end.
(** The accesses with a status have the kernel's. *)
Definition okr (r : option (nat * nat)) (x : instr) : Prop :=
  match x with R1 e | R2 e | R3 e | CasC e | WrL e => exists b, r = Some (e, b) | _ => True end.
Definition rn (r : option (nat * nat)) : nat := match r with None => 0 | Some _ => 1 end.
Definition kpd (k : kernel) : nat := match k with KPend => 1 | _ => 0 end.
Definition kpk (k : kernel) : nat := match k with KPkt => 1 | _ => 0 end.
Definition nS (x : status) : nat := match x with Started => 1 | _ => 0 end.
Definition nC (x : status) : nat := match x with Completed => 1 | _ => 0 end.
Definition nX (x : status) : nat := match x with Canceled => 1 | _ => 0 end.

Definition Q1 (s : st) : Prop :=
  (forall a p, nth_error (ags s) a = Some p -> Forall (okr (res s)) p) /\ (1 <= cnt w_pre s + kpd (kern s) -> rn (res s) = 0) /\ (1 <= kpk (kern s) -> rn (res s) = 1).
Definition Q2 (s : st) : Prop :=
  cnt w_wl s + cnt w_wh s + cnt w_wx s + b2n (hr s) + nS (sts s) = 1 /\ (1 <= nC (sts s) -> cnt w_wx s = 0 /\ rn (res s) = 1) /\ (1 <= nX (sts s) -> cnt w_wl s + cnt w_wh s = 0) /\
  (1 <= nC (sts s) -> cnt w_wl s = 0 -> exists b, res s = Some (lst s, b)).
Definition Q3 (s : st) : Prop := 1 <= cnt w_casx s + nX (sts s) -> 1 <= b2n (forced s) + rn (res s).
Fixpoint okp (p : list instr) : Prop :=
  match p with [] => True | x :: r => suml w_setf (x :: r) + suml w_pre (x :: r) <= suml w_busy (x :: r) /\ suml w_busy (x :: r) <= suml w_own (x :: r) /\ okp r end.
Definition Q4 (s : st) : Prop :=
  cnt w_busy s <= 1 /\ (1 <= cnt w_busy s -> cnt w_own s <= 1) /\ (forall a p, nth_error (ags s) a = Some p -> okp p).
Definition Q5 (s : st) : Prop :=
  (1 <= cnt w_pre s + cnt w_setf s -> b2n (hfile s) = 0 /\ b2n (forced s) = 0 /\ cnt w_onc s = 0) /\
  (b2n (hfile s) = 0 -> b2n (reg s) = 0 /\ ctk s = 0 /\ kpd (kern s) <= cnt w_setf s /\ cnt w_busy s <= cnt w_pre s + cnt w_setf s).
Definition Q6 (tok : bool) (s : st) : Prop :=
  (1 <= kpd (kern s) -> 1 <= b2n tok -> 1 <= b2n (creq s) + b2n (missed s) + cnt w_busy s + b2n (reg s) + cnt w_onc s) /\ (2 <= b2n (reg s) + b2n (flag s) -> 1 <= cnt w_tl s).
Definition Q7 (s : st) : Prop := 2 <= kpd (kern s) + b2n (forced s) -> 1 <= b2n (creq s) + cnt w_onc s.
Definition Q8 (s : st) : Prop := 1 <= nS (sts s) -> 1 <= cnt w_obl s + kref (kern s).

Lemma pre_busy1 : forall p, suml w_pre p <= suml w_busy p.
Proof. induction p as [|x r IH]; cbn [suml]; [lia|]. destruct x; cbn [w_pre w_busy]; lia. Qed.
Lemma pre_busy : forall l, suml (suml w_pre) l <= suml (suml w_busy) l.
Proof. induction l as [|p l IH]; cbn [suml]; [lia|]. pose proof (pre_busy1 p). lia. Qed.
Lemma tk_onc1 : forall p, tk p <= suml w_onc p.
Proof. intros [|x [|y [|z p]]]; [cbn; lia|destruct x; cbn; lia|destruct x, y; cbn; lia|]. destruct x; cbn [tk]; try lia; destruct y; cbn [tk]; lia. Qed.
Lemma tk_onc : forall l, suml tk l <= suml (suml w_onc) l.
Proof. induction l as [|p l IH]; cbn [suml]; [lia|]. pose proof (tk_onc1 p). lia. Qed.
Lemma okr_mono : forall r x y, okr None y -> okr (Some (r, x)) y.
Proof. intros r x []; cbn; auto; intros (b & K); discriminate K. Qed.
Lemma res_set : forall l r a p, (forall b q, nth_error l b = Some q -> Forall (okr r) q) -> Forall (okr r) p -> forall b q, nth_error (set l a p) b = Some q -> Forall (okr r) q.
Proof. intros l r a p K W b q E. apply nth_set in E. destruct E as [(_ & ->)|(_ & E)]; [assumption|eauto]. Qed.
Lemma res_new : forall l r x e a p, rn r = 0 -> (forall b q, nth_error l b = Some q -> Forall (okr r) q) -> Forall (okr (Some (x, e))) p -> forall b q, nth_error (set l a p) b = Some q -> Forall (okr (Some (x, e))) q.
Proof. intros l [r|] x e a p Z K W b q E; [discriminate Z|]. apply nth_set in E. destruct E as [(_ & ->)|(_ & E)]; [assumption|]. eapply Forall_impl; [|exact (K _ _ E)]. intros y. apply okr_mono. Qed.

Ltac hs := cbn [suml w_ref w_own w_free w_unreg w_tu w_tl w_t w_pre w_busy w_setf w_onc w_wl w_wh w_wx w_casx w_obl b2n kref rn kpd kpk nS nC nX Nat.add tk dd  Nat.sub ln orb andb] in *.

Ltac use2 N := repeat match goal with |- context [suml ?f (set ?l ?a ?p)] => pose proof (suml_set _ f l a _ p N); generalize dependent (suml f (set l a p)); intros | _ : context [suml ?f (set ?l ?a ?p)] |- _ => pose proof (suml_set _ f l a _ p N); generalize dependent (suml f (set l a p)); intros end.

Section File.
  Variable tok skip says : bool.
  Hypothesis truth : says = true -> skip = true.
  Ltac rws := repeat match goal with
    | K : tok = _ |- _ => rewrite K in * | K : skip = _ |- _ => rewrite K in * | K : says = _ |- _ => rewrite K in * | K : lock _ = _ |- _ => rewrite K in * | K : reg _ = _ |- _ => rewrite K in * | K : sts _ = _ |- _ => rewrite K in *
    | K : kern _ = _ |- _ => rewrite K in * | K : flag _ = _ |- _ => rewrite K in * | K : hfile _ = _ |- _ => rewrite K in * end.
  (** The accesses, one by one. *)
  Ltac cases i c E :=
    destruct i; cbn [step] in E;
      [destruct (tok && flag _) eqn:TF|destruct c; [destruct skip eqn:SK, says eqn:SY; cbn [andb negb] in E; try (exfalso; specialize (truth eq_refl); congruence)|..]| |destruct (sts _) eqn:ST|destruct (sts _) eqn:ST|destruct (tok && flag _) eqn:TF
      |destruct tok eqn:TK; cbn [negb] in E; [destruct (free_lock _); cbn [negb] in E; [|discriminate E]; destruct (flag _) eqn:FL; cbn [negb] in E|]
      |destruct (sts _) eqn:ST|destruct (sts _) eqn:ST|destruct (tok && flag _) eqn:TF|destruct (sts _) eqn:ST; cbn [is_started] in E| | |destruct (sts _) eqn:ST; cbn [is_started] in E| |destruct (hfile _) eqn:HF, (kern _) eqn:KE
      |destruct (rc _) as [|[|k]] eqn:RC; [discriminate E|destruct tok eqn:TK|]|discriminate E|destruct (free_lock _); [|discriminate E]| |destruct (flag _) eqn:FL|destruct (free_lock _); [|discriminate E]; destruct (reg _) eqn:RG|];
      injection E as <-.
  Ltac go N := unfold Q1, Q2, Q3, Q4, Q5, Q6, Q7, Q8, cnt, ctk in *; prj; use2 N; rewrite ?orb_true_r, ?orb_false_r in *; hs.
  Lemma le_at : forall (f g : list instr -> nat) l a p, (forall b q, nth_error l b = Some q -> f q <= g q) -> nth_error l a = Some p -> suml f l + g p <= suml g l + f p.
  Proof.
    induction l as [|x l IH]; intros a p K N; [destruct a; discriminate N|].
    assert (L : suml f l <= suml g l). { clear IH N. assert (K' : forall b q, nth_error l b = Some q -> f q <= g q) by (intros b q Z; exact (K (S b) q Z)). clear K. induction l as [|y l IH]; [auto|]. pose proof (K' 0 y eq_refl). assert (suml f l <= suml g l) by (apply IH; intros b q Z; exact (K' (S b) q Z)). cbn [suml]. lia. }
    destruct a as [|a]; cbn in N; [injection N as <-; cbn [suml]; lia|]. assert (suml f l + g p <= suml g l + f p) by (apply (IH a); [intros b q Z; exact (K (S b) q Z)|exact N]). pose proof (K 0 x eq_refl). cbn [suml]. lia.
  Qed.
  Lemma okp_1 : forall p, okp p -> suml w_setf p + suml w_pre p <= suml w_busy p /\ suml w_busy p <= suml w_own p.
  Proof. intros [|x r]; [cbn; auto|]. intros (A & B & _). auto. Qed.
  Lemma okp_set : forall l a p, (forall b q, nth_error l b = Some q -> okp q) -> okp p -> forall b q, nth_error (set l a p) b = Some q -> okp q.
  Proof. intros l a p K W b q E. apply nth_set in E. destruct E as [(_ & ->)|(_ & E)]; [auto|eauto]. Qed.
  Lemma step_Q4 : forall s a i r c s', Q4 s -> nth_error (ags s) a = Some (i :: r) -> step tok skip says s a i r c = Go s' -> Q4 s'.
  Proof.
    intros s a i r c s' (I1 & I2 & I3) N E. destruct (I3 _ _ N) as (P1 & P2 & P3). destruct (okp_1 _ P3) as (P4 & P5).
    pose proof (suml_ge _ (suml w_own) _ _ _ N) as A1. pose proof (suml_ge _ (suml w_busy) _ _ _ N) as A2.
    cases i c E; unfold Q4; prj; (split; [|split; [|apply okp_set; [exact I3|cbn [okp]; repeat apply conj; try exact P3; try exact I]]]); go N; lia.
  Qed.
  Lemma step_Q1 : forall s a i r c s', G tok s -> Q1 s -> nth_error (ags s) a = Some (i :: r) -> step tok skip says s a i r c = Go s' -> Q1 s'.
  Proof.
    intros s a i r c s' IG (I1 & I2 & I3) N E. pose proof (I1 _ _ N) as FR. inversion FR as [|? ? F1 F2]; subst.
    pose proof (g_pre _ _ IG) as IP. pose proof (suml_ge _ (suml w_pre) _ _ _ N) as A1. clear IG.
    cases i c E; unfold Q1; prj; (split; [first [eapply res_new; [|exact I1|] | eapply res_set; [exact I1|]]; [..|repeat (constructor; cbn [okr]; eauto)]|split]); go N; try (destruct (kern s); hs; lia); try assumption.
    all: assert (Z : rn (res s) = 0) by lia; eapply Forall_impl; [|exact F2]; destruct (res s); [discriminate Z|]; intros y; apply okr_mono.
  Qed.
  Lemma okr_rn : forall r e, okr r (CasC e) -> rn r = 1.
  Proof. intros r e (b & ->). reflexivity. Qed.
  Lemma step_Q2 : forall s a i r c s', Q1 s -> Q2 s -> nth_error (ags s) a = Some (i :: r) -> step tok skip says s a i r c = Go s' -> Q2 s'.
  Proof.
    intros s a i r c s' (I1 & I2 & _) (J1 & J2 & J3 & J4) N E. pose proof (I1 _ _ N) as FR. inversion FR as [|? ? F1 F2]; subst. clear FR I1.
    pose proof (suml_ge _ (suml w_pre) _ _ _ N) as A1. pose proof (suml_ge _ (suml w_wl) _ _ _ N) as A2. pose proof (suml_ge _ (suml w_wh) _ _ _ N) as A3. pose proof (suml_ge _ (suml w_wx) _ _ _ N) as A4.
    cases i c E; try pose proof (okr_rn _ _ F1) as RN; unfold Q2; prj; (split; [|split; [|split]]); go N; rws; hs; try lia; try (intros; first [exact F1|apply J4; lia]); try (exfalso; lia).
  Qed.
  Lemma step_Q3 : forall s a i r c s', Q1 s -> Q3 s -> nth_error (ags s) a = Some (i :: r) -> step tok skip says s a i r c = Go s' -> Q3 s'.
  Proof.
    intros s a i r c s' (I1 & I2 & _) J1 N E. pose proof (I1 _ _ N) as FR. inversion FR as [|? ? F1 F2]; subst. clear FR I1.
    pose proof (suml_ge _ (suml w_pre) _ _ _ N) as A1. pose proof (suml_ge _ (suml w_casx) _ _ _ N) as A2.
    cases i c E; try pose proof (okr_rn _ _ F1) as RN; go N; rws; hs; try lia.
  Qed.
  Lemma suml_add : forall (f g : list instr -> nat) l, suml (fun q => f q + g q) l = suml f l + suml g l.
  Proof. induction l as [|x l IH]; cbn [suml]; lia. Qed.
  Lemma okp_le : forall s a p, Q4 s -> nth_error (ags s) a = Some p -> cnt w_setf s + cnt w_pre s + suml w_busy p <= cnt w_busy s + (suml w_setf p + suml w_pre p) /\ cnt w_busy s + suml w_own p <= cnt w_own s + suml w_busy p.
  Proof. intros s a p (_ & _ & K) N. split; unfold cnt.
    - rewrite <- suml_add. apply (le_at (fun q => suml w_setf q + suml w_pre q) (suml w_busy) _ a _); [intros b q Z; apply (okp_1 _ (K _ _ Z))|exact N].
    - apply (le_at (suml w_busy) (suml w_own) _ a _); [intros b q Z; apply (okp_1 _ (K _ _ Z))|exact N].
  Qed.
  Lemma wf_tk : forall i r, wf (i :: r) -> tk r = 0.
  Proof.
    intros i r [WF|[WF|[WF|[WF|[WF|[WF|[WF|WF]]]]]]]; [discriminate WF| |injection WF as -> ->; reflexivity..].
    destruct (okw_tail _ _ WF) as [(-> & _)|(_ & _ & R)]; [reflexivity|]. apply (okw_w _ R).
  Qed.
  Lemma step_Q5 : forall s a i r c s', Q4 s -> Q5 s -> G tok s -> nth_error (ags s) a = Some (i :: r) -> step tok skip says s a i r c = Go s' -> Q5 s'.
  Proof.
    intros s a i r c s' I4 (J1 & J2) IG N E. pose proof (okp_le _ _ _ I4 N) as (K1 & K2). pose proof (g_pre _ _ IG) as IP. pose proof (g_wf _ _ IG _ _ N) as WF. destruct I4 as (I4 & I5 & P4). destruct (P4 _ _ N) as (P1 & P2 & P3). destruct (okp_1 _ P3) as (P5 & P6). pose proof (wf_tk _ _ WF) as TR. clear IG P4 WF P3.
    pose proof (suml_ge _ (suml w_pre) _ _ _ N) as A1. pose proof (suml_ge _ (suml w_setf) _ _ _ N) as A2. pose proof (suml_ge _ (suml w_onc) _ _ _ N) as A3. pose proof (suml_ge _ (suml w_busy) _ _ _ N) as A4. pose proof (suml_ge _ tk _ _ _ N) as A5.
    pose proof (pre_busy (ags s)) as B7. pose proof (pre_busy1 r) as B8.
    cases i c E; unfold Q5; prj; split; go N; rws; hs; try lia.
  Qed.
  Lemma kpd_kref : forall k, kpd k <= kref k.
  Proof. intros []; cbn; lia. Qed.
  Lemma step_Q6 : forall s a i r c s', Q4 s -> Q5 s -> Q6 tok s -> G tok s -> nth_error (ags s) a = Some (i :: r) -> step tok skip says s a i r c = Go s' -> Q6 tok s'.
  Proof.
    intros s a i r c s' I4 (L1 & L2) (J1 & J2) IG N E. pose proof (okp_le _ _ _ I4 N) as (K1 & K2). pose proof (g_pre _ _ IG) as IP. pose proof (kpd_kref (kern s)) as KK. pose proof (g_rc _ _ IG) as IR. pose proof (g_live _ _ IG) as IL. pose proof (g_un _ _ IG) as IU. destruct I4 as (I4 & I5 & P4). clear IG P4.
    pose proof (suml_ge _ (suml w_pre) _ _ _ N) as A1. pose proof (suml_ge _ (suml w_tl) _ _ _ N) as A2. pose proof (suml_ge _ (suml w_onc) _ _ _ N) as A3. pose proof (suml_ge _ (suml w_busy) _ _ _ N) as A4. pose proof (suml_ge _ (suml w_unreg) _ _ _ N) as A5.
    cases i c E; unfold Q6; prj; split; go N; rws; hs; try lia; destruct (flag s); hs; lia.
  Qed.
  Lemma step_Q7 : forall s a i r c s', Q4 s -> Q5 s -> Q7 s -> G tok s -> nth_error (ags s) a = Some (i :: r) -> step tok skip says s a i r c = Go s' -> Q7 s'.
  Proof.
    intros s a i r c s' I4 (L1 & L2) J1 IG N E. pose proof (okp_le _ _ _ I4 N) as (K1 & K2). pose proof (g_pre _ _ IG) as IP. pose proof (kpd_kref (kern s)) as KK. destruct I4 as (I4 & I5 & P4). clear IG P4.
    pose proof (suml_ge _ (suml w_pre) _ _ _ N) as A1. pose proof (suml_ge _ (suml w_onc) _ _ _ N) as A3. pose proof (suml_ge _ (suml w_busy) _ _ _ N) as A4.
    cases i c E; go N; rws; hs; try lia; destruct (forced s); hs; lia.
  Qed.
  Lemma step_Q8 : forall s a i r c s', Q8 s -> nth_error (ags s) a = Some (i :: r) -> step tok skip says s a i r c = Go s' -> Q8 s'.
  Proof.
    intros s a i r c s' J1 N E. pose proof (suml_ge _ (suml w_obl) _ _ _ N) as A1.
    cases i c E; go N; rws; hs; try lia.
  Qed.
  Lemma step_Q9 : forall s a i r c s', says = skip -> leak s = 0 -> step tok skip says s a i r c = Go s' -> leak s' = 0.
  Proof.
    intros s a i r c s' SS L E. cases i c E; prj; congruence.
  Qed.
  Definition V (s : st) : Prop := G tok s /\ (Q1 s /\ Q2 s /\ Q3 s) /\ (Q4 s /\ Q5 s /\ Q6 tok s) /\ (Q7 s /\ Q8 s /\ (says = skip -> leak s = 0)).
  Lemma step_V : forall s a i r c s', V s -> nth_error (ags s) a = Some (i :: r) -> touch i && freed s = false -> step tok skip says s a i r c = Go s' -> V s'.
  Proof.
    intros s a i r c s' (IG & (I1 & I2 & I3) & (I4 & I5 & I6) & (I7 & I8 & I9)) N T E.
    split; [eapply step_G; eauto|split; [split; [|split]|split; [split; [|split]|split; [|split]]]].
    - eapply step_Q1; eauto.
    - eapply step_Q2; eauto.
    - eapply step_Q3; eauto.
    - eapply step_Q4; eauto.
    - eapply step_Q5; eauto.
    - eapply step_Q6; eauto.
    - eapply step_Q7; eauto.
    - eapply step_Q8; eauto.
    - intros SS. eapply step_Q9; eauto.
  Qed.
  Lemma init_V : forall n, V (init n).
  Proof.
    intros n. split; [apply init_G|].
    split; [split; [|split]|split; [split; [|split]|split; [|split]]]; unfold Q1, Q2, Q3, Q4, Q5, Q6, Q7, Q8, cnt, ctk, init; prj; cbn [suml]; rewrite ?suml_repeat by reflexivity; hs; try lia.
    - split; [|split; lia]. intros [|a] p K; [injection K as <-; repeat constructor|]. cbn in K. apply nth_error_In in K. apply repeat_spec in K. subst. constructor.
    - repeat split; try lia. intros [|a] p K; [injection K as <-; cbn; lia|]. cbn in K. apply nth_error_In in K. apply repeat_spec in K. subst. constructor.
  Qed.
  Lemma exec_V : forall s x s', V s -> exec tok skip says s x = Go s' -> V s'.
  Proof.
    intros s x s' IV E. pose proof IV as (IG & _). destruct (exec_G tok skip says truth _ x IG) as (_ & IG'). specialize (IG' _ E).
    destruct x as [a c|e b|a|a|a|a b|a]; cbn [exec] in E.
    - destruct (nth_error (ags s) a) as [[|i r]|] eqn:N; [discriminate E| |discriminate E]. destruct (touch i && freed s) eqn:T; [discriminate E|]. eapply step_V; eauto.
    - destruct IV as (_ & (I1 & I2 & I3) & (I4 & I5 & I6) & (I7 & I8 & I9)). destruct (kern s) eqn:K; try discriminate E. destruct (freed s); [discriminate E|]. injection E as <-.
      split; [exact IG'|]. clear IG'. unfold Q1, Q2, Q3, Q4, Q5, Q6, Q7, Q8, cnt, ctk in *; prj; rewrite K in *; hs. destruct I1 as (L1 & L2 & L3). destruct I2 as (M1 & M2 & M3 & M4). pose proof (g_pre _ _ IG) as IP. unfold cnt in IP. rewrite K in IP. hs.
      assert (RN : rn (res s) = 0) by lia. split; [split; [|split]|split; [split; [|split]|split; [|split]]]; try assumption; try lia.
      + split; [|lia]. intros a p Z. specialize (L1 _ _ Z). destruct (res s); [discriminate RN|]. eapply Forall_impl; [|exact L1]. intros y. apply okr_mono.
    - destruct IV as (_ & (I1 & I2 & I3) & (I4 & I5 & I6) & (I7 & I8 & I9)). destruct (kern s) eqn:K; try discriminate E. destruct (res s) as [[e b]|] eqn:RS; [|discriminate E]. destruct (nth_error (ags s) a) as [[|i r]|] eqn:N; [|discriminate E..]. injection E as <-.
      split; [exact IG'|]. clear IG'. destruct I1 as (L1 & L2 & L3). destruct I4 as (P1 & P2 & P3).
      split; [split; [|split]|split; [split; [|split]|split; [|split]]]; unfold Q1, Q2, Q3, Q4, Q5, Q6, Q7, Q8, cnt, ctk in *; prj; try assumption.
      + clear I2 I3 I5 I6 I7 I8 I9 IG. rewrite ?RS, ?K in *. split; [eapply res_set; [exact L1|repeat (constructor; cbn [okr]; eauto)]|split]; use2 N; hs; lia.
      + clear I3 I5 I6 I7 I8 IG I9 L1 L2 L3. rewrite ?RS, ?K in *. use2 N. hs. destruct I2 as (M1 & M2 & M3 & M4). split; [lia|split; [lia|split; [lia|]]]. intros Z1 Z2. apply M4; lia.
      + clear I2 I5 I6 I7 I8 IG I9. rewrite ?RS, ?K in *. use2 N. hs. lia.
      + clear I2 I3 I5 I6 I7 I8 I9 L1 L2 L3 IG. split; [|split; [|apply okp_set; [exact P3|cbn; lia]]]; use2 N; hs; lia.
      + clear I2 I3 I6 I7 I8 I9 L1 L2 L3 IG. rewrite K in *. use2 N. hs. lia.
      + clear I2 I3 I5 I7 I8 I9 L1 L2 L3 IG. rewrite K in *. use2 N. hs. lia.
      + clear I2 I3 I6 I8 I9 L1 L2 L3 IG. rewrite K in *. use2 N. hs. lia.
      + clear I2 I3 I5 I6 I7 I9 L1 L2 L3 IG. use2 N. hs. lia.
    - destruct (nth_error (ags s) a) as [[|i [|j r]]|] eqn:N; [discriminate E| |destruct i; discriminate E|discriminate E]. destruct i; try discriminate E. injection E as <-.
      destruct IV as (_ & (I1 & I2 & I3) & (I4 & I5 & I6) & (I7 & I8 & I9)). split; [exact IG'|]. clear IG'. pose proof (okp_le _ _ _ I4 N) as (K1 & K2). destruct I1 as (L1 & L2 & L3). destruct I4 as (P1 & P2 & P3). pose proof (suml_ge _ (suml w_own) _ _ _ N) as A1. pose proof (pre_busy (ags s)) as B7.
      split; [split; [|split]|split; [split; [|split]|split; [|split]]]; unfold Q1, Q2, Q3, Q4, Q5, Q6, Q7, Q8, cnt, ctk in *; prj; try assumption.
      + clear I2 I3 I5 I6 I7 I8 I9 IG. split; [eapply res_set; [exact L1|repeat (constructor; cbn [okr]; eauto)]|split]; use2 N; hs; lia.
      + clear I3 I5 I6 I7 I8 IG I9 L1 L2 L3. use2 N. hs. destruct I2 as (M1 & M2 & M3 & M4). split; [lia|split; [lia|split; [lia|]]]. intros Z1 Z2. apply M4; lia.
      + clear I2 I5 I6 I7 I8 IG I9. hs. lia.
      + clear I2 I3 I5 I6 I7 I8 I9 L1 L2 L3 IG. split; [|split; [|apply okp_set; [exact P3|cbn; lia]]]; use2 N; hs; lia.
      + clear I2 I3 I6 I7 I8 I9 L1 L2 L3 IG. use2 N. hs. lia.
      + clear I2 I3 I5 I7 I8 I9 L1 L2 L3 IG. use2 N. hs. lia.
      + clear I2 I3 I6 I8 I9 L1 L2 L3 IG. use2 N. hs. lia.
      + clear I2 I3 I5 I6 I7 I9 L1 L2 L3 IG. use2 N. hs. lia.
    - destruct (nth_error (ags s) a) as [[|i [|j r]]|] eqn:N; [discriminate E| |destruct i; discriminate E|discriminate E]. destruct i; try discriminate E. injection E as <-.
      destruct IV as (_ & (I1 & I2 & I3) & (I4 & I5 & I6) & (I7 & I8 & I9)). split; [exact IG'|]. clear IG'. pose proof (okp_le _ _ _ I4 N) as (K1 & K2). destruct I1 as (L1 & L2 & L3). destruct I4 as (P1 & P2 & P3). pose proof (suml_ge _ (suml w_own) _ _ _ N) as A1. pose proof (pre_busy (ags s)) as B7.
      split; [split; [|split]|split; [split; [|split]|split; [|split]]]; unfold Q1, Q2, Q3, Q4, Q5, Q6, Q7, Q8, cnt, ctk in *; prj; try assumption.
      + clear I2 I3 I5 I6 I7 I8 I9 IG. split; [eapply res_set; [exact L1|repeat (constructor; cbn [okr]; eauto)]|split]; use2 N; hs; lia.
      + clear I3 I5 I6 I7 I8 IG I9 L1 L2 L3. use2 N. hs. destruct I2 as (M1 & M2 & M3 & M4). split; [lia|split; [lia|split; [lia|]]]. intros Z1 Z2. apply M4; lia.
      + clear I2 I5 I6 I7 I8 IG I9. use2 N. hs. lia.
      + clear I2 I3 I5 I6 I7 I8 I9 L1 L2 L3 IG. split; [|split; [|apply okp_set; [exact P3|cbn; lia]]]; use2 N; hs; lia.
      + clear I2 I3 I6 I7 I8 I9 L1 L2 L3 IG. use2 N. hs. lia.
      + clear I2 I3 I5 I7 I8 I9 L1 L2 L3 IG. use2 N. hs. lia.
      + clear I2 I3 I6 I8 I9 L1 L2 L3 IG. use2 N. hs. lia.
      + clear I2 I3 I5 I6 I7 I9 L1 L2 L3 IG. use2 N. hs. lia.
    - destruct (nth_error (ags s) a) as [[|i [|j r]]|] eqn:N0; [discriminate E| |destruct i; discriminate E|discriminate E]. destruct i; try discriminate E. destruct (nth_error (ags s) b) as [[|i r]|] eqn:N; [|discriminate E..]. destruct (freed s); [discriminate E|]. injection E as <-.
      destruct IV as (_ & (I1 & I2 & I3) & (I4 & I5 & I6) & (I7 & I8 & I9)). split; [exact IG'|]. clear IG'. pose proof (okp_le _ _ _ I4 N0) as (K1 & K2). destruct I1 as (L1 & L2 & L3). destruct I4 as (P1 & P2 & P3). pose proof (suml_ge _ (suml w_own) _ _ _ N0) as A1. pose proof (pre_busy (ags s)) as B7.
      split; [split; [|split]|split; [split; [|split]|split; [|split]]]; unfold Q1, Q2, Q3, Q4, Q5, Q6, Q7, Q8, cnt, ctk in *; prj; try assumption.
      + clear I2 I3 I5 I6 I7 I8 I9 IG. split; [eapply res_set; [exact L1|repeat (constructor; cbn [okr]; eauto)]|split]; use2 N; hs; lia.
      + clear I3 I5 I6 I7 I8 IG I9 L1 L2 L3. use2 N. hs. destruct I2 as (M1 & M2 & M3 & M4). split; [lia|split; [lia|split; [lia|]]]. intros Z1 Z2. apply M4; lia.
      + clear I2 I5 I6 I7 I8 IG I9. use2 N. hs. lia.
      + clear I2 I3 I5 I6 I7 I8 I9 L1 L2 L3 IG. split; [|split; [|apply okp_set; [exact P3|cbn; lia]]]; use2 N; hs; lia.
      + clear I2 I3 I6 I7 I8 I9 L1 L2 L3 IG. use2 N. hs. lia.
      + clear I2 I3 I5 I7 I8 I9 L1 L2 L3 IG. use2 N. hs. lia.
      + clear I2 I3 I6 I8 I9 L1 L2 L3 IG. use2 N. hs. lia.
      + clear I2 I3 I5 I6 I7 I9 L1 L2 L3 IG. use2 N. hs. lia.
    - assert (E' : sp s a [TExch] = s' /\ nth_error (ags s) a = Some []) by (destruct tok; [|discriminate E]; destruct (nth_error (ags s) a) as [[|i r]|]; [|discriminate E..]; injection E as <-; auto). clear E. destruct E' as (<- & N).
      destruct IV as (_ & (I1 & I2 & I3) & (I4 & I5 & I6) & (I7 & I8 & I9)). split; [exact IG'|]. clear IG'. destruct I1 as (L1 & L2 & L3). destruct I4 as (P1 & P2 & P3). pose proof (pre_busy (ags s)) as B7.
      split; [split; [|split]|split; [split; [|split]|split; [|split]]]; unfold Q1, Q2, Q3, Q4, Q5, Q6, Q7, Q8, cnt, ctk in *; prj; try assumption.
      + clear I2 I3 I5 I6 I7 I8 I9 IG. split; [eapply res_set; [exact L1|repeat (constructor; cbn [okr]; eauto)]|split]; use2 N; hs; lia.
      + clear I3 I5 I6 I7 I8 IG I9 L1 L2 L3. use2 N. hs. destruct I2 as (M1 & M2 & M3 & M4). split; [lia|split; [lia|split; [lia|]]]. intros Z1 Z2. apply M4; lia.
      + clear I2 I5 I6 I7 I8 IG I9. use2 N. hs. lia.
      + clear I2 I3 I5 I6 I7 I8 I9 L1 L2 L3 IG. split; [|split; [|apply okp_set; [exact P3|cbn; lia]]]; use2 N; hs; lia.
      + clear I2 I3 I6 I7 I8 I9 L1 L2 L3 IG. use2 N. hs. lia.
      + clear I2 I3 I5 I7 I8 I9 L1 L2 L3 IG. use2 N. hs. lia.
      + clear I2 I3 I6 I8 I9 L1 L2 L3 IG. use2 N. hs. lia.
      + clear I2 I3 I5 I6 I7 I9 L1 L2 L3 IG. use2 N. hs. lia.
  Qed.
  Lemma run_V : forall l s s', V s -> run tok skip says s l = Some s' -> V s'.
  Proof.
    induction l as [|x l IH]; intros s s' IV R; cbn [run] in R; [injection R as <-; exact IV|]. destruct (exec tok skip says s x) eqn:E; [discriminate R|eauto|]. eapply IH; [eapply exec_V; eauto|exact R].
  Qed.
  Lemma run_total : forall l s, V s -> exists s', run tok skip says s l = Some s'.
  Proof.
    induction l as [|x l IH]; intros s IV; cbn [run]; [eauto|]. destruct (exec_G tok skip says truth _ x (proj1 IV)) as (NB & _). destruct (exec tok skip says s x) eqn:E; [congruence|auto|]. apply IH. eapply exec_V; eauto.
  Qed.
End File.
