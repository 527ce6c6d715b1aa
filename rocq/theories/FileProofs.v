(** Invariants of asynchronous file operations. *)
From Coq Require Import List Bool Arith Lia.
From Verif Require Import Slots SlotsProofs Threads FileModel.
Import ListNotations.

(** ** Weights of accesses *)
Definition w_ref (x : instr) : nat := match x with Own | Rel => 1 | _ => 0 end.
Definition w_own (x : instr) : nat := match x with Own => 1 | _ => 0 end.
Definition w_free (x : instr) : nat := match x with Free => 1 | _ => 0 end.
Definition w_unreg (x : instr) : nat := match x with Unreg => 1 | _ => 0 end.
Definition w_tu (x : instr) : nat := match x with TUnlock => 1 | _ => 0 end.
Definition w_tl (x : instr) : nat := match x with TLock => 1 | _ => 0 end.
Definition w_t (x : instr) : nat := match x with TExch | TLock | TUnlock => 1 | _ => 0 end.
Definition w_pre (x : instr) : nat := match x with IChk | Issue => 1 | _ => 0 end.
Definition w_busy (x : instr) : nat := match x with IChk | Issue | S1 | S2 | S3 | Reg => 1 | _ => 0 end.
Definition w_setf (x : instr) : nat := match x with SetF => 1 | _ => 0 end.
Definition w_onc (x : instr) : nat := match x with OnC => 1 | _ => 0 end.
Definition w_wl (x : instr) : nat := match x with WrL _ => 1 | _ => 0 end.
Definition w_wh (x : instr) : nat := match x with WrH => 1 | _ => 0 end.
Definition w_wx (x : instr) : nat := match x with WrX => 1 | _ => 0 end.
Definition w_casx (x : instr) : nat := match x with CasX => 1 | _ => 0 end.
Definition w_obl (x : instr) : nat := match x with IChk | Issue | R1 _ | R2 _ | R3 _ | CasC _ | CasX => 1 | _ => 0 end.
Definition cnt (g : instr -> nat) (s : st) : nat := suml (suml g) (ags s).
(** The token's thread that is about to call OnCanceled under the lock. *)
Definition tk (p : list instr) : nat := match p with [OnC; TUnlock] => 1 | _ => 0 end.
(** A destructor behind Unregister. *)
Definition dd (p : list instr) : nat := match p with [Free] => 1 | _ => 0 end.
Definition ctk (s : st) : nat := suml tk (ags s).
Definition b2n (b : bool) : nat := if b then 1 else 0.
Definition kref (k : kernel) : nat := match k with KIdle => 0 | _ => 1 end.

(** ** Shapes of threads *)
Definition plain (x : instr) : bool := match x with Own | Unreg | Free | TExch | TLock | TUnlock => false | _ => true end.
Fixpoint okw (p : list instr) : bool :=
  match p with [] => false | x :: r => match r with [] => (match x with Own | Rel => true | _ => false end) | _ => plain x && okw r end end.
Definition wf (p : list instr) : Prop :=
  p = [] \/ okw p = true \/ p = [Unreg; Free] \/ p = [Free] \/ p = [TExch] \/ p = [TLock] \/ p = [OnC; TUnlock] \/ p = [TUnlock].
Lemma okw_tail : forall x r, okw (x :: r) = true -> (r = [] /\ (x = Own \/ x = Rel)) \/ (r <> [] /\ plain x = true /\ okw r = true).
Proof.
  intros x r H. destruct r as [|y r]; [left; split; [reflexivity|]; destruct x; try discriminate H; auto|]. right. split; [discriminate|]. cbn [okw] in H. apply andb_true_iff in H. exact H.
Qed.
Lemma okw_cons : forall x r, plain x = true -> okw r = true -> okw (x :: r) = true.
Proof. intros x [|y r] P R; [discriminate R|]. cbn [okw]. rewrite P. exact R. Qed.
Lemma okw_w : forall p, okw p = true -> 1 <= suml w_ref p /\ suml w_free p = 0 /\ suml w_unreg p = 0 /\ suml w_t p = 0 /\ tk p = 0 /\ dd p = 0.
Proof.
  induction p as [|x r IH]; intros H; [discriminate H|]. destruct (okw_tail _ _ H) as [(-> & [-> | ->])|(N & P & R)]; [cbn; repeat split; auto..|]. destruct (IH R) as (A & B & C & D & E & F).
  cbn [suml]. assert (tk (x :: r) = 0). { destruct x; try reflexivity. destruct r as [|y [|z r]]; try reflexivity; destruct y; try reflexivity; discriminate R. }
  destruct x; try discriminate P; cbn [w_ref w_free w_unreg w_t]; repeat split; try lia; try assumption; destruct r; reflexivity.
Qed.
Lemma okw_not : forall p, okw p = true -> p <> [] /\ p <> [Unreg; Free] /\ p <> [Free] /\ p <> [TExch] /\ p <> [TLock] /\ p <> [OnC; TUnlock] /\ p <> [TUnlock].
Proof. intros p H. repeat split; intros ->; discriminate H. Qed.

Ltac use N := repeat match goal with |- context [suml ?f (set ?l ?a ?p)] => pose proof (suml_set _ f l a _ p N); generalize dependent (suml f (set l a p)); intros end.
Ltac ws := cbn [suml w_ref w_own w_free w_unreg w_tu w_tl w_t w_pre w_busy w_setf w_onc w_wl w_wh w_wx w_casx w_obl b2n kref Nat.add] in *.
Ltac prj := cbn [rc freed sts hr lst hfile reg flag lock kern res creq ags forced missed leak sp] in *.

Section File.
  Variable tok skip says : bool.
  Hypothesis truth : says = true -> skip = true.

  (** Safety *)
  Definition ln (l : option nat) : nat := match l with None => 0 | Some _ => 1 end.
  Record G (s : st) : Prop := mkG {
    g_wf : forall a p, nth_error (ags s) a = Some p -> wf p;
    g_rc : rc s = cnt w_ref s + kref (kern s) + leak s;
    g_pre : cnt w_pre s + kref (kern s) + leak s <= 1;
    g_live : (rc s = 0 -> cnt w_free s + b2n (freed s) = 1) /\ (1 <= rc s -> cnt w_free s + b2n (freed s) = 0);
    g_un : cnt w_free s = cnt w_unreg s + suml dd (ags s);
    g_lock : cnt w_tu s = ln (lock s);
    g_tk : ctk s <= cnt w_tu s;
    g_reg : 1 <= b2n (reg s) + ctk s -> b2n (freed s) = 0 /\ cnt w_free s = cnt w_unreg s;
    g_tok : b2n tok = 0 -> b2n (reg s) = 0 /\ cnt w_t s = 0
  }.
  Lemma G_wf' : forall s a p, (forall b q, nth_error (ags s) b = Some q -> wf q) -> wf p -> forall b q, nth_error (set (ags s) a p) b = Some q -> wf q.
  Proof. intros s a p H W b q K. apply nth_set in K. destruct K as [(_ & ->)|(_ & K)]; [assumption|eauto]. Qed.
  Lemma t_tu : forall p, suml w_tu p <= suml w_t p.
  Proof. induction p as [|x r IH]; cbn [suml]; [lia|]. destruct x; cbn [w_tu w_t]; lia. Qed.
  Lemma tu_t : forall l, suml (suml w_tu) l <= suml (suml w_t) l.
  Proof. induction l as [|p l IH]; cbn [suml]; [lia|]. pose proof (t_tu p). lia. Qed.
  Lemma tk_1 : forall p, tk p <= suml w_tu p.
  Proof. intros [|x [|y [|z p]]]; [cbn; lia|destruct x; cbn; lia|destruct x, y; cbn; lia|]. destruct x; cbn [tk]; try lia; destruct y; cbn [tk]; lia. Qed.
  Lemma tk_tu : forall l, suml tk l <= suml (suml w_tu) l.
  Proof. induction l as [|p l IH]; cbn [suml]; [lia|]. pose proof (tk_1 p). lia. Qed.
  Ltac pw := solve [right; left; repeat (apply okw_cons; [reflexivity|]); assumption | unfold wf; tauto].
  Ltac fin IG N := destruct IG as [IW IR IP IL IU IK IT IE IO]; constructor; prj; try match goal with H : tok = _ |- _ => rewrite H in * end; try match goal with H : lock _ = _ |- _ => rewrite H in * end; try match goal with H : reg _ = _ |- _ => rewrite H in * end; unfold cnt, ctk in *; prj; [eapply G_wf'; [exact IW|]; try pw|..];
    try apply tk_tu; use N; ws; cbn [tk dd ln] in *; try lia.
  Lemma step_G : forall s a i r c s', G s -> nth_error (ags s) a = Some (i :: r) -> (touch i && freed s = false) -> step tok skip says s a i r c = Go s' -> G s'.
  Proof.
    intros s a i r c s' IG N T E. pose proof (g_wf _ IG _ _ N) as WF.
    pose proof (suml_ge _ (suml w_ref) _ _ _ N) as A1. pose proof (suml_ge _ (suml w_free) _ _ _ N) as A2. pose proof (suml_ge _ (suml w_unreg) _ _ _ N) as A3. pose proof (suml_ge _ (suml w_tu) _ _ _ N) as A4. pose proof (suml_ge _ (suml w_t) _ _ _ N) as A5. pose proof (suml_ge _ (suml w_pre) _ _ _ N) as A6. pose proof (suml_ge _ tk _ _ _ N) as A7. pose proof (suml_ge _ dd _ _ _ N) as A8. pose proof (tu_t (ags s)) as A9.
    destruct WF as [WF|[WF|[WF|[WF|[WF|[WF|[WF|WF]]]]]]]; [discriminate WF| |injection WF as -> ->..].
    - pose proof (okw_w _ WF) as (B1 & B2 & B3 & B4 & B5 & B7). destruct (okw_tail _ _ WF) as [(-> & [-> | ->])|(NE & P & R)].
      + discriminate E.
      + cbn [step] in E. destruct (rc s) as [|k] eqn:RC; [discriminate E|]. injection E as <-. destruct k, tok eqn:TK; fin IG N.
      + pose proof (okw_w _ R) as (C1 & C2 & C3 & C4 & C5 & C7). pose proof (t_tu r) as C6. destruct i; try discriminate P; cbn [step] in E.
        * destruct (tok && flag s) eqn:TF; injection E as <-; fin IG N.
        * destruct c; [destruct skip eqn:?, says eqn:?; cbn [andb negb] in *; try (exfalso; specialize (truth eq_refl); congruence)|..]; injection E as <-; fin IG N.
        * injection E as <-; fin IG N.
        * destruct (sts s); injection E as <-; fin IG N.
        * destruct (sts s); injection E as <-; fin IG N.
        * destruct (tok && flag s) eqn:TF; injection E as <-; fin IG N.
        * destruct tok eqn:TK; cbn [negb] in E; [destruct (free_lock s); cbn [negb] in E; [|discriminate E]|]; injection E as <-; [destruct (flag s); cbn [negb]|]; fin IG N.
        * destruct (sts s); injection E as <-; fin IG N.
        * destruct (sts s); injection E as <-; fin IG N.
        * destruct (tok && flag s) eqn:TF; injection E as <-; fin IG N.
        * destruct (is_started (sts s)); injection E as <-; fin IG N.
        * injection E as <-; fin IG N.
        * injection E as <-; fin IG N.
        * destruct (is_started (sts s)); injection E as <-; fin IG N.
        * injection E as <-; fin IG N.
        * injection E as <-; fin IG N.
        * destruct (rc s) as [|k] eqn:RC; [discriminate E|]. injection E as <-. destruct k; [exfalso; destruct IG as [IW IR IP IL IU IK IT IE IO]; unfold cnt in *; ws; lia|]. fin IG N.
    - cbn [step] in E. unfold free_lock in E. destruct (lock s) eqn:L; [discriminate E|]. injection E as <-. fin IG N.
    - injection E as <-. cbn in T. fin IG N; rewrite T in *; cbn [b2n] in *; try lia.
    - cbn [step] in E. injection E as <-. destruct (flag s); fin IG N.
    - cbn [step] in E. unfold free_lock in E. destruct (lock s) eqn:L; [discriminate E|]. injection E as <-. destruct (reg s) eqn:RG; fin IG N.
    - injection E as <-. fin IG N.
    - injection E as <-. destruct (lock s) eqn:L; fin IG N.
  Qed.
  Lemma exec_G : forall s x, G s -> exec tok skip says s x <> UB /\ (forall s', exec tok skip says s x = Go s' -> G s').
  Proof.
    intros s x IG. destruct x as [a c|e b|a|a|a|a b|a]; cbn [exec].
    - destruct (nth_error (ags s) a) as [[|i r]|] eqn:N; [split; discriminate| |split; discriminate]. pose proof (g_wf _ IG _ _ N) as WF.
      assert (T : touch i && freed s = false).
      { destruct (touch i) eqn:T; [|reflexivity]. cbn [andb]. destruct (freed s) eqn:F; [|reflexivity]. exfalso. destruct IG as [IW IR IP IL IU IK IT IE IO]. unfold cnt, ctk in *. rewrite F in *. cbn [b2n] in *.
        pose proof (suml_ge _ (suml w_ref) _ _ _ N) as A1. pose proof (suml_ge _ (suml w_free) _ _ _ N) as A2. pose proof (suml_ge _ tk _ _ _ N) as A7.
        destruct WF as [WF|[WF|[WF|[WF|[WF|[WF|[WF|WF]]]]]]]; [discriminate WF|pose proof (okw_w _ WF); lia|injection WF as -> ->; ws; cbn [tk] in *; try discriminate T; lia..]. }
      rewrite T. split; [|intros s' E; exact (step_G _ _ _ _ _ _ IG N T E)].
      destruct i; cbn [step]; try discriminate; repeat match goal with |- context [if ?b then _ else _] => destruct b end; try discriminate; try (destruct c; discriminate); try (destruct (sts s); discriminate).
      all: destruct (rc s) eqn:RC; [|discriminate]; exfalso. all: destruct IG as [IW IR _ _ _ _ _ _ _]; unfold cnt in *; pose proof (suml_ge _ (suml w_ref) _ _ _ N) as A1; ws; lia.
    - destruct (kern s) eqn:K; try (split; discriminate). destruct (freed s) eqn:F.
      + exfalso. destruct IG as [IW IR IP IL IU IK IT IE IO]. rewrite K, F in *. ws. lia.
      + split; [discriminate|]. intros s' E. injection E as <-. destruct IG as [IW IR IP IL IU IK IT IE IO]. constructor; prj; unfold cnt, ctk in *; prj; rewrite ?K, ?F in *; ws; auto.
    - destruct (kern s) eqn:K; try (split; discriminate). destruct (res s) as [[e b]|]; [|split; discriminate]. destruct (nth_error (ags s) a) as [[|i r]|] eqn:N; [|split; discriminate..]. split; [discriminate|]. intros s' E. injection E as <-.
      fin IG N; rewrite ?K in *; ws; lia.
    - destruct (nth_error (ags s) a) as [[|i [|j r]]|] eqn:N; [split; discriminate| |destruct i; split; discriminate|split; discriminate]. destruct i; try (split; discriminate). split; [discriminate|]. intros s' E. injection E as <-. fin IG N.
    - destruct (nth_error (ags s) a) as [[|i [|j r]]|] eqn:N; [split; discriminate| |destruct i; split; discriminate|split; discriminate]. destruct i; try (split; discriminate). split; [discriminate|]. intros s' E. injection E as <-. fin IG N.
    - destruct (nth_error (ags s) a) as [[|i [|j r]]|] eqn:N0; [split; discriminate| |destruct i; split; discriminate|split; discriminate]. destruct i; try (split; discriminate). destruct (nth_error (ags s) b) as [[|i r]|] eqn:N; [|split; discriminate..].
      pose proof (suml_ge _ (suml w_ref) _ _ _ N0) as A1. destruct (freed s) eqn:F.
      + exfalso. destruct IG as [IW IR IP IL IU IK IT IE IO]. unfold cnt in *. rewrite F in *. ws. lia.
      + split; [discriminate|]. intros s' E. injection E as <-. fin IG N; rewrite ?F in *; ws; lia.
    - destruct tok eqn:TK; [|split; discriminate]. destruct (nth_error (ags s) a) as [[|i r]|] eqn:N; [|split; discriminate..]. split; [discriminate|]. intros s' E. injection E as <-. fin IG N.
  Qed.
  Lemma init_G : forall n, G (init n).
  Proof.
    intros n. constructor; unfold cnt, ctk, init; prj; cbn [suml]; rewrite ?suml_repeat by reflexivity; ws; cbn [tk dd ln]; try lia.
    intros [|a] p H; [injection H as <-; right; left; reflexivity|]. left. revert a H. induction n as [|n IH]; intros [|a] H; cbn in H; try discriminate; [congruence|eauto].
  Qed.
End File.
