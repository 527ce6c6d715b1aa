(** Invariant of PoolModel: who has the handle of a registration and who owes its release. *)
From Coq Require Import List ZArith Bool Arith Lia.
From Verif Require Import Slots SlotsProofs Threads PoolModel.
Import ListNotations.

Definition eqn (h k : nat) : nat := if Nat.eqb h k then 1 else 0.
Definition cus (k : nat) (a : agent) : nat := match a with S1 h | X1 h | S6 h | B1 _ h => eqn h k | _ => 0 end.
Definition cre (k : nat) (a : agent) : nat := match a with S2 h | X2 h | B0 h | B1 h _ | B2 h => eqn h k | _ => 0 end.
Definition bks (k : nat) (a : agent) : nat := match a with B0 h | B1 h _ | B2 h | B3 h => eqn h k | _ => 0 end.
Definition b23 (k : nat) (a : agent) : nat := match a with B2 h | B3 h => eqn h k | _ => 0 end.
Definition tkn (k : nat) (a : agent) : nat := match a with S1 h | X1 h => eqn h k | _ => 0 end.
Definition actv (a : agent) : nat := match a with S0 | S1 _ | S2 _ | S3 | S4 | S5 | B0 _ | B1 _ _ | B2 _ => 1 | _ => 0 end.
Definition arm (r : reg) : nat := match r with Armed => 1 | _ => 0 end.
Definition gets (a : agent) : nat := match a with S5 | S7 => 1 | _ => 0 end.
Definition pts (o : option nat) (k : nat) : nat := match o with Some h => eqn h k | None => 0 end.
Definition rel (k : nat) (l : list event) : nat := suml (fun e => match e with ERel h => eqn h k | _ => 0 end) l.
Definition clean (l : list event) : Prop := forall k, ~ In (EEarly k) l /\ ~ In (ELate k) l.
Definition ok (s : st) (k : nat) : Prop :=
  let c := pts (slot s) k + suml (cus k) (ag s) in
  let d := suml (cre k) (ag s) in
  let b := suml (bks k) (ag s) in
  let r := rel k (log s) in
  match nth_error (regs s) k with
  | None => c = 0 /\ b = 0 /\ d + r = 0
  | Some Armed => c = 1 /\ b = 0 /\ d + r = 0
  | Some Calling => c = 1 /\ b = 1 /\ d + r = 1 /\ suml (b23 k) (ag s) <= suml (tkn k) (ag s)
  | Some Dying => c = 0 /\ b = 1 /\ d + r = 1
  | Some Fired => False
  | Some Gone => c = 0 /\ b = 0 /\ d + r = 1
  end.
Record Inv (s : st) : Prop := {
  i_k : forall k, ok s k;
  i_t : tok s + suml actv (ag s) + suml arm (regs s) <= 1;
  i_b : forall i k h, nth_error (ag s) i = Some (B1 k h) -> h = k;
  i_x : forall h, ~ In (EBad h) (log s) }.
Lemma eqn_same : forall k, eqn k k = 1. Proof. intros k. unfold eqn. rewrite Nat.eqb_refl. reflexivity. Qed.
Lemma eqn_diff : forall h k, h <> k -> eqn h k = 0. Proof. intros h k H. unfold eqn. destruct (Nat.eqb_spec h k); [contradiction|reflexivity]. Qed.
Lemma eqn_le : forall h k, eqn h k <= 1. Proof. intros h k. unfold eqn. destruct (Nat.eqb h k); lia. Qed.
Lemma rel_app : forall k l e, rel k (l ++ e) = rel k l + rel k e.
Proof. intros k l e. unfold rel. induction l as [|x l IH]; cbn; [reflexivity|]. rewrite IH. lia. Qed.
Lemma suml_app : forall A (f : A -> nat) l e, suml f (l ++ e) = suml f l + suml f e.
Proof. intros A f l e. induction l as [|x l IH]; cbn; [reflexivity|]. rewrite IH. lia. Qed.
Lemma clean_app : forall l e, clean (l ++ e) -> clean l /\ clean e.
Proof. intros l e H. split; intros k; destruct (H k) as (A & B); split; intros X; [apply A|apply B|apply A|apply B]; apply in_or_app; auto. Qed.
Lemma cus_tkn : forall k l, suml (tkn k) l <= suml (cus k) l.
Proof. intros k. induction l as [|a l IH]; cbn; [lia|]. destruct a; cbn [tkn cus]; lia. Qed.
Definition b1 (k : nat) (a : agent) : nat := match a with B1 _ h => eqn h k | _ => 0 end.
Lemma cus_split : forall k l, suml (cus k) l = suml (tkn k) l + suml (fun a => match a with S6 h => eqn h k | _ => 0 end) l + suml (b1 k) l.
Proof. intros k. induction l as [|a l IH]; cbn [suml]; [lia|]. destruct a; cbn [tkn cus b1]; lia. Qed.
Lemma b23_bks : forall k l, suml (b23 k) l <= suml (bks k) l.
Proof. intros k. induction l as [|a l IH]; cbn; [lia|]. destruct a; cbn [b23 bks]; lia. Qed.
Lemma exist_pos : forall (f : agent -> bool) (g : agent -> nat) l, (forall a, f a = false -> g a = 0) -> existsb f l = false -> suml g l = 0.
Proof. intros f g. induction l as [|a l IH]; intros H E; cbn in *; [reflexivity|]. apply orb_false_iff in E. destruct E as (E1 & E2). rewrite (H _ E1), (IH H E2). reflexivity. Qed.
Lemma nth_reg : forall (l : list reg) h k r x, nth_error l h = Some x -> nth_error (set l h r) k = if Nat.eqb h k then Some r else nth_error l k.
Proof.
  intros l h k r x H. destruct (Nat.eqb_spec h k) as [->|N]; [apply nth_set_eq; apply nth_error_Some; congruence|apply nth_set_neq; assumption].
Qed.
(** What an agent at [a] finds. *)
Lemma has : forall s i a k, Inv s -> nth_error (ag s) i = Some a -> 1 <= cus k a -> nth_error (regs s) k = Some Armed \/ nth_error (regs s) k = Some Calling.
Proof.
  intros s i a k I G C. pose proof (i_k _ I k) as O. unfold ok in O. pose proof (suml_ge _ (cus k) _ _ _ G).
  destruct (nth_error (regs s) k) as [[]|]; auto; cbv zeta in O; try contradiction; lia.
Qed.
Lemma slot_live : forall s k, Inv s -> slot s = Some k -> 1 <= suml arm (regs s) \/ (suml (b23 k) (ag s) = 0 /\ suml (bks k) (ag s) = 1 /\ suml (cus k) (ag s) = 0).
Proof.
  intros s k I E. pose proof (i_k _ I k) as O. unfold ok in O. rewrite E in O. cbn [pts] in O. rewrite eqn_same in O.
  destruct (nth_error (regs s) k) as [[]|] eqn:R; cbv zeta in O; try contradiction; try lia.
  - left. pose proof (suml_ge _ arm _ _ _ R) as X. cbn in X. exact X.
  - right. pose proof (cus_tkn k (ag s)). lia.
Qed.
Lemma actv_b : forall k l, suml (bks k) l <= suml (b23 k) l + suml actv l.
Proof. intros k. induction l as [|a l IH]; cbn; [lia|]. destruct a; cbn [bks b23 actv]; try lia; pose proof (eqn_le k0 k); pose proof (eqn_le k k); try (pose proof (eqn_le h k)); lia. Qed.
(** The slot that the callback of [k] finds is empty or its own. *)
Lemma slot_own : forall s i k h, Inv s -> nth_error (ag s) i = Some (B0 k) -> slot s = Some h -> h = k.
Proof.
  intros s i k h I G E. pose proof (i_t _ I) as T. pose proof (suml_ge _ actv _ _ _ G) as A. cbn in A.
  destruct (slot_live _ _ I E) as [L|(B1 & B2 & _)]; [lia|].
  destruct (Nat.eq_dec h k) as [|N]; [assumption|exfalso].
  destruct (suml_pos _ (bks h) (ag s)) as (j & a & GJ & P); [lia|].
  assert (AJ : actv a = 1).
  { assert (B3 : b23 h a = 0) by (pose proof (suml_ge _ (b23 h) _ _ _ GJ); lia). destruct a; cbn in *; try reflexivity; lia. }
  destruct (Nat.eq_dec i j) as [->|NJ]; [rewrite G in GJ; injection GJ as <-; cbn in P; rewrite eqn_diff in P by congruence; lia|].
  pose proof (suml_two _ actv _ _ _ _ _ NJ G GJ) as X. cbn in X. lia.
Qed.
(** A setter finds the slot empty. *)
Lemma slot_none : forall s i, Inv s -> nth_error (ag s) i = Some S0 -> slot s = None.
Proof.
  intros s i I G. destruct (slot s) as [h|] eqn:E; [exfalso|reflexivity]. pose proof (i_t _ I) as T. pose proof (suml_ge _ actv _ _ _ G) as A. cbn in A.
  destruct (slot_live _ _ I E) as [L|(B1 & B2 & _)]; [lia|].
  destruct (suml_pos _ (bks h) (ag s)) as (j & a & GJ & P); [lia|].
  assert (AJ : actv a = 1).
  { assert (B3 : b23 h a = 0) by (pose proof (suml_ge _ (b23 h) _ _ _ GJ); lia). destruct a; cbn in *; try reflexivity; lia. }
  destruct (Nat.eq_dec i j) as [->|NJ]; [rewrite G in GJ; injection GJ as <-; cbn in P; lia|].
  pose proof (suml_two _ actv _ _ _ _ _ NJ G GJ) as X. cbn in X. lia.
Qed.
(** While a handle is being stored its registration is the only one that is not over. *)
Lemma stored : forall s i h, Inv s -> nth_error (ag s) i = Some (S6 h) ->
  suml (tkn h) (ag s) = 0 /\ suml (b23 h) (ag s) = 0 /\ pts (slot s) h = 0 /\ suml (cus h) (ag s) = 1 /\ tok s = 0 /\
  (suml arm (regs s) = 1 /\ suml actv (ag s) = 0 \/ suml arm (regs s) = 0 /\ suml actv (ag s) = 1 /\ suml (bks h) (ag s) = 1).
Proof.
  intros s i h I G. pose proof (i_t _ I) as T. pose proof (i_k _ I h) as O. unfold ok in O. pose proof (suml_ge _ (cus h) _ _ _ G) as C. cbn in C. rewrite eqn_same in C.
  assert (TK : suml (tkn h) (ag s) < suml (cus h) (ag s)).
  { clear - G. revert i G. induction (ag s) as [|a l IH]; intros [|i] G; cbn in G; try discriminate.
    - injection G as ->. cbn [suml tkn cus]. rewrite eqn_same. pose proof (cus_tkn h l). lia.
    - cbn [suml]. specialize (IH _ G). destruct a; cbn [tkn cus]; lia. }
  destruct (nth_error (regs s) h) as [[]|] eqn:R; cbv zeta in O; try contradiction; try lia.
  - pose proof (suml_ge _ arm _ _ _ R) as A. cbn in A. pose proof (b23_bks h (ag s)). lia.
  - pose proof (actv_b h (ag s)). lia.
Qed.
Lemma stored_slot : forall s i h, Inv s -> nth_error (ag s) i = Some (S6 h) -> slot s = None.
Proof.
  intros s i h I G. destruct (stored _ _ _ I G) as (A & B & C & D & E & F). destruct (slot s) as [h'|] eqn:ES; [exfalso|reflexivity].
  assert (N : h' <> h) by (intros ->; cbn in C; rewrite eqn_same in C; discriminate).
  destruct (slot_live _ _ I ES) as [L|(L1 & L2 & L3)].
  - destruct F as [(F1 & F2)|(F1 & _)]; [|lia].
    (* the armed registration is h *)
    pose proof (i_k _ I h') as O'. pose proof (i_k _ I h) as O. unfold ok in O, O'. rewrite ES in O'. cbn in O'. rewrite eqn_same in O'.
    pose proof (actv_b h (ag s)). pose proof (actv_b h' (ag s)). pose proof (cus_tkn h' (ag s)).
    destruct (nth_error (regs s) h') as [[]|] eqn:R'; try contradiction; try lia.
    destruct (nth_error (regs s) h) as [[]|] eqn:R; try contradiction; try lia.
    pose proof (suml_two _ arm _ _ _ _ _ N R' R) as X. cbn in X. lia.
  - pose proof (actv_b h' (ag s)) as X. destruct F as [(F1 & F2)|(F1 & F2 & F3)]; [lia|].
    destruct (suml_pos _ (bks h) (ag s)) as (j & a & GJ & P); [lia|]. destruct (suml_pos _ (bks h') (ag s)) as (j' & a' & GJ' & P'); [lia|].
    assert (NJ : j <> j').
    { intros <-. rewrite GJ in GJ'. injection GJ' as <-. destruct a; cbn in P, P'; try lia; unfold eqn in P, P'; destruct (Nat.eqb_spec k h), (Nat.eqb_spec k h'); try lia; congruence. }
    assert (AA : forall x a, bks x a > 0 -> b23 x a = 0 -> actv a = 1) by (intros x y; destruct y; cbn; lia).
    pose proof (suml_two _ actv _ _ _ _ _ NJ GJ GJ') as Y.
    rewrite (AA h a P), (AA h' a' P') in Y; [lia| |]; [pose proof (suml_ge _ (b23 h') _ _ _ GJ')|pose proof (suml_ge _ (b23 h) _ _ _ GJ)]; lia.
Qed.
Ltac sums G k y :=
  pose proof (suml_set _ (cus k) _ _ _ y G); pose proof (suml_set _ (cre k) _ _ _ y G); pose proof (suml_set _ (bks k) _ _ _ y G);
  pose proof (suml_set _ (b23 k) _ _ _ y G); pose proof (suml_set _ (tkn k) _ _ _ y G).
Ltac beq := rewrite ?Nat.eqb_refl, ?eqn_same in *.
Ltac proj := cbn [slot regs pr tok ag log w_slot w_regs w_pr w_tok w_ag say put w_reg release fst snd] in *.
Ltac cnt := cbn [cus cre bks b23 tkn actv pts] in *.
Ltac fin := repeat match goal with H : nth_error (regs _) _ = Some _ |- _ => rewrite H in * end; cbv zeta in *; unfold rel in *; cbn [cus cre bks b23 tkn pts suml] in *; beq; try lia; auto.
Lemma step_inv : forall s i b s', step s i b = Some s' -> clean (log s') -> Inv s -> Inv s'.
Proof.
  intros s i b s' E CL I. unfold step in E. destruct (nth_error (ag s) i) as [a|] eqn:G; [|discriminate].
  pose proof (fun y => suml_set _ actv _ _ _ y G) as TA. pose proof (i_t _ I) as T.
  assert (PB : forall y, (forall k h, y = B1 k h -> h = k) -> forall j k h, nth_error (set (ag s) i y) j = Some (B1 k h) -> h = k).
  { intros y Y j k h J. destruct (nth_set _ _ _ _ _ _ J) as [(_ & X)|(_ & J')]; [apply Y; congruence|exact (i_b _ I _ _ _ J')]. }
  assert (XS : forall e h, (forall x, In x e -> x <> EBad h) -> ~ In (EBad h) (log s ++ e)).
  { intros e h H X. apply in_app_or in X. destruct X as [X|X]; [exact (i_x _ I _ X)|exact (H _ X eq_refl)]. }
  (* a step that changes only the agent and the log *)
  destruct a as [|h|h| | | |h| | |h|h|k|k h|k|k| ]; try discriminate.
  - (* S0 *) rewrite (slot_none _ _ I G) in E. injection E as <-. specialize (TA S3). constructor; proj.
    + intros k. pose proof (i_k _ I k) as O. unfold ok in *. proj. rewrite (slot_none _ _ I G) in O. sums G k S3. destruct (nth_error (regs s) k) as [[]|]; fin.
    + cnt. lia.
    + apply PB. discriminate.
    + apply (i_x _ I).
  - (* S1 *) destruct (has _ _ _ h I G) as [R|R]; [cbn; rewrite eqn_same; lia| |].
    + exfalso. pose proof (suml_ge _ arm _ _ _ R) as A. pose proof (suml_ge _ actv _ _ _ G) as A'. cbn in A, A'. lia.
    + unfold del in E. rewrite R in E. injection E as <-. specialize (TA S3). constructor; proj.
      * intros k. pose proof (i_k _ I k) as O. unfold ok in *. proj. rewrite (nth_reg _ _ _ _ _ R). sums G k S3. destruct (Nat.eqb_spec h k) as [<-|N]; [fin|]. cnt. rewrite (eqn_diff _ _ N) in *. destruct (nth_error (regs s) k) as [[]|]; fin.
      * cnt. pose proof (suml_set _ arm _ _ _ Dying R) as A. cbn in A. lia.
      * apply PB. discriminate.
      * apply (i_x _ I).
  - (* S2 *) injection E as <-. specialize (TA S3). constructor; proj.
    + intros k. pose proof (i_k _ I k) as O. unfold ok in *. proj. rewrite rel_app. sums G k S3. destruct (nth_error (regs s) k) as [[]|]; fin.
    + cnt. lia.
    + apply PB. discriminate.
    + intros h0. apply XS. intros x [<-|[]]. discriminate.
  - (* S3 *) destruct b; injection E as <-; [specialize (TA S4)|specialize (TA Idle)]; (constructor; proj; [|cnt; lia|apply PB; discriminate|apply (i_x _ I)]);
    intros k; pose proof (i_k _ I k) as O; unfold ok in *; proj; [sums G k S4|sums G k Idle]; destruct (nth_error (regs s) k) as [[]|]; fin.
  - (* S4 *) injection E as <-. specialize (TA S5). constructor; proj.
    + intros k. pose proof (i_k _ I k) as O. unfold ok in *. proj. rewrite rel_app. sums G k S5. destruct (nth_error (regs s) k) as [[]|]; fin.
    + cnt. lia.
    + apply PB. discriminate.
    + intros h0. apply XS. intros x [<-|[]]. discriminate.
  - (* S5 *) destruct b; injection E as <-.
    + specialize (TA (S6 (length (regs s)))). constructor; proj.
      * intros k. pose proof (i_k _ I k) as O. unfold ok in *. proj. sums G k (S6 (length (regs s))). cnt.
        destruct (Nat.lt_trichotomy k (length (regs s))) as [L|[->|L]].
        -- rewrite nth_error_app1 by assumption. rewrite eqn_diff in * by lia. destruct (nth_error (regs s) k) as [[]|]; fin.
        -- rewrite nth_error_app2, Nat.sub_diag by lia. cbn [nth_error]. assert (N : nth_error (regs s) (length (regs s)) = None) by (apply nth_error_None; lia). rewrite N in O. fin.
        -- assert (N : nth_error (regs s) k = None) by (apply nth_error_None; lia). rewrite N in O. assert (N' : nth_error (regs s ++ [Armed]) k = None) by (apply nth_error_None; rewrite app_length; cbn; lia). rewrite N'. rewrite eqn_diff in * by lia. fin.
      * rewrite suml_app. cnt. cbn [suml arm]. lia.
      * apply PB. discriminate.
      * apply (i_x _ I).
    + specialize (TA S7). constructor; proj; [|cnt; lia|apply PB; discriminate|apply (i_x _ I)].
      intros k; pose proof (i_k _ I k) as O; unfold ok in *; proj; sums G k S7; destruct (nth_error (regs s) k) as [[]|]; fin.
  - (* S6 *) injection E as <-. specialize (TA Idle). constructor; proj.
    + intros k. pose proof (i_k _ I k) as O. unfold ok in *. proj. sums G k Idle. rewrite (stored_slot _ _ _ I G) in O. destruct (nth_error (regs s) k) as [[]|]; fin.
    + cnt. lia.
    + apply PB. discriminate.
    + apply (i_x _ I).
  - (* S7 *) injection E as <-. specialize (TA Idle). constructor; proj.
    + intros k. pose proof (i_k _ I k) as O. unfold ok in *. proj. rewrite rel_app. sums G k Idle. destruct (nth_error (regs s) k) as [[]|]; fin.
    + cnt. lia.
    + apply PB. discriminate.
    + intros h0. apply XS. intros x [<-|[]]. discriminate.
  - (* X0 *) destruct (slot s) as [h|] eqn:ES; injection E as <-; [specialize (TA (X1 h))|specialize (TA Idle)]; (constructor; proj; [|cnt; lia|apply PB; discriminate|apply (i_x _ I)]);
    intros k; pose proof (i_k _ I k) as O; unfold ok in *; proj; rewrite ES in O; [sums G k (X1 h)|sums G k Idle]; destruct (nth_error (regs s) k) as [[]|]; fin.
  - (* X1 *) destruct (has _ _ _ h I G) as [R|R]; [cbn; rewrite eqn_same; lia| |]; unfold del in E; rewrite R in E; injection E as <-.
    + specialize (TA (X2 h)). constructor; proj.
      * intros k. pose proof (i_k _ I k) as O. unfold ok in *. proj. rewrite (nth_reg _ _ _ _ _ R). sums G k (X2 h). destruct (Nat.eqb_spec h k) as [<-|N]; [fin|]. cnt. rewrite (eqn_diff _ _ N) in *. destruct (nth_error (regs s) k) as [[]|]; fin.
      * cnt. pose proof (suml_set _ arm _ _ _ Gone R) as A. cbn in A. lia.
      * apply PB. discriminate.
      * apply (i_x _ I).
    + specialize (TA Idle). constructor; proj.
      * intros k. pose proof (i_k _ I k) as O. unfold ok in *. proj. rewrite (nth_reg _ _ _ _ _ R). sums G k Idle. destruct (Nat.eqb_spec h k) as [<-|N]; [fin|]. cnt. rewrite (eqn_diff _ _ N) in *. destruct (nth_error (regs s) k) as [[]|]; fin.
      * cnt. pose proof (suml_set _ arm _ _ _ Dying R) as A. cbn in A. lia.
      * apply PB. discriminate.
      * apply (i_x _ I).
  - (* X2 *) injection E as <-. specialize (TA Idle). constructor; proj.
    + intros k. pose proof (i_k _ I k) as O. unfold ok in *. proj. rewrite rel_app. sums G k Idle. destruct (nth_error (regs s) k) as [[]|]; fin.
    + cnt. lia.
    + apply PB. discriminate.
    + intros h0. apply XS. intros x [<-|[]]. discriminate.
  - (* B0 *) destruct (existsb (storing k) (ag s)) eqn:EX; injection E as <-; proj.
    + exfalso. apply clean_app in CL. destruct CL as (_ & CL). destruct (CL k) as (X & _). apply X. left. reflexivity.
    + assert (ST0 : suml (fun a => match a with S6 h => eqn h k | _ => 0 end) (ag s) = 0).
      { refine (exist_pos _ _ _ _ EX). intros a. destruct a; cbn; auto. unfold eqn. intros ->. reflexivity. }
      destruct (slot s) as [h|] eqn:ES.
      * pose proof (slot_own _ _ _ _ I G ES) as ->. specialize (TA (B1 k k)). constructor; proj.
        -- intros j. pose proof (i_k _ I j) as O. unfold ok in *. proj. rewrite ES in O. sums G j (B1 k k). destruct (nth_error (regs s) j) as [[]|]; fin.
        -- cnt. lia.
        -- apply PB. congruence.
        -- apply (i_x _ I).
      * specialize (TA (B2 k)). constructor; proj.
        -- intros j. pose proof (i_k _ I j) as O. unfold ok in *. proj. rewrite ES in O. sums G j (B2 k). 
           destruct (nth_error (regs s) j) as [[]|] eqn:R; try solve [fin].
           destruct (Nat.eq_dec k j) as [<-|N]; [|cnt; rewrite (eqn_diff _ _ N) in *; fin].
           assert (B10 : suml (b1 k) (ag s) = 0).
           { destruct (suml (b1 k) (ag s)) as [|n] eqn:SB; [reflexivity|exfalso]. destruct (suml_pos _ (b1 k) (ag s)) as (j & a & GJ & P); [lia|]. destruct a; cbn in P; try lia.
             pose proof (i_b _ I _ _ _ GJ) as ->. destruct (Nat.eq_dec i j) as [->|NJ]; [congruence|]. pose proof (suml_two _ (bks k) _ _ _ _ _ NJ G GJ) as X. cbn in X. rewrite eqn_same in X. lia. }
           pose proof (cus_split k (ag s)). cbv zeta in O. cnt. rewrite eqn_same in *. pose proof (b23_bks k (set (ag s) i (B2 k))). lia.
        -- cnt. lia.
        -- apply PB. discriminate.
        -- apply (i_x _ I).
  - (* B1 *) pose proof (i_b _ I _ _ _ G) as ->. destruct (has _ _ _ k I G) as [R|R]; [cbn; rewrite eqn_same; lia| |].
    + exfalso. pose proof (suml_ge _ arm _ _ _ R) as A. pose proof (suml_ge _ actv _ _ _ G) as A'. cbn in A, A'. lia.
    + unfold del in E. rewrite R in E. injection E as <-. specialize (TA (B2 k)). constructor; proj.
      * intros j. pose proof (i_k _ I j) as O. unfold ok in *. proj. rewrite (nth_reg _ _ _ _ _ R). sums G j (B2 k). destruct (Nat.eqb_spec k j) as [<-|N]; [fin|]. cnt. rewrite (eqn_diff _ _ N) in *. destruct (nth_error (regs s) j) as [[]|]; fin.
      * cnt. pose proof (suml_set _ arm _ _ _ Dying R) as A. cbn in A. lia.
      * apply PB. discriminate.
      * apply (i_x _ I).
  - (* B2 *) specialize (TA (B3 k)). destruct b; injection E as <-; (constructor; proj; [|cnt; lia|apply PB; discriminate|intros h0; apply XS; intros x [<-|[]]; discriminate]);
    intros j; pose proof (i_k _ I j) as O; unfold ok in *; proj; rewrite rel_app; sums G j (B3 k); destruct (nth_error (regs s) j) as [[]|]; fin.
  - (* B3 *) specialize (TA Idle). pose proof (i_k _ I k) as OK. unfold ok in OK. pose proof (suml_ge _ (bks k) _ _ _ G) as BB. pose proof (suml_ge _ (b23 k) _ _ _ G) as B2'. cbn in BB, B2'. rewrite eqn_same in BB, B2'.
    destruct (nth_error (regs s) k) as [[]|] eqn:R; cbv zeta in OK; try contradiction; try lia.
    + exfalso. destruct (existsb (taken k) (ag s)) eqn:EX; injection E as <-; proj.
      * apply clean_app in CL. destruct CL as (_ & CL). destruct (CL k) as (_ & X). apply X. left. reflexivity.
      * assert (suml (tkn k) (ag s) = 0) by (refine (exist_pos _ _ _ _ EX); intros a; destruct a; cbn; auto; unfold eqn; intros ->; reflexivity). lia.
    + injection E as <-. constructor; proj.
      * intros j. pose proof (i_k _ I j) as O. unfold ok in *. proj. rewrite (nth_reg _ _ _ _ _ R). sums G j Idle. destruct (Nat.eqb_spec k j) as [<-|N]; [fin|]. cnt. rewrite (eqn_diff _ _ N) in *. destruct (nth_error (regs s) j) as [[]|]; fin.
      * cnt. pose proof (suml_set _ arm _ _ _ Gone R) as A. cbn in A. lia.
      * apply PB. discriminate.
      * apply (i_x _ I).
Qed.
Lemma exec_log : forall s a s', exec s a = Some s' -> exists e, log s' = log s ++ e.
Proof.
  assert (D : forall s h, exists e, log (fst (del s h)) = log s ++ e) by (intros s h; unfold del; destruct (nth_error (regs s) h) as [[]|]; cbn; try (exists []; rewrite app_nil_r; reflexivity); eexists; reflexivity).
  intros s a s' E. destruct a; cbn [exec] in E.
  - unfold step in E. destruct (nth_error (ag s) i) as [a|]; [|discriminate].
    destruct a; try discriminate.
    all: try (destruct (del s h) as [s1 r] eqn:DE; injection E as <-; destruct (D s h) as (e & DD); rewrite DE in DD; exists e; exact DD).
    all: try (injection E as <-; try destruct (D s h) as (e & DD); eauto; fail).
    all: repeat match type of E with match ?c with _ => _ end = _ => destruct c eqn:? end; try discriminate; injection E as <-; cbn; try (eexists; reflexivity); try (exists []; rewrite app_nil_r; reflexivity).
    all: repeat match goal with |- context [if ?c then _ else _] => destruct c end; cbn; try (eexists; reflexivity); try (exists []; rewrite app_nil_r; reflexivity).
  - destruct (nth_error (regs s) k) as [[]|]; try discriminate. injection E as <-. exists []. cbn. rewrite app_nil_r. reflexivity.
  - destruct (tok s); [discriminate|]. injection E as <-. exists []. cbn. rewrite app_nil_r. reflexivity.
  - injection E as <-. exists []. cbn. rewrite app_nil_r. reflexivity.
  - destruct (tok s); [discriminate|]. injection E as <-. exists []. cbn. rewrite app_nil_r. reflexivity.
Qed.
Lemma exec_inv : forall s a s', exec s a = Some s' -> clean (log s') -> Inv s -> Inv s'.
Proof.
  intros s a s' E CL I. destruct a; cbn [exec] in E.
  - exact (step_inv _ _ _ _ E CL I).
  - destruct (nth_error (regs s) k) as [[]|] eqn:R; try discriminate. injection E as <-. pose proof (i_t _ I) as T. pose proof (suml_ge _ arm _ _ _ R) as A. cbn in A. constructor; proj.
    + intros j. pose proof (i_k _ I j) as O. unfold ok in *. proj. rewrite !suml_app, (nth_reg _ _ _ _ _ R). destruct (Nat.eqb_spec k j) as [<-|N]; [fin; pose proof (b23_bks k (ag s)); lia|]. cbn [suml]. cnt. rewrite (eqn_diff _ _ N) in *. destruct (nth_error (regs s) j) as [[]|]; fin.
    + rewrite suml_app. cbn [suml actv]. pose proof (suml_set _ arm _ _ _ Calling R) as A'. cbn in A'. lia.
    + intros i j h G. destruct (Nat.lt_ge_cases i (length (ag s))) as [L|L]; [rewrite nth_error_app1 in G by assumption; exact (i_b _ I _ _ _ G)|]. rewrite nth_error_app2 in G by assumption. destruct (i - length (ag s)) as [|[|]]; discriminate.
    + apply (i_x _ I).
  - destruct (tok s) eqn:TK; [discriminate|]. injection E as <-. pose proof (i_t _ I) as T. constructor; proj.
    + intros j. pose proof (i_k _ I j) as O. unfold ok in *. proj. rewrite !suml_app. destruct (nth_error (regs s) j) as [[]|]; fin.
    + rewrite suml_app. cbn [suml actv]. lia.
    + intros i j h G. destruct (Nat.lt_ge_cases i (length (ag s))) as [L|L]; [rewrite nth_error_app1 in G by assumption; exact (i_b _ I _ _ _ G)|]. rewrite nth_error_app2 in G by assumption. destruct (i - length (ag s)) as [|[|]]; discriminate.
    + apply (i_x _ I).
  - injection E as <-. pose proof (i_t _ I) as T. constructor; proj.
    + intros j. pose proof (i_k _ I j) as O. unfold ok in *. proj. rewrite !suml_app. destruct (nth_error (regs s) j) as [[]|]; fin.
    + rewrite suml_app. cbn [suml actv]. lia.
    + intros i j h G. destruct (Nat.lt_ge_cases i (length (ag s))) as [L|L]; [rewrite nth_error_app1 in G by assumption; exact (i_b _ I _ _ _ G)|]. rewrite nth_error_app2 in G by assumption. destruct (i - length (ag s)) as [|[|]]; discriminate.
    + apply (i_x _ I).
  - destruct (tok s) eqn:TK; [discriminate|]. injection E as <-. pose proof (i_t _ I) as T. constructor; proj.
    + intros j. pose proof (i_k _ I j) as O. unfold ok in *. proj. destruct (nth_error (regs s) j) as [[]|]; fin.
    + lia.
    + apply (i_b _ I).
    + apply (i_x _ I).
Qed.
Lemma run_log : forall l s s', run s l = Some s' -> exists e, log s' = log s ++ e.
Proof.
  induction l as [|a l IH]; intros s s' R; cbn in R; [injection R as <-; exists []; rewrite app_nil_r; reflexivity|].
  destruct (exec s a) as [s1|] eqn:E; [|discriminate]. destruct (exec_log _ _ _ E) as (e1 & E1). destruct (IH _ _ R) as (e2 & E2). exists (e1 ++ e2). rewrite E2, E1, app_assoc. reflexivity.
Qed.
Lemma run_inv : forall l s s', run s l = Some s' -> clean (log s') -> Inv s -> Inv s'.
Proof.
  induction l as [|a l IH]; intros s s' R CL I; cbn in R; [injection R as <-; assumption|].
  destruct (exec s a) as [s1|] eqn:E; [|discriminate]. apply (IH _ _ R CL). apply (exec_inv _ _ _ E); [|assumption].
  destruct (run_log _ _ _ R) as (e & X). rewrite X in CL. apply (clean_app _ _ CL).
Qed.
Lemma Inv_init : Inv init.
Proof.
  constructor; cbn; auto.
  - intros k. unfold ok. cbn. destruct k; cbn; auto.
  - intros i k h G. destruct i; discriminate.
Qed.
(** The count is what was added and not released, in every run. *)
Definition isadd (e : event) : nat := match e with EAdd => 1 | _ => 0 end.
Definition isrel (e : event) : nat := match e with ERel _ | EUndo => 1 | _ => 0 end.
Definition isundo (e : event) : nat := match e with EUndo => 1 | _ => 0 end.
Definition Cnt (s : st) : Prop :=
  (pr s = Z.of_nat (suml isadd (log s)) - Z.of_nat (suml isrel (log s)))%Z /\ suml isadd (log s) = length (regs s) + suml gets (ag s) + suml isundo (log s).
Lemma exec_cnt : forall s a s', exec s a = Some s' -> Cnt s -> Cnt s'.
Proof.
  intros s a s' E (C1 & C2). unfold Cnt.
  assert (D : forall s h, (pr (fst (del s h)) = pr s)%Z /\ length (regs (fst (del s h))) = length (regs s) /\ ag (fst (del s h)) = ag s /\ suml isadd (log (fst (del s h))) = suml isadd (log s) /\ suml isrel (log (fst (del s h))) = suml isrel (log s) /\ suml isundo (log (fst (del s h))) = suml isundo (log s)).
  { clear. intros s h. unfold del. destruct (nth_error (regs s) h) as [[]|]; cbn; rewrite ?set_length, ?suml_app; cbn; repeat split; lia. }
  destruct a; cbn [exec] in E.
  - unfold step in E. destruct (nth_error (ag s) i) as [a|] eqn:G; [|discriminate]. pose proof (fun y => suml_set _ gets _ _ _ y G) as TG.
    destruct a; try discriminate.
    + injection E as <-. destruct (slot s) as [h|]; cbn; [specialize (TG (S1 h))|specialize (TG S3)]; cbn in TG; lia.
    + destruct (del s h) as [s1 r] eqn:DE. injection E as <-. destruct (D s h) as (D1 & D2 & D3 & D4 & D5 & D6). rewrite DE in *. cbn in *. rewrite D1, D2, D3, D4, D5, D6. specialize (TG (if r then S2 h else S3)). destruct r; cbn in TG; lia.
    + injection E as <-. cbn. rewrite !suml_app. cbn. specialize (TG S3). cbn in TG. lia.
    + injection E as <-. destruct b; cbn; [specialize (TG S4)|specialize (TG Idle)]; cbn in TG; lia.
    + injection E as <-. cbn. rewrite !suml_app. cbn. specialize (TG S5). cbn in TG. lia.
    + injection E as <-. destruct b; cbn; rewrite ?app_length; cbn; [specialize (TG (S6 (length (regs s))))|specialize (TG S7)]; cbn in TG; lia.
    + injection E as <-. cbn. specialize (TG Idle). cbn in TG. lia.
    + injection E as <-. cbn. rewrite !suml_app. cbn. specialize (TG Idle). cbn in TG. lia.
    + injection E as <-. destruct (slot s) as [h|]; cbn; [specialize (TG (X1 h))|specialize (TG Idle)]; cbn in TG; lia.
    + destruct (del s h) as [s1 r] eqn:DE. injection E as <-. destruct (D s h) as (D1 & D2 & D3 & D4 & D5 & D6). rewrite DE in *. cbn in *. rewrite D1, D2, D3, D4, D5, D6. specialize (TG (if r then X2 h else Idle)). destruct r; cbn in TG; lia.
    + injection E as <-. cbn. rewrite !suml_app. cbn. specialize (TG Idle). cbn in TG. lia.
    + injection E as <-. assert (TG' : suml gets (set (ag s) i (match slot s with Some h => B1 k h | None => B2 k end)) = suml gets (ag s)) by (destruct (slot s) as [h|]; [specialize (TG (B1 k h))|specialize (TG (B2 k))]; cbn in TG; lia).
      destruct (existsb _ _); cbn; rewrite ?suml_app; cbn; lia.
    + injection E as <-. destruct (D s h) as (D1 & D2 & D3 & D4 & D5 & D6). cbn. rewrite D1, D2, D3, D4, D5, D6. specialize (TG (B2 k)). cbn in TG. lia.
    + injection E as <-. specialize (TG (B3 k)). cbn in TG. destruct b; cbn; rewrite !suml_app; cbn; lia.
    + specialize (TG Idle). cbn in TG. destruct (nth_error (regs s) k) as [[]|]; injection E as <-; try (destruct (existsb _ _)); cbn; rewrite ?suml_app, ?set_length; cbn; lia.
  - destruct (nth_error (regs s) k) as [[]|]; try discriminate. injection E as <-. cbn. rewrite suml_app, set_length. cbn. lia.
  - destruct (tok s); [discriminate|]. injection E as <-. cbn. rewrite suml_app. cbn. lia.
  - injection E as <-. cbn. rewrite suml_app. cbn. lia.
  - destruct (tok s); [discriminate|]. injection E as <-. cbn. lia.
Qed.
Lemma run_cnt : forall l s s', run s l = Some s' -> Cnt s -> Cnt s'.
Proof.
  induction l as [|a l IH]; intros s s' R C; cbn in R; [injection R as <-; assumption|].
  destruct (exec s a) as [s1|] eqn:E; [|discriminate]. exact (IH _ _ R (exec_cnt _ _ _ E C)).
Qed.
(** The releases of the log, registration by registration. *)
Lemma suml_plus : forall A (f g : A -> nat) l, suml (fun x => f x + g x) l = suml f l + suml g l.
Proof. induction l as [|x l IH]; cbn; lia. Qed.
Lemma suml_eqn : forall n a h, a <= h -> h < a + n -> suml (eqn h) (seq a n) = 1.
Proof.
  induction n as [|n IH]; intros a h L U; [lia|]. cbn [seq suml]. destruct (Nat.eq_dec h a) as [->|N].
  - rewrite eqn_same. assert (Z : forall m b, a < b -> suml (eqn a) (seq b m) = 0) by (induction m as [|m IHm]; intros b B; cbn; [reflexivity|rewrite eqn_diff, IHm by lia; reflexivity]). rewrite Z by lia. reflexivity.
  - rewrite eqn_diff, IH by lia. reflexivity.
Qed.
Lemma rel_sum : forall n l, (forall k, In (ERel k) l -> k < n) -> suml isrel l = suml isundo l + suml (fun k => rel k l) (seq 0 n).
Proof.
  intros n. induction l as [|e l IH]; intros H.
  - cbn. induction (seq 0 n) as [|x r IHr]; cbn; auto.
  - rewrite (suml_ext _ (fun k => rel k (e :: l)) (fun k => (match e with ERel h => eqn h k | _ => 0 end) + rel k l)) by (intros k; reflexivity).
    rewrite suml_plus. cbn [suml]. rewrite IH by (intros k K; apply H; right; assumption).
    assert (Z : forall r, suml (fun _ : nat => 0) r = 0) by (induction r; cbn; auto).
    destruct e; cbn [isrel isundo]; rewrite ?Z; try lia. pose proof (suml_eqn n 0 k (Nat.le_0_l _) (H k (or_introl eq_refl))) as X. change (fun k0 : nat => eqn k k0) with (eqn k). lia.
Qed.
Lemma rel_in : forall k l, In (ERel k) l -> 1 <= rel k l.
Proof. intros k. induction l as [|e l IH]; [intros []|]. intros [->|H]; unfold rel; cbn; [rewrite eqn_same; lia|]. apply IH in H. unfold rel in H. lia. Qed.
(** Steps left to an agent. *)
Definition left (a : agent) : nat :=
  match a with S0 => 8 | S1 _ => 7 | S2 _ => 6 | S3 => 5 | S4 => 4 | S5 => 3 | S6 _ | S7 => 1 | X0 => 3 | X1 _ => 2 | X2 _ => 1 | B0 _ => 4 | B1 _ _ => 3 | B2 _ => 2 | B3 _ => 1 | Idle => 0 end.
Lemma step_left : forall s i b s', step s i b = Some s' -> suml left (ag s') < suml left (ag s).
Proof.
  intros s i b s' E. unfold step in E. destruct (nth_error (ag s) i) as [a|] eqn:G; [|discriminate]. pose proof (fun y => suml_set _ left _ _ _ y G) as T.
  assert (D : forall s h, ag (fst (del s h)) = ag s) by (intros z h; unfold del; destruct (nth_error (regs z) h) as [[]|]; reflexivity).
  destruct a; try discriminate.
  - injection E as <-. cbn. destruct (slot s) as [h|]; [specialize (T (S1 h))|specialize (T S3)]; cbn in T; lia.
  - pose proof (D s h) as DD. destruct (del s h) as [s1 r]. injection E as <-. cbn in *. rewrite DD. specialize (T (if r then S2 h else S3)). destruct r; cbn in T; lia.
  - injection E as <-. cbn. specialize (T S3). cbn in T. lia.
  - injection E as <-. destruct b; cbn; [specialize (T S4)|specialize (T Idle)]; cbn in T; lia.
  - injection E as <-. cbn. specialize (T S5). cbn in T. lia.
  - injection E as <-. destruct b; cbn; [specialize (T (S6 (length (regs s))))|specialize (T S7)]; cbn in T; lia.
  - injection E as <-. cbn. specialize (T Idle). cbn in T. lia.
  - injection E as <-. cbn. specialize (T Idle). cbn in T. lia.
  - injection E as <-. cbn. destruct (slot s) as [h|]; [specialize (T (X1 h))|specialize (T Idle)]; cbn in T; lia.
  - pose proof (D s h) as DD. destruct (del s h) as [s1 r]. injection E as <-. cbn in *. rewrite DD. specialize (T (if r then X2 h else Idle)). destruct r; cbn in T; lia.
  - injection E as <-. cbn. specialize (T Idle). cbn in T. lia.
  - injection E as <-. destruct (existsb _ _); cbn; (destruct (slot s) as [h|]; [specialize (T (B1 k h))|specialize (T (B2 k))]; cbn in T; lia).
  - injection E as <-. cbn. rewrite D. specialize (T (B2 k)). cbn in T. lia.
  - injection E as <-. specialize (T (B3 k)). cbn in T. destruct b; cbn; lia.
  - specialize (T Idle). cbn in T. destruct (nth_error (regs s) k) as [[]|]; injection E as <-; try (destruct (existsb _ _)); cbn; lia.
Qed.
