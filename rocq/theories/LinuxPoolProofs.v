(** Invariants of the Linux thread pool. *)
From Coq Require Import Lia List Bool Arith.
From Verif Require Import Slots SlotsProofs Threads LinuxPoolModel.
Import ListNotations.

Definition b2n (b : bool) : nat := if b then 1 else 0.
Definition lt1 (k n : nat) : nat := if Nat.ltb k n then 1 else 0.
Definition is (a b : nat) : nat := if Nat.eqb a b then 1 else 0.

Definition isacc (k : nat) (e : ev) : nat := match e with EAcc j => is j k | _ => 0 end.
Definition isrej (k : nat) (e : ev) : nat := match e with ERej j => is j k | _ => 0 end.
Definition isstart (k : nat) (e : ev) : nat := match e with EStart j => is j k | _ => 0 end.

(** The task a caller holds. *)
Definition task (c : cpc) : option nat :=
  match c with
  | CI => None
  | C0 k | C1 k _ | C2 k _ _ | C3 k _ | C4 k _ | C5 k | C6 k _ | C7 k | C8 k | C9 k | C10 k | C11 k | C12 k => Some k
  end.
Definition hold (k : nat) (c : cpc) : nat := pt (task c) k.
(** ... and nobody else can see yet. *)
Definition priv (k : nat) (c : cpc) : nat := match c with C4 _ _ | C9 _ => 0 | _ => hold k c end.
Definition resv (c : cpc) : nat := match c with C10 _ | C11 _ | C12 _ => 1 | _ => 0 end.
(** The caller has popped thread [t] and not yet woken it. *)
Definition has (t : nat) (c : cpc) : nat := match c with C3 _ u | C4 _ u => is u t | _ => 0 end.
Definition busy (x : thr) : nat := match pc x with T8 | T9 => 0 | _ => 1 end.
Definition wj (k : nat) (x : thr) : nat := match pc x with T0 | T8 | T9 => pt (job x) k | _ => 0 end.

Lemma suml_app1 : forall A (f : A -> nat) l x, suml f (l ++ [x]) = suml f l + f x.
Proof. induction l; intros; cbn; [lia|]. rewrite IHl. lia. Qed.

(** * What holds however the containers are used *)
Definition Gcnt (M : nat) (s : st) : Prop :=
  cnt s = length (th s) + suml resv (ca s) /\ cnt s <= M.

Lemma step_Gcnt : forall M inh s a s', step M inh s a = Some s' -> Gcnt M s -> Gcnt M s'.
Proof.
  intros M inh s a s' E (A & B). unfold step in E. destruct (dead s); [discriminate|]. destruct a as [i o|t].
  - destruct (nth_error (ca s) i) as [c|] eqn:N; [|discriminate].
    assert (U : forall y, suml resv (set (ca s) i y) + resv c = suml resv (ca s) + resv y) by (intros; apply suml_set; assumption).
    assert (L : forall t0 y, length (set (th s) t0 y) = length (th s)) by (intros; apply set_length).
    destruct c; cbn [cstep] in E; unfold look in E;
      repeat match type of E with
      | context [match ?e with _ => _ end] => match e with context [match _ with _ => _ end] => fail 1 | _ => destruct e eqn:? end
      end; try discriminate; injection E as <-;
      unfold Gcnt, setca, setth, sethd, setcnt, setq, addth, addlog, kill; cbn [cnt th ca];
      rewrite ?L, ?app_length; cbn [length];
      repeat match goal with |- context [set (ca s) i ?y] => pose proof (U y); generalize dependent (suml resv (set (ca s) i y)); intros end;
      cbn [resv] in *; try apply Nat.leb_gt in Heqb; try apply Nat.eqb_eq in Heqb0; try lia.
  - destruct (nth_error (th s) t) as [x|] eqn:N; [|discriminate].
    assert (L : forall t0 y, length (set (th s) t0 y) = length (th s)) by (intros; apply set_length).
    unfold tstep in E.
    repeat match type of E with
      | context [match ?e with _ => _ end] => match e with context [match _ with _ => _ end] => fail 1 | _ => destruct e eqn:? end
      end; try discriminate; injection E as <-;
      unfold Gcnt, setca, setth, sethd, setcnt, setq, addth, addlog, kill; cbn [cnt th ca]; rewrite ?L; auto.
Qed.
Lemma exec_inv : forall (P : st -> Prop) M inh, (forall s, P s -> P (watch s)) -> (forall s a s', step M inh s a = Some s' -> P s -> P s') ->
  forall l s s', run M inh s l = Some s' -> P s -> P s'.
Proof.
  intros P M inh W S. induction l as [|a l IH]; intros s s' R H; cbn in R; [injection R as <-; exact H|].
  unfold exec in R. destruct (step M inh s a) as [s1|] eqn:E; [|discriminate]. cbn in R. apply (IH _ _ R), W, (S _ _ _ E H).
Qed.
Lemma run_Gcnt : forall M inh n l s, run M inh (init n) l = Some s -> Gcnt M s.
Proof.
  intros M inh n l s R. refine (exec_inv (Gcnt M) M inh _ _ l _ _ R _).
  - intros s0 H. exact H.
  - intros s0 a s1. apply step_Gcnt.
  - split; [|cbn; lia]. cbn. rewrite suml_repeat; reflexivity.
Qed.

(** Every call of ExecuteTask is under way, has accepted the task or has rejected it. *)
Definition Gacc (s : st) : Prop := forall k,
  suml (isacc k) (log s) + suml (isrej k) (log s) + suml (hold k) (ca s) = lt1 k (nt s).
Lemma step_Gacc : forall M inh s a s', step M inh s a = Some s' -> Gacc s -> Gacc s'.
Proof.
  intros M inh s a s' E G k. specialize (G k). unfold step in E. destruct (dead s); [discriminate|]. destruct a as [i o|t].
  - destruct (nth_error (ca s) i) as [c|] eqn:N; [|discriminate].
    assert (U : forall y, suml (hold k) (set (ca s) i y) + hold k c = suml (hold k) (ca s) + hold k y) by (intros; apply suml_set; assumption).
    destruct c; cbn [cstep] in E; unfold look in E;
      repeat match type of E with
      | context [match ?e with _ => _ end] => match e with context [match _ with _ => _ end] => fail 1 | _ => destruct e eqn:? end
      end; try discriminate; injection E as <-;
      unfold setca, setth, sethd, setcnt, setq, addth, addlog, kill; cbn [log ca nt suml isacc isrej];
      repeat match goal with |- context [set (ca s) i ?y] => pose proof (U y); generalize dependent (suml (hold k) (set (ca s) i y)); intros end;
      unfold hold in *; cbn [task pt] in *; unfold is; try lia.
    unfold lt1 in *. destruct (Nat.ltb_spec k (nt s)), (Nat.ltb_spec k (S (nt s))), (Nat.eqb_spec (nt s) k); lia.
  - destruct (nth_error (th s) t) as [x|] eqn:N; [|discriminate]. unfold tstep in E.
    repeat match type of E with
      | context [match ?e with _ => _ end] => match e with context [match _ with _ => _ end] => fail 1 | _ => destruct e eqn:? end
      end; try discriminate; injection E as <-;
      unfold setca, setth, sethd, setcnt, setq, addth, addlog, kill; cbn [log ca nt suml isacc isrej]; lia.
Qed.
Lemma run_Gacc : forall M inh n l s, run M inh (init n) l = Some s -> Gacc s.
Proof.
  intros M inh n l s R. refine (exec_inv Gacc M inh _ _ l _ _ R _).
  - intros s0 H. exact H.
  - intros s0 a s1. apply step_Gacc.
  - intros k. cbn. rewrite suml_repeat; reflexivity.
Qed.

(** A task that others can see is held by no caller that could still reject it. *)
Definition vis (s : st) (k : nat) : Prop :=
  (exists x, In x (th s) /\ (job x = Some k \/ pc x = T1 k \/ pc x = T3 k)) \/ In (Some k) (buf s) \/ In (EStart k) (log s).
Definition Gvis (s : st) : Prop := forall k, vis s k -> k < nt s /\ suml (isrej k) (log s) = 0 /\ suml (priv k) (ca s) = 0.

Lemma In_set : forall A (l : list A) i y z, In z (set l i y) -> z = y \/ In z l.
Proof. induction l as [|w l IH]; intros [|i] y z H; cbn in *; try tauto; destruct H as [<-|H]; auto. apply IH in H. tauto. Qed.
Lemma In_put : forall b i k z, In (Some z) (put b i k) -> z = k \/ In (Some z) b.
Proof.
  induction b as [|w b IH]; intros i k z.
  - induction i as [|i IHi]; cbn; intros [H|H]; try discriminate; [left; congruence|tauto|]. apply IHi in H. tauto.
  - destruct i as [|i]; cbn; intros [H|H]; try (left; congruence); auto. apply IH in H. tauto.
Qed.

Definition frames (s s' : st) : Prop := forall k, vis s' k -> vis s k.
Lemma vis_eq : forall s s', th s' = th s -> buf s' = buf s -> (forall k, In (EStart k) (log s') -> In (EStart k) (log s)) -> frames s s'.
Proof. intros s s' A B C k [H|[H|H]]; unfold vis; rewrite <- ?A, <- ?B; auto. Qed.
Lemma vis_th : forall s s' t x y, nth_error (th s) t = Some x -> th s' = set (th s) t y -> buf s' = buf s ->
  (forall k, In (EStart k) (log s') -> vis s k) ->
  (forall k, job y = Some k \/ pc y = T1 k \/ pc y = T3 k -> vis s k) -> frames s s'.
Proof.
  intros s s' t x y N A B C D k [(z & I & H)|[H|H]].
  - rewrite A in I. apply In_set in I. destruct I as [->|I]; [auto|]. left. exists z. auto.
  - rewrite B in H. right. left. exact H.
  - auto.
Qed.
Lemma tstep_vis : forall s t x s', nth_error (th s) t = Some x -> tstep s t x = Some s' -> frames s s'.
Proof.
  intros s t x s' N E. pose proof (nth_error_In _ _ N) as I.
  assert (J : forall k, job x = Some k -> vis s k) by (intros k H; left; exists x; auto).
  assert (J1 : forall k, pc x = T1 k -> vis s k) by (intros k H; left; exists x; auto).
  assert (J3 : forall k, pc x = T3 k -> vis s k) by (intros k H; left; exists x; auto).
  assert (JL : forall k, In (EStart k) (log s) -> vis s k) by (intros k H; right; right; exact H).
  unfold tstep in E.
  repeat match type of E with
      | context [match ?e with _ => _ end] => match e with context [match _ with _ => _ end] => fail 1 | _ => destruct e eqn:? end
      end; try discriminate; injection E as <-;
  try (eapply vis_th; [exact N|reflexivity|reflexivity| |]; cbn [log addlog setth setq sethd wpc wjob wnx job pc In];
       [intros k0 H; try (destruct H as [H|H]; [try discriminate; injection H as <-|]); eauto
       |intros k0 [H|[H|H]]; try discriminate; try (injection H as <-); eauto; congruence]);
  try (apply vis_eq; try reflexivity; cbn [log kill In]; intros k0 [H|H]; [discriminate|exact H]).
  all: try (destruct H as [H|H]; [discriminate|exact H]).
  - eapply vis_th; [exact N|reflexivity|reflexivity| |]; cbn [log addlog setth wpc job pc In].
    + intros k0 [H|H]; [injection H as <-; apply J; reflexivity|auto].
    + intros k0 [H|[H|H]]; [rewrite Heqo in H; auto|injection H as <-; apply J; reflexivity|discriminate].
  - eapply vis_th; [exact N|reflexivity|reflexivity| |]; cbn [log setth wpc job pc In]; [exact JL|].
    intros k0 [H|[H|H]]; [auto|discriminate|]. injection H as <-. right. left. eapply nth_error_In; eassumption.
Qed.

Lemma step_Gvis : forall M inh s a s', step M inh s a = Some s' -> Gacc s -> Gvis s -> Gvis s'.
Proof.
  intros M inh s a s' E GA G. unfold step in E. destruct (dead s) eqn:D; [discriminate|]. destruct a as [i o|t].
  - destruct (nth_error (ca s) i) as [c|] eqn:N; [|discriminate].
    assert (U : forall k y, suml (priv k) (set (ca s) i y) + priv k c = suml (priv k) (ca s) + priv k y) by (intros; apply suml_set; assumption).
    assert (PH : forall k l, suml (priv k) l <= suml (hold k) l).
    { intros k l. induction l as [|z l IH]; cbn; [lia|]. assert (priv k z <= hold k z) by (destruct z; unfold priv, hold; cbn; lia). lia. }
    assert (own : forall k, task c = Some k -> priv k c = 1 -> k < nt s /\ suml (isrej k) (log s) = 0 /\ suml (priv k) (ca s) = 1).
    { intros k T P. specialize (GA k). pose proof (PH k (ca s)). pose proof (suml_ge _ (hold k) _ _ _ N) as X.
      pose proof (suml_ge _ (priv k) _ _ _ N) as Y. unfold hold at 1 in X. rewrite T in X. cbn in X. rewrite Nat.eqb_refl in X.
      unfold lt1 in GA. destruct (Nat.ltb_spec k (nt s)); lia. }
    assert (PR : forall k s1 y, vis s k \/ (task c = Some k /\ priv k c = 1 /\ priv k y = 0) ->
       nt s <= nt s1 -> ca s1 = set (ca s) i y -> suml (isrej k) (log s1) = suml (isrej k) (log s) ->
       (forall j, task y = Some j -> task c = Some j /\ (priv j y <= priv j c) \/ nt s <= j) ->
       k < nt s1 /\ suml (isrej k) (log s1) = 0 /\ suml (priv k) (ca s1) = 0).
    { intros k s1 y [V|(T & P & P0)] Nt C R Y.
      - destruct (G k V) as (A & B & B2). rewrite C, R. split; [lia|split; [exact B|]].
        pose proof (U k y). assert (priv k y = 0 \/ priv k y <= priv k c); [|lia].
        destruct (task y) as [j|] eqn:TY.
        + destruct (Y j eq_refl) as [(T1 & Q)|Q].
          * destruct (Nat.eq_dec j k) as [->|NE]; [right; lia|left]. destruct y; unfold priv, hold; rewrite ?TY; cbn; try destruct (Nat.eqb_spec j k); congruence.
          * left. destruct y; unfold priv, hold; rewrite ?TY; cbn; try destruct (Nat.eqb_spec j k); try lia; congruence.
        + left. destruct y; try discriminate TY; reflexivity.
      - destruct (own k T P) as (A & B & B2). rewrite C, R. split; [lia|split; [exact B|]]. pose proof (U k y). lia. }
    destruct c; cbn [cstep] in E; unfold look in E;
      repeat match type of E with
      | context [match ?e with _ => _ end] => match e with context [match _ with _ => _ end] => fail 1 | _ => destruct e eqn:? end
      end; try discriminate; injection E as <-; intros q.
    all: intros V.
    all: try (eapply PR; [left; revert V; apply vis_eq; try reflexivity; cbn; intros; intuition congruence|cbn; lia|reflexivity|reflexivity|];
       intros j Hj; cbn in Hj; try discriminate; injection Hj as <-; first [left; split; [reflexivity|unfold priv, hold; cbn; lia]|right; lia]).
    + eapply PR; [left; revert V|cbn; lia|reflexivity|reflexivity|intros j Hj; injection Hj as <-; left; split; [reflexivity|unfold priv, hold; cbn; lia]].
      eapply vis_th; [eassumption|reflexivity|reflexivity|cbn; intros; right; right; assumption|cbn].
      intros k0 H. left. exists t0. split; [eapply nth_error_In; eassumption|exact H].
    + assert (VV : vis s q \/ q = k).
      { destruct V as [(z & I & H)|[H|H]]; [|left; right; left; exact H|left; right; right; exact H].
        cbn in I. apply In_set in I. destruct I as [->|I]; [|left; left; exists z; auto]. cbn in H.
        destruct H as [H|H]; [right; congruence|left]. left. exists t0. split; [eapply nth_error_In; eassumption|auto]. }
      destruct VV as [VV| ->].
      * eapply PR; [left; exact VV|cbn; lia|reflexivity|reflexivity|intros j Hj; injection Hj as <-; left; split; [reflexivity|unfold priv, hold; cbn; lia]].
      * apply (PR k _ (C4 k t)); [right; split; [reflexivity|unfold priv, hold; cbn; rewrite Nat.eqb_refl; split; reflexivity]|cbn; lia|reflexivity|reflexivity|
          intros j Hj; injection Hj as <-; left; split; [reflexivity|unfold priv, hold; cbn; lia]].
    + eapply PR; [left; revert V|cbn; lia|reflexivity|reflexivity|intros j Hj; discriminate].
      eapply vis_th; [eassumption|reflexivity|reflexivity|cbn; intros k0 [H|H]; [discriminate|right; right; assumption]|cbn].
      intros k0 H. left. exists t0. split; [eapply nth_error_In; eassumption|exact H].
    + cbn. apply (G q). revert V. apply vis_eq; try reflexivity. cbn. intros k0 [H|H]; [discriminate|exact H].
    + assert (VV : vis s q) by (revert V; apply vis_eq; try reflexivity; cbn; intros k0 [H|H]; [discriminate|exact H]).
      destruct (G q VV) as (A & B & B2). pose proof (U q CI). cbn [setca addlog nt log ca suml isrej].
      assert (is k q = 0).
      { unfold is. destruct (Nat.eqb_spec k q) as [->|]; [|reflexivity].
        destruct (own q eq_refl) as (_ & _ & X); [unfold priv, hold; cbn; rewrite Nat.eqb_refl; reflexivity|lia]. }
      unfold priv, hold in *; cbn in *; lia.
    + assert (VV : vis s q \/ q = k).
      { destruct V as [H|[H|H]]; [left; left; exact H| |left; right; right; exact H].
        cbn in H. apply In_put in H. destruct H as [->|H]; [auto|left; right; left; exact H]. }
      destruct VV as [VV| ->].
      * eapply PR; [left; exact VV|cbn; lia|reflexivity|reflexivity|intros j Hj; injection Hj as <-; left; split; [reflexivity|unfold priv, hold; cbn; lia]].
      * apply (PR k _ (C9 k)); [right; split; [reflexivity|unfold priv, hold; cbn; rewrite Nat.eqb_refl; split; reflexivity]|cbn; lia|reflexivity|reflexivity|
          intros j Hj; injection Hj as <-; left; split; [reflexivity|unfold priv, hold; cbn; lia]].
    + assert (VV : vis s q \/ q = k).
      { destruct V as [(z & I & H)|[H|[H|H]]]; [|left; right; left; exact H|discriminate|left; right; right; exact H].
        cbn in I. apply in_app_or in I. destruct I as [I|[<-|[]]]; [left; left; exists z; auto|]. cbn in H.
        right. destruct H as [H|[H|H]]; congruence. }
      destruct VV as [VV| ->].
      * eapply PR; [left; exact VV|cbn; lia|reflexivity|reflexivity|intros j Hj; discriminate].
      * apply (PR k _ (CI)); [right; split; [reflexivity|unfold priv, hold; cbn; rewrite Nat.eqb_refl; split; reflexivity]|cbn; lia|reflexivity|reflexivity|
          intros j Hj; discriminate].
    + assert (VV : vis s q) by (revert V; apply vis_eq; try reflexivity; cbn; intros k0 [H|H]; [discriminate|exact H]).
      destruct (G q VV) as (A & B & B2). pose proof (U q CI). cbn [setca addlog setcnt nt log ca suml isrej].
      assert (is k q = 0).
      { unfold is. destruct (Nat.eqb_spec k q) as [->|]; [|reflexivity].
        destruct (own q eq_refl) as (_ & _ & X); [unfold priv, hold; cbn; rewrite Nat.eqb_refl; reflexivity|lia]. }
      unfold priv, hold in *; cbn in *; lia.
  - destruct (nth_error (th s) t) as [x|] eqn:N; [|discriminate]. intros k V.
    apply (tstep_vis _ _ _ _ N E) in V. destruct (G k V) as (A & B & B2).
    assert (nt s' = nt s /\ ca s' = ca s /\ suml (isrej k) (log s') = suml (isrej k) (log s)) as (-> & -> & ->); [|auto].
    unfold tstep in E.
    repeat match type of E with
      | context [match ?e with _ => _ end] => match e with context [match _ with _ => _ end] => fail 1 | _ => destruct e eqn:? end
      end; try discriminate; injection E as <-; cbn; auto.
Qed.
Lemma run_Gvis : forall M inh n l s, run M inh (init n) l = Some s -> Gvis s.
Proof.
  intros M inh n l s R. refine (proj2 (exec_inv (fun s => Gacc s /\ Gvis s) M inh _ _ l _ _ R _)).
  - intros s0 H. exact H.
  - intros s0 a s1 E (A & B). split; [eapply step_Gacc; eauto|eapply step_Gvis; eauto].
  - split; [intros k; cbn; rewrite suml_repeat; reflexivity|]. intros k [(x & [] & _)|[[]|[]]].
Qed.
