(** Theorems about task entries (C62). *)
From Coq Require Import List Bool Arith Lia.
From Verif Require Import Slots SlotsProofs Threads EntryModel.
Import ListNotations.

(** * Specification *)
Definition idle (s : st) : Prop := forall i k, nth_error (ag s) i = Some k -> k = [].
Definition count (p : event -> bool) (l : list event) : nat := length (filter p l).
Definition isT e := match e with ETrue => true | _ => false end.
Definition isF e := match e with EFalse => true | _ => false end.
Definition isS e := match e with ESet _ => true | _ => false end.
Definition isB e := match e with EBit => true | _ => false end.
(** What was logged since the last reset of the result. *)
Fixpoint since (l : list event) (acc : list event) : list event :=
  match l with [] => acc | EReset :: r => since r [] | e :: r => since r (acc ++ [e]) end.
(** The result was reset after the entry had been cancelled. *)
Definition spoilt (l : list event) : Prop := exists a b, l = a ++ b /\ In EBit a /\ In EReset b.
Definition starts_at (s : st) : Prop := s = task \/ exists p, s = timer p.

(** * Proofs *)
Definition pend (f : frame) : nat := match f with C1 => 1 | C0 => 0 end.
Definition cl (l : list (list frame)) : nat := suml (suml pend) l.
Arguments cl : simpl never.
Lemma cl_set : forall l i kk kk', nth_error l i = Some kk -> cl (set l i kk') + suml pend kk = cl l + suml pend kk'.
Proof. intros l i kk kk' N. apply (suml_set _ (suml pend) _ _ _ kk' N). Qed.
Lemma cl_add : forall l k, cl (l ++ [k]) = cl l + suml pend k.
Proof. intros l k. unfold cl. induction l as [|x l IH]; cbn; lia. Qed.
Lemma count_app : forall p a b, count p (a ++ b) = count p a + count p b.
Proof. intros p a b. unfold count. rewrite filter_app, app_length. reflexivity. Qed.
Lemma since_app : forall a b acc, since (a ++ b) acc = since b (since a acc).
Proof. induction a as [|e a IH]; intros b acc; [reflexivity|]. destruct e; cbn [app since]; apply IH. Qed.
Lemma nth_put : forall (l : list (list frame)) i kk' j k, nth_error (set l i kk') j = Some k -> k = kk' \/ nth_error l j = Some k.
Proof. intros l i kk' j k Q. apply nth_set in Q. destruct Q as [[_ ->]|[_ Q]]; auto. Qed.
Definition b1 (b : bool) := if b then 1 else 0.
Definition sum (s : st) : list event := since (log s) [].
Record V (s : st) : Prop := {
  v_bit : In EBit (log s) <-> can s = true;
  v_true : count isT (log s) + cl (ag s) = b1 (can s);
  v_false : forall i k, nth_error (ag s) i = Some k -> k = [] \/ exists f, k = [f];
  v_set : filter isS (sum s) = match hr s with Some c => [ESet c] | None => [] end;
  v_pend : hr s = None -> can s = true -> 1 <= cl (ag s) \/ spoilt (log s);
  v_fin : kar s = FIN -> hr s = None -> can s = true;
  v_run : forall a b, log s = a ++ EBit :: b -> ~ In ERun b;
  v_fal : 1 <= count isF (log s) -> can s = true }.
Lemma spoilt_app : forall l e, spoilt l -> spoilt (l ++ e).
Proof. intros l e (a & b & -> & A & B). exists a, (b ++ e). rewrite app_assoc. split; [reflexivity|]. split; [assumption|]. apply in_or_app. auto. Qed.
Lemma run_app_ok : forall l e, (forall a b, l = a ++ EBit :: b -> ~ In ERun b) -> (In EBit l -> e <> ERun) -> forall a b, l ++ [e] = a ++ EBit :: b -> ~ In ERun b.
Proof.
  intros l e H N a b E J. destruct b as [|x b]; [contradiction|]. destruct (exists_last (l := x :: b)) as (b' & y & EB); [discriminate|]. rewrite EB in *. assert (E2 : l ++ [e] = (a ++ EBit :: b') ++ [y]) by (rewrite E, <- app_assoc; reflexivity). apply app_inj_tail in E2. destruct E2 as [E2 E3]. subst y. apply in_app_or in J. destruct J as [J|[J|[]]].
  - apply (H _ _ E2 J).
  - apply N in J; [contradiction|]. rewrite E2. apply in_or_app. right. left. reflexivity.
Qed.
Lemma say_V : forall s e, V s -> e <> EReset -> e <> ERun -> e <> EBit -> isS e = false -> isT e = false -> isF e = false -> V (say s e).
Proof.
  intros s e I A1 A2 A3 A4 A5 A6. destruct I as [a b c d f g h i]. split; cbn [say can hr kar ag log]; auto.
  - rewrite <- a. rewrite in_app_iff. split; [intros [J|[J|[]]]; [auto|congruence]|auto].
  - rewrite count_app. unfold count at 2. cbn. rewrite A5. cbn. lia.
  - unfold sum in *. cbn [log say go w_hr put reset] in *. rewrite since_app. destruct e; try congruence; cbn [since]; rewrite filter_app, d; cbn in *; try discriminate; apply app_nil_r.
  - intros H C. destruct (f H C); [auto|right; apply spoilt_app; assumption].
  - apply run_app_ok; [assumption|auto].
  - rewrite count_app. unfold count at 2. cbn. rewrite A6. cbn. rewrite Nat.add_0_r. exact i.
Qed.
Lemma go_V : forall s p, V s -> (p = FIN -> hr s = None -> can s = true) -> V (go s p).
Proof. intros s p I H. destruct I as [a b c d f g h i]. split; cbn [go can hr kar ag log]; auto. Qed.
Lemma wake_V : forall s c, V s -> V (wake s c) /\ hr (wake s c) <> None /\ can (wake s c) = can s /\ ag (wake s c) = ag s.
Proof.
  intros s c I. unfold wake. destruct (hr s) as [c'|] eqn:H.
  - split; [apply say_V; auto; discriminate|]. cbn. split; [congruence|auto].
  - split; [|cbn; repeat split; congruence]. destruct I as [a b d e f g h i]. split; cbn [say w_hr can hr kar ag log]; auto; try discriminate.
    + rewrite <- a. rewrite in_app_iff. split; [intros [J|[J|[]]]; [auto|discriminate]|auto].
    + rewrite count_app. cbn. lia.
    + unfold sum in *. cbn [log say go w_hr put reset] in *. rewrite since_app. cbn [since]. rewrite filter_app, e, H. reflexivity.
    + apply run_app_ok; [assumption|discriminate].
    + rewrite count_app. cbn. rewrite Nat.add_0_r. exact i.
Qed.
Lemma reset_V : forall s, V s -> kar s <> FIN -> V (reset s).
Proof.
  intros s I K. destruct I as [a b c d f g h i]. split; cbn [reset say w_hr can hr kar ag log]; auto; try contradiction.
  - rewrite <- a. rewrite in_app_iff. split; [intros [J|[J|[]]]; [auto|discriminate]|auto].
  - rewrite count_app. cbn. lia.
  - unfold sum. cbn [log say go w_hr put reset] in *. rewrite since_app. reflexivity.
  - intros _ C. right. exists (log s), [EReset]. split; [reflexivity|]. split; [apply a; assumption|left; reflexivity].
  - apply run_app_ok; [assumption|discriminate].
  - rewrite count_app. cbn. rewrite Nat.add_0_r. exact i.
Qed.
Lemma exec_V : forall s a s', V s -> exec s a = Some s' -> V s'.
Proof.
  intros s a s' I E. destruct a as [b c| |i]; cbn [exec] in E.
  - unfold move in E. destruct (kar s) eqn:K.
    + injection E as <-. apply go_V; [|discriminate]. apply reset_V; [assumption|congruence].
    + injection E as <-. apply go_V; [assumption|]. destruct (can s); [discriminate|]. destruct b; discriminate.
    + injection E as <-. apply go_V; [assumption|]. destruct b; discriminate.
    + injection E as <-. apply go_V; [assumption|]. destruct (can s); discriminate.
    + injection E as <-. apply go_V; [|discriminate]. apply reset_V; [assumption|congruence].
    + injection E as <-. apply go_V; [assumption|]. destruct b; discriminate.
    + injection E as <-. apply go_V; [assumption|]. destruct b; discriminate.
    + injection E as <-. destruct (wake_V s c0 I) as (W & H & _). apply go_V; [assumption|]. congruence.
    + destruct (can s) eqn:C; injection E as <-; [apply go_V; auto|]. assert (NB : ~ In EBit (log s)) by (rewrite (v_bit _ I); congruence). destruct I as [a0 b0 c0 d f g h i]. split; cbn [say go can hr kar ag log]; auto; try discriminate.
      * rewrite <- a0. rewrite in_app_iff. split; [intros [J|[J|[]]]; [auto|discriminate]|auto].
      * rewrite count_app. cbn. lia.
      * unfold sum in *. cbn [log say go w_hr put reset] in *. rewrite since_app. cbn [since]. rewrite filter_app, d. cbn. apply app_nil_r.
      * congruence.
      * apply run_app_ok; [assumption|contradiction].
      * rewrite count_app. cbn. rewrite Nat.add_0_r. exact i.
    + injection E as <-. apply say_V; try discriminate; try reflexivity. apply go_V; [assumption|discriminate].
    + injection E as <-. destruct (wake_V s c0 I) as (W & H & _). apply go_V; [assumption|]. congruence.
    + discriminate.
  - injection E as <-. destruct I as [a0 b0 c0 d f g h i]. split; cbn [can hr kar ag log]; auto.
    + rewrite cl_add. cbn. lia.
    + intros j k N. destruct (Nat.lt_ge_cases j (length (ag s))); [rewrite nth_error_app1 in N by assumption; eauto|]. rewrite nth_error_app2 in N by assumption. destruct (j - length (ag s)) as [|[|x]]; cbn in N; try discriminate. injection N as <-. right. eauto.
    + intros H C. rewrite cl_add. destruct (f H C); [left; lia|auto].
  - destruct (nth_error (ag s) i) as [[|[] k]|] eqn:N; try discriminate.
    + assert (K : k = []) by (destruct (v_false _ I _ _ N) as [X|[x X]]; [discriminate|injection X as _ ->; reflexivity]). subst k. destruct (can s) eqn:C; injection E as <-.
      * assert (I' : V (put s i [])).
        { pose proof (cl_set _ _ _ [] N) as Q. cbn in Q. destruct I as [a0 b0 c0 d f g h i']. split; cbn [put can hr kar ag log]; auto; try lia.
          - intros j k N'. apply nth_put in N'. destruct N' as [->|N']; [eauto|eauto].
          - intros H X. destruct (f H X); [left; lia|auto]. }
        destruct I' as [a0 b0 c0 d f g h i']. cbn [put can hr kar ag log] in *. split; cbn [say put can hr kar ag log]; auto.
        -- rewrite in_app_iff. split; [intros; assumption|]. intros _. left. apply a0. assumption.
        -- rewrite count_app. cbn. lia.
        -- unfold sum in *. cbn [log say go w_hr put reset] in *. rewrite since_app. cbn [since]. cbn [log put] in d. rewrite filter_app, d. cbn. apply app_nil_r.
        -- intros H X. destruct (f H X); [auto|right; apply spoilt_app; assumption].
        -- apply run_app_ok; [assumption|discriminate].
      * pose proof (cl_set _ _ _ [C1] N) as Q. cbn in Q. assert (NB : ~ In EBit (log s)) by (rewrite (v_bit _ I); congruence). destruct I as [a0 b0 c0 d f g h i']. rewrite C in b0. cbn [b1] in b0. split; cbn [say can hr kar ag log]; auto.
        -- rewrite in_app_iff. split; [reflexivity|]. intros _. right. left. reflexivity.
        -- rewrite count_app. cbn. lia.
        -- intros j k N'. apply nth_put in N'. destruct N' as [->|N']; [eauto|eauto].
        -- unfold sum in *. cbn [log say go w_hr put reset] in *. rewrite since_app. cbn [since]. rewrite filter_app, d. cbn. apply app_nil_r.
        -- intros _ _. left. lia.
        -- apply run_app_ok; [assumption|contradiction].
    + assert (K : k = []) by (destruct (v_false _ I _ _ N) as [X|[x X]]; [discriminate|injection X as _ ->; reflexivity]). subst k. injection E as <-.
      pose proof (cl_set _ _ _ [] N) as Q. cbn in Q. destruct (wake_V s CA I) as (W & H & C & A). assert (CT : can s = true) by (pose proof (v_true _ I) as T; destruct (can s); [reflexivity|cbn in T; lia]).
      assert (EQ : wake (put s i []) CA = put (wake s CA) i []) by (unfold wake; cbn [hr put]; destruct (hr s); reflexivity). rewrite EQ. clear EQ. destruct W as [a0 b0 c0 d f g h i']. rewrite <- A in *. rewrite <- C in CT. split; cbn [say put can hr kar ag log]; auto.
      * rewrite in_app_iff, a0. split; [intros [J|[J|[]]]; [auto|discriminate]|auto].
      * rewrite count_app. cbn. rewrite CT in *. cbn [b1] in *. lia.
      * intros j k N'. apply nth_put in N'. destruct N' as [->|N']; [eauto|eauto].
      * unfold sum in *. cbn [log say go w_hr put reset] in *. rewrite since_app. cbn [since]. rewrite filter_app, d. cbn. apply app_nil_r.
      * intros X. contradiction.
      * apply run_app_ok; [assumption|discriminate].
Qed.
Lemma init_V : forall s, starts_at s -> V s.
Proof.
  intros s [->|[p ->]]; split; cbn; auto; try discriminate; try lia; try (split; [intros []|discriminate]); try (intros i k N; destruct i; discriminate); try (intros [] b E; discriminate).
Qed.
Lemma reach_V : forall s0 l s, starts_at s0 -> run s0 l = Some s -> V s.
Proof.
  intros s0 l s H. apply init_V in H. revert s0 H. induction l as [|a l IH]; intros s0 H R; cbn in R; [injection R as <-; exact H|]. destruct (exec s0 a) as [s1|] eqn:E; [|discriminate]. eapply IH; [eapply exec_V; eauto|exact R].
Qed.
Lemma cl_idle : forall s, idle s -> cl (ag s) = 0.
Proof. intros s D. unfold idle, cl in *. induction (ag s) as [|k l IH]; [reflexivity|]. cbn. rewrite (D 0 k eq_refl). apply IH. intros i. apply (D (S i)). Qed.

(** * C62 *)
(** At most one Cancel returns true; when all have returned, exactly one did. *)
Theorem C62_cancel : forall s0 l s, starts_at s0 -> run s0 l = Some s -> count isT (log s) <= 1 /\ (idle s -> count isT (log s) + count isF (log s) >= 1 -> count isT (log s) = 1).
Proof.
  intros s0 l s H R. pose proof (reach_V _ _ _ H R) as I. pose proof (v_true _ I) as T. pose proof (v_fal _ I) as F. split; [destruct (can s); cbn [b1] in T; lia|]. intros D G. rewrite (cl_idle _ D) in T. destruct (can s) eqn:C; cbn [b1] in T; [lia|]. destruct (count isF (log s)) eqn:X; [lia|]. assert (false = true) by (apply F; lia). discriminate.
Qed.
(** Once Cancel has set the bit the callback is not started any more. *)
Theorem C62_norun : forall s0 l s a b, starts_at s0 -> run s0 l = Some s -> log s = a ++ EBit :: b -> ~ In ERun b.
Proof. intros s0 l s a b H R E. apply (v_run _ (reach_V _ _ _ H R) _ _ E). Qed.
(** The result is never overwritten: since it was last reset it has been written once, with the value it
    has, or not at all. *)
Theorem C62_once : forall s0 l s, starts_at s0 -> run s0 l = Some s -> filter isS (since (log s) []) = match hr s with Some c => [ESet c] | None => [] end.
Proof. intros s0 l s H R. apply (v_set _ (reach_V _ _ _ H R)). Qed.
(** When the entry is done and every Cancel has returned, the result has been written - unless the runner
    reset it after the entry was cancelled.  Missing: that case, see C62_refuted. *)
Theorem C62_partial : forall s0 l s, starts_at s0 -> run s0 l = Some s -> kar s = FIN -> idle s -> ~ spoilt (log s) -> exists c, hr s = Some c.
Proof.
  intros s0 l s H R K D NS. pose proof (reach_V _ _ _ H R) as I. destruct (hr s) as [c|] eqn:E; [eauto|]. exfalso. pose proof (v_fin _ I K E) as C. destruct (v_pend _ I E C) as [X|X]; [rewrite (cl_idle _ D) in X; lia|contradiction].
Qed.
(** Timer of a sequenced runner: cancelled between the check in DispatchTask and PostTaskInternal, which
    resets the result; RunTask then sees the bit and returns without Wakeup: the result stays E_PENDING for
    ever, and with it each thread in WaitTask. *)
Theorem C62_refuted : match run (timer false) ([Move true OK; Move false OK; Move true OK; Move true OK; Cancel; Step 0; Step 0] ++ repeat (Move true OK) 4) with
  | Some s => kar s = FIN /\ ag s = [[]] /\ hr s = None /\ can s = true /\ log s = [EReset; EBit; ESet CA; ETrue; EReset] | None => False end.
Proof. vm_compute. repeat split. Qed.
Fixpoint outc (l : list event) (o : option code) : option code :=
  match l with [] => o | EReset :: r => outc r None | EEnd c :: r => outc r (Some c) | _ :: r => outc r o end.
Lemma outc_app : forall a b o, outc (a ++ b) o = outc b (outc a o).
Proof. induction a as [|e a IH]; intros b o; [reflexivity|]. destruct e; cbn [app outc]; apply IH. Qed.
Lemma outc_keep : forall b o, ~ In EReset b -> (forall c, ~ In (EEnd c) b) -> outc b o = o.
Proof. induction b as [|e b IH]; intros o A B; [reflexivity|]. assert (outc b o = o) by (apply IH; [intros J; apply A; right; exact J|intros c J; apply (B c); right; exact J]). destruct e; cbn; auto; [exfalso; apply A; left; reflexivity|exfalso; eapply B; left; reflexivity]. Qed.
Definition Q (s : st) : Prop :=
  match kar s with
  | R2 c g => outc (log s) None = Some c /\ hr s = None
  | K0 | FIN => forall c, outc (log s) None = Some c -> hr s = Some c
  | _ => outc (log s) None = None /\ hr s = None
  end.
Lemma exec_Q : forall s a s', V s -> Q s -> can s' = false -> exec s a = Some s' -> Q s' /\ can s = false.
Proof.
  intros s a s' I H C E. destruct a as [b c| |i]; cbn [exec] in E.
  - unfold move in E. unfold Q in *. destruct (kar s) eqn:K;
      try (injection E as <-; cbn in C |- *; rewrite ?C; rewrite ?outc_app; cbn; split; [|reflexivity || assumption]; first [split; reflexivity | destruct b; exact H | exact H]).
    + injection E as <-. unfold wake in *. destruct H as [H1 H2]. rewrite H2 in *. cbn in C |- *. split; [|assumption]. rewrite outc_app. cbn. congruence.
    + destruct (can s) eqn:CS; injection E as <-; cbn in C |- *; [congruence|]. split; [|reflexivity]. rewrite outc_app. exact H.
    + injection E as <-. cbn in C |- *. split; [|assumption]. rewrite outc_app. destruct H as [_ H]. split; [reflexivity|exact H].
    + injection E as <-. unfold wake in *. destruct H as [H1 H2]. rewrite H2 in *. cbn in C |- *. split; [|assumption]. rewrite outc_app, H1. cbn. destruct g; intros c' X; exact X.
    + discriminate.
  - injection E as <-. cbn in C. split; [exact H|exact C].
  - destruct (nth_error (ag s) i) as [[|[] k]|] eqn:N; try discriminate.
    + destruct (can s) eqn:CS; injection E as <-; cbn in C; congruence.
    + injection E as <-. exfalso. assert (CT : can s = true).
      { pose proof (v_true _ I) as T. pose proof (cl_set _ _ _ [] N) as X. cbn in X. destruct (can s); [reflexivity|cbn in T; lia]. }
      assert (X : can (say (wake (put s i k) CA) ETrue) = can s) by (unfold wake; cbn [hr put]; destruct (hr s); reflexivity). congruence.
Qed.
(** Without Cancel, the result of a done entry is what its callback returned last. *)
Theorem C62_result : forall s0 l s a c b, starts_at s0 -> run s0 l = Some s -> kar s = FIN -> ~ In EBit (log s) -> log s = a ++ EEnd c :: b -> ~ In EReset b -> (forall c', ~ In (EEnd c') b) -> hr s = Some c.
Proof.
  intros s0 l s a c b H R K NB L A B. pose proof (reach_V _ _ _ H R) as I. assert (C : can s = false) by (destruct (can s) eqn:C; [exfalso; apply NB; apply (v_bit _ I); exact C|reflexivity]).
  assert (X : forall l s0, V s0 -> Q s0 -> run s0 l = Some s -> Q s).
  { clear -C. induction l as [|a l IH] using rev_ind; intros s0 V0 Q0 R; [cbn in R; injection R as <-; exact Q0|].
    revert V0 Q0 R. revert s0. assert (Y : forall l s0, run s0 l = Some s -> V s0 -> can s0 = false).
    { induction l0 as [|x l0 IH0]; intros s1 R V0; cbn in R; [injection R as <-; exact C|]. destruct (exec s1 x) as [s2|] eqn:E; [|discriminate]. assert (V2 : V s2) by (eapply exec_V; eauto). pose proof (IH0 _ R V2) as C2. destruct (can s1) eqn:C1; [|reflexivity].
      assert (In EBit (log s2)). { apply (v_bit _ V0) in C1. assert (exists e, log s2 = log s1 ++ e) as [e ->]; [|apply in_or_app; auto]. clear -E. destruct x as [b c| |i]; cbn [exec] in E.
        - unfold move, wake, reset in E. destruct (kar s1); repeat match type of E with context [match ?z with _ => _ end] => destruct z end; try discriminate; injection E as <-; cbn; (eexists; try reflexivity; symmetry; apply app_nil_r).
        - injection E as <-. exists []. symmetry. apply app_nil_r.
        - destruct (nth_error (ag s1) i) as [[|[] k]|]; try discriminate; [destruct (can s1)|]; injection E as <-; unfold wake; cbn; [eexists; reflexivity|eexists; reflexivity|]. destruct (hr s1); cbn; rewrite <- ?app_assoc; eexists; reflexivity. }
      apply (v_bit _ V2) in H. congruence. }
    intros s0 V0 Q0 R. clear IH. revert s0 V0 Q0 R. induction (l ++ [a]) as [|x l' IH]; intros s0 V0 Q0 R; cbn in R; [injection R as <-; exact Q0|]. destruct (exec s0 x) as [s1|] eqn:E; [|discriminate]. assert (V1 : V s1) by (eapply exec_V; eauto).
    apply (IH s1 V1); [|exact R]. eapply exec_Q; [exact V0|exact Q0|apply (Y _ _ R V1)|exact E]. }
  assert (Q0 : Q s0) by (destruct H as [->|[p ->]]; cbn; [auto|discriminate]). pose proof (X l s0 (init_V _ H) Q0 R) as QS. unfold Q in QS. rewrite K in QS. apply QS. rewrite L, outc_app. cbn [outc]. apply outc_keep; assumption.
Qed.

(** An entry that was cancelled anywhere but where PostTaskInternal is about to reset it gets its result: only
    there is the cancellation forgotten. *)
Definition W (s : st) : Prop := can s = true /\ kar s <> P0 /\ (hr s <> None \/ 1 <= cl (ag s) \/ match kar s with K0 | K1 | KW _ => True | _ => False end).
Lemma wake_hr : forall s c, hr (wake s c) <> None.
Proof. intros s c. unfold wake. destruct (hr s) eqn:E; cbn; [congruence|discriminate]. Qed.
Lemma wake_same : forall s c, can (wake s c) = can s /\ kar (wake s c) = kar s.
Proof. intros s c. unfold wake. destruct (hr s); auto. Qed.
Lemma exec_W : forall s x s', W s -> exec s x = Some s' -> W s'.
Proof.
  intros s x s' (C & P & D) E. destruct x as [b c| |i]; cbn [exec] in E.
  - unfold move in E. rewrite C in E. destruct (kar s) eqn:K; try congruence; injection E as <-; unfold W; cbn [go say reset w_hr can kar hr ag]; rewrite ?(proj1 (wake_same _ _)), ?C;
      (split; [reflexivity|]); (split; [try destruct b; try destruct g; discriminate|]); try (right; right; exact I); try (left; apply wake_hr); destruct D as [D|[D|D]]; try contradiction; auto.
  - injection E as <-. unfold W. cbn. rewrite cl_add. intuition.
  - destruct (nth_error (ag s) i) as [[|[] k]|] eqn:N; try discriminate E.
    + rewrite C in E. injection E as <-. unfold W. cbn. pose proof (cl_set _ _ _ k N) as Z. cbn in Z. split; [exact C|]. split; [exact P|]. destruct D as [D|[D|D]]; [auto|right; left; lia|auto].
    + injection E as <-. unfold W. cbn [say can kar hr]. destruct (wake_same (put s i k) CA) as (-> & ->). split; [exact C|]. split; [exact P|]. left. apply wake_hr.
Qed.
Theorem C62_late : forall s0 l s l' s', starts_at s0 -> run s0 l = Some s -> In EBit (log s) -> ~ spoilt (log s) -> kar s <> P0 -> run s l' = Some s' -> kar s' = FIN -> idle s' -> exists c, hr s' = Some c.
Proof.
  intros s0 l s l' s' H R B NS P R' F D. pose proof (reach_V _ _ _ H R) as I. assert (C : can s = true) by (apply (v_bit _ I); exact B).
  assert (X : W s). { split; [exact C|]. split; [exact P|]. destruct (hr s) eqn:E; [left; discriminate|]. right. left. destruct (v_pend _ I E C) as [Y|Y]; [exact Y|contradiction]. }
  clear -X R' F D. revert s X R'. induction l' as [|a l IH]; intros s X R; cbn [run] in R.
  - injection R as <-. destruct X as (_ & _ & [X|[X|X]]); [destruct (hr s); [eauto|congruence]|rewrite (cl_idle _ D) in X; lia|rewrite F in X; destruct X].
  - destruct (exec s a) as [s1|] eqn:E; [|discriminate R]. exact (IH s1 (exec_W _ _ _ X E) R).
Qed.
(** A periodic timer that is cancelled while the dispatcher has it: its result is set although it was dispatched. *)
Example C62_case_late : match run (timer true) [Move true OK; Move false OK; Move true OK; Cancel; Step 0] with
  | Some s => In EBit (log s) /\ kar s = D1 /\ match run s [Move true OK; Move true OK; Step 0] with Some s' => kar s' = FIN /\ ag s' = [[]] /\ hr s' = Some CA | None => False end | None => False end.
Proof. vm_compute. repeat split; auto. Qed.

(** * Concrete cases *)
(** A task runs, is cancelled while it runs and keeps the code of the first Wakeup. *)
Example C62_case : match run task ([Move true OK; Move true OK; Move true OK; Move true OK; Cancel; Cancel; Step 0; Step 1; Step 0; Move true OK; Move true OK]) with
  | Some s => kar s = FIN /\ ag s = [[]; []] /\ log s = [EReset; ERun; EBit; EFalse; ESet CA; ETrue; EEnd OK; EKept] /\ hr s = Some CA | None => False end.
Proof. vm_compute. repeat split. Qed.
(** A periodic timer runs twice, is then cancelled in the queue and does not run again. *)
Definition round : list act := [Move true OK; Move false OK] ++ repeat (Move true OK) 8.
Example C62_case_timer : match run (timer true) (round ++ round ++ firstn 6 round ++ [Cancel; Step 0; Step 0; Move true OK; Move true OK]) with
  | Some s => kar s = FIN /\ hr s = Some CA /\ skipn 10 (log s) = [EReset; EReset; EBit; ESet CA; ETrue] /\ count isT (log s) = 1 | None => False end.
Proof. vm_compute. repeat split. Qed.
Example C62_case_result : match run task (repeat (Move true CA) 6) with Some s => kar s = FIN /\ log s = [EReset; ERun; EEnd CA; ESet CA] /\ hr s = Some CA | None => False end.
Proof. vm_compute. repeat split. Qed.
Print Assumptions C62_cancel.
Print Assumptions C62_norun.
Print Assumptions C62_once.
Print Assumptions C62_partial.
Print Assumptions C62_late.
Print Assumptions C62_result.
Print Assumptions C62_refuted.
