(** Theorems about the parallel task runner (C61, C83, C84, C85). *)
From Coq Require Import List ZArith Bool Arith Lia Permutation.
From Verif Require Import Slots SlotsProofs Threads ParModel ParProofs.
Import ListNotations.

Definition to (i n : nat) : list act := map Step (repeat i n).

(** * C61: the limit, and each task at most once *)
Lemma len_rut : forall l, length (fm rut l) <= cl tok l.
Proof.
  assert (X : forall k, length (flat_map rut k) <= suml tok k) by (induction k as [|f k IH]; cbn [flat_map suml]; [cbn; lia|]; rewrite app_length; destruct f; cbn [rut tok length]; try (match goal with t : option nat |- _ => destruct t end); cbn [rut tok length]; lia).
  unfold fm, cl. induction l as [|k l IH]; cbn [flat_map suml]; [cbn; lia|]. rewrite app_length. specialize (X k). lia.
Qed.
Lemma limit_hm : forall m M l s, (m <= M)%Z -> (forall x, In (Limit x) l -> (x <= M)%Z) -> run (init m) l = Some s -> (hm s <= M)%Z.
Proof.
  intros m M l s H. revert s. induction l as [|a l IH] using rev_ind; intros s A R; [cbn in R; injection R as <-; exact H|].
  apply run_snoc in R. destruct R as (s1 & R & E). assert (HM : (hm s1 <= M)%Z) by (apply IH; [|exact R]; intros x J; apply A; apply in_or_app; auto). destruct a as [i|t| | |i|x| |]; cbn [exec] in E.
  - destruct (nth_error (ag s1) i) as [[|f k]|]; try discriminate. destruct (fre s1); [injection E as <-; exact HM|]. cases E; exact HM.
  - destruct (Nat.eqb (us s1) 0); [discriminate|]. injection E as <-. exact HM.
  - destruct (Nat.eqb (us s1) 0); [discriminate|]. injection E as <-. exact HM.
  - destruct (Nat.eqb (us s1) 0); [discriminate|]. injection E as <-. exact HM.
  - destruct (nth_error (ag s1) i) as [[|[] k]|]; try discriminate. injection E as <-. exact HM.
  - destruct (Nat.eqb (us s1) 0 || _); [discriminate|]. injection E as <-. cbn [hm]. assert (x <= M)%Z by (apply A; apply in_or_app; right; left; reflexivity). lia.
  - destruct (Nat.eqb (us s1) 0); [discriminate|]. injection E as <-. exact HM.
  - destruct (us s1) as [|[|n]]; [discriminate| |injection E as <-; exact HM]. destruct (existsb user (ag s1)); [discriminate|]. destruct (Nat.eqb _ 1); injection E as <-; exact HM.
Qed.
(** Never more tasks running than the largest limit ever set, and never more workers. *)
Theorem C61_limit : forall m M l s, (1 <= m <= M)%Z -> (M < PW)%Z -> (forall x, In (Limit x) l -> (x <= M)%Z) -> run (init m) l = Some s -> (Z.of_nat (running s) <= pr (fl s) <= M)%Z.
Proof.
  intros m M l s A B C H. assert (I : V s) by (eapply reach_V; [|exact H]; lia). pose proof (limit_hm m M l s (proj2 A) C H) as L. pose proof (v_hm _ I). pose proof (v_pr _ I) as P. pose proof (len_rut (ag s)). pose proof (Permutation_length (v_ru _ I)) as R. rewrite app_length in R. unfold running. lia.
Qed.
(** Each accepted task is started or cancelled at most once, and only accepted tasks are. *)
Theorem C61_once : forall m l s, (1 <= m < PW)%Z -> run (init m) l = Some s -> exists rest, Permutation (accs (log s)) (takes (log s) ++ rest).
Proof.
  intros m l s M H. pose proof (reach_V _ _ _ M H) as I. exists (q s ++ fm p4t (ag s)). rewrite app_assoc, <- (v_q _ I). apply (v_ac _ I).
Qed.
Lemma starts_takes : forall l, exists rest, Permutation (takes l) (starts l ++ rest).
Proof.
  induction l as [|e l [r IH]]; [exists []; reflexivity|]. destruct e; try (exists r; exact IH).
  - exists r. change (Permutation (t :: takes l) (t :: starts l ++ r)). apply perm_skip. exact IH.
  - exists (t :: r). change (Permutation (t :: takes l) (starts l ++ t :: r)). apply Permutation_cons_app. exact IH.
Qed.
Lemma nodup_l : forall (a w : list nat), NoDup (a ++ w) -> NoDup a.
Proof. induction a as [|x a IH]; intros w D; [constructor|]. cbn in D. inversion D; subst. constructor; [intros J; apply H1; apply in_or_app; auto|eapply IH; eauto]. Qed.
Theorem C61_distinct : forall m l s, (1 <= m < PW)%Z -> run (init m) l = Some s -> NoDup (accs (log s)) -> NoDup (starts (log s)) /\ forall t, In t (starts (log s)) -> In t (accs (log s)).
Proof.
  intros m l s M H D. destruct (C61_once _ _ _ M H) as [r P]. destruct (starts_takes (log s)) as [r2 P2].
  assert (P3 : Permutation (accs (log s)) (starts (log s) ++ (r2 ++ r))) by (rewrite app_assoc; eapply Permutation_trans; [exact P|apply Permutation_app_tail; exact P2]).
  split; [|intros t J; eapply Permutation_in; [symmetry; exact P3|apply in_or_app; auto]]. apply (Permutation_NoDup P3) in D. apply (nodup_l _ _ D).
Qed.
(** Tasks leave the queue in the order in which they were put there. *)
Theorem C61_order : forall m l s, (1 <= m < PW)%Z -> run (init m) l = Some s -> pushes (log s) = takes (log s) ++ q s.
Proof. intros m l s M H. apply (v_q _ (reach_V _ _ _ M H)). Qed.
(** Two threads are never in Pop at the same time. *)
Theorem C61_pop : forall m l s i j, (1 <= m < PW)%Z -> run (init m) l = Some s -> popping s i -> popping s j -> i = j.
Proof.
  intros m l s i j M H (f & k & N & A) (f' & k' & N' & A'). destruct (Nat.eq_dec i j) as [|D]; [assumption|]. exfalso. pose proof (v_pl _ (reach_V _ _ _ M H)) as P. pose proof (suml_two _ (suml hold) _ _ _ _ _ D N N') as Q. fold (cl hold (ag s)) in Q. cbn [suml] in Q.
  assert (hold f = 1) by (destruct A; subst; reflexivity). assert (hold f' = 1) by (destruct A'; subst; reflexivity). destruct (pl (fl s)); cbn [b1] in P; lia.
Qed.
(** Nor in Push, until the queue has been cleaned up.  Missing: afterwards. *)
Theorem C61_push_partial : forall m l s i j, (1 <= m < PW)%Z -> run (init m) l = Some s -> ~ In ECln (log s) -> pushing s i -> pushing s j -> i = j.
Proof.
  intros m l s i j M H C (t & b & o & k & N) (t' & b' & o' & k' & N'). destruct (Nat.eq_dec i j) as [|D]; [assumption|]. exfalso. pose proof (reach_lk _ _ _ M H C) as P. pose proof (suml_two _ (suml p45) _ _ _ _ _ D N N') as Q. fold (cl p45 (ag s)) in Q. cbn [suml p45] in Q. destruct (lk (fl s)); cbn [b1] in P; lia.
Qed.
(** CleanupTaskQueue resets bPushLock while a thread is in Push; a second thread past the check for
    bStopWakeup then enters. *)
Theorem C61_push_refuted : match run (init 4) ([Post 1] ++ to 0 8 ++ [Post 2; Post 3] ++ to 2 2 ++ to 3 2 ++ to 1 11 ++ to 2 2 ++ to 1 3 ++ to 3 2) with Some s => pushing s 2 /\ pushing s 3 /\ us s = 1 | None => False end.
Proof. vm_compute. repeat split; repeat eexists. Qed.

(** * C83: accepted tasks are run *)
Lemma cl_pos : forall w l, 1 <= cl w l -> exists i k f, nth_error l i = Some k /\ In f k /\ 1 <= w f.
Proof.
  intros w. unfold cl. assert (X : forall k, 1 <= suml w k -> exists f, In f k /\ 1 <= w f).
  { induction k as [|f k IH]; cbn; [lia|]. intros H. destruct (w f) eqn:W; [destruct IH as (g & A & B); [lia|]; exists g; auto|]. exists f. split; [auto|lia]. }
  induction l as [|k l IH]; cbn; [lia|]. intros H. destruct (suml w k) eqn:W.
  - destruct IH as (i & k' & f & A & B); [lia|]. exists (S i), k', f. auto.
  - destruct (X k) as (f & A & B); [lia|]. exists 0, k, f. auto.
Qed.
Lemma tok_head : forall k f, shape k -> In f k -> 1 <= tok f -> exists r, k = f :: r.
Proof.
  intros [|g k] f SH J T; [contradiction|]. destruct J as [->|J]; [eauto|]. exfalso. destruct g; cbn in SH; decompose [or] SH; subst; cbn in J; decompose [or] J; subst; try contradiction; cbn in T; lia.
Qed.
(** As long as the user keeps a reference and nothing out of the ordinary happens - see [odd] - a task
    left in the queue has a worker, unless a thread is still posting.  Missing: [odd] events, see below. *)
Theorem C83_partial : forall m l s, (1 <= m < PW)%Z -> run (init m) l = Some s -> us s <> 0 -> calm (log s) -> ~ posting s -> q s <> [] -> working s.
Proof.
  intros m l s M H U C NP Q. pose proof (reach_V _ _ _ M H) as I. pose proof (reach_G _ _ _ M H (conj U C)) as R. pose proof (g_cn _ R) as CN. assert (L : 1 <= length (q s)) by (destruct (q s); [congruence|cbn; lia]). pose proof (g_lo _ R) as LO. pose proof (v_pr _ I) as PR.
  destruct (cl_pos tok (ag s)) as (i & k & f & N & J & T); [lia|]. destruct (tok_head _ _ (v_sh _ I _ _ N) J T) as (r & ->). exists i, f, r. split; [assumption|]. pose proof (cl_ge xx _ _ _ N) as X. rewrite (g_xx _ R) in X. cbn [suml] in X.
  destruct (isq f) eqn:QF; [exfalso; apply NP; exists i, f, r; auto|]. destruct f; cbn in *; try reflexivity; try discriminate; lia.
Qed.
Lemma cl_idle : forall w s, idle s -> cl w (ag s) = 0.
Proof. intros w s D. destruct (cl w (ag s)) eqn:C; [reflexivity|]. destruct (cl_pos w (ag s)) as (i & k & f & N & J & _); [lia|]. rewrite (D _ _ N) in J. contradiction. Qed.
Lemma fm_nil : forall g l, (forall i k, nth_error l i = Some k -> flat_map g k = []) -> fm g l = [].
Proof. intros g. unfold fm. induction l as [|k l IH]; intros H; [reflexivity|]. cbn. rewrite (H 0 k eq_refl). apply IH. intros i. apply (H (S i)). Qed.
Lemma all_done : forall s, V s -> G s -> cn (fl s) = 0%Z -> Permutation (accs (log s)) (ends (log s)) /\ q s = [].
Proof.
  intros s I R Z. pose proof (g_cn _ R) as CN. assert (Q : q s = []) by (destruct (q s); [reflexivity|cbn in CN; lia]). split; [|assumption].
  assert (F1 : fm p4t (ag s) = []).
  { apply fm_nil. intros i k N. pose proof (cl_ge p4 _ _ _ N) as X. assert (X0 : suml p4 k = 0) by lia. clear -X0. induction k as [|f k IH]; [reflexivity|]. cbn in *. rewrite IH by lia. destruct f; cbn in *; try reflexivity; lia. }
  assert (F2 : fm rut (ag s) = []).
  { apply fm_nil. intros i k N. pose proof (cl_ge oo _ _ _ N) as X. assert (X0 : suml oo k = 0) by lia. clear -X0. induction k as [|f k IH]; [reflexivity|]. cbn in *. rewrite IH by lia. destruct f; cbn in *; try reflexivity; try lia. destruct t; cbn in *; [lia|reflexivity]. }
  pose proof (v_ac _ I) as A. pose proof (v_ru _ I) as B. rewrite F1, app_nil_r, (v_q _ I), Q, app_nil_r, (g_can _ R) in A. rewrite F2, app_nil_r in B. eapply Permutation_trans; eassumption.
Qed.
(** In the same circumstances, when all threads are at rest, each accepted task has run to its end. *)
Theorem C83_rest_partial : forall m l s, (1 <= m < PW)%Z -> run (init m) l = Some s -> us s <> 0 -> calm (log s) -> idle s -> Permutation (accs (log s)) (ends (log s)).
Proof.
  intros m l s M H U C D. pose proof (reach_V _ _ _ M H) as I. pose proof (reach_G _ _ _ M H (conj U C)) as R. apply (all_done _ I R). pose proof (g_lo _ R) as LO. pose proof (g_hi _ R) as HI. pose proof (v_pr _ I) as PR. rewrite (cl_idle _ _ D) in PR. pose proof (v_cn _ I). lia.
Qed.
(** ** The workers finish *)
Definition wt (f : frame) : nat := match f with W0 => 9 | W1 => 8 | W1i => 7 | W2 => 6 | W3 => 5 | W3u _ => 4 | W4 _ => 3 | W5 => 2 | W6 _ => 1 | _ => 0 end.
Definition stale (fl : flags) (k : list frame) : nat := match k with W6 f :: _ => if feq fl f then 0 else 1 | _ => 0 end.
Definition work (s : st) : nat := cl wt (ag s) + 16 * Z.to_nat (cn (fl s)).
Definition size (s : st) : nat := work s * S (length (ag s)) + suml (stale (fl s)) (ag s).
Arguments work : simpl never.
Definition quiet (s : st) : Prop := forall i f k, nth_error (ag s) i = Some (f :: k) -> isq f = false.
Lemma stale_le : forall g l, suml (stale g) l <= length l.
Proof. intros g. induction l as [|k l IH]; cbn; [lia|]. assert (stale g k <= 1) by (destruct k as [|[] k]; cbn; try lia; destruct (feq g f); lia). lia. Qed.
Lemma feq_refl : forall f, feq f f = true.
Proof. intros f. unfold feq. rewrite !Bool.eqb_reflx, !Z.eqb_refl. reflexivity. Qed.
Lemma size_lt : forall s s', length (ag s') = length (ag s) -> work s' < work s -> size s' < size s.
Proof. intros s s' L W. unfold size. rewrite L. pose proof (stale_le (fl s') (ag s')). rewrite L in H. nia. Qed.
Lemma quiet_tok : forall s i k f, V s -> G s -> quiet s -> nth_error (ag s) i = Some k -> In f k -> 1 <= tok f -> exists r, k = f :: r /\ isw f = true.
Proof.
  intros s i k f I R Q N J T. destruct (tok_head _ _ (v_sh _ I _ _ N) J T) as (r & ->). exists r. split; [reflexivity|]. pose proof (Q _ _ _ N) as QF. pose proof (cl_ge xx _ _ _ N) as X. rewrite (g_xx _ R) in X. cbn [suml] in X. destruct f; cbn in *; try reflexivity; try discriminate; lia.
Qed.
Lemma oo_tok : forall f, oo f <= tok f.
Proof. intros []; cbn; try lia. destruct t; cbn; lia. Qed.
Lemma cl_lt : forall w w' l i k f, (forall f, w f <= w' f) -> nth_error l i = Some k -> In f k -> w f < w' f -> cl w l < cl w' l.
Proof.
  intros w w' l i k f LE. assert (X : forall k, suml w k <= suml w' k) by (induction k0 as [|g k0 IH]; cbn; [lia|]; specialize (LE g); lia).
  assert (Y : forall k, In f k -> w f < w' f -> suml w k < suml w' k) by (induction k0 as [|g k0 IH]; cbn; [contradiction|]; intros [->|J] L; [specialize (X k0); lia|specialize (LE g); specialize (IH J L); lia]).
  unfold cl. revert i. induction l as [|k1 l IH]; intros [|i] N J L; cbn in *; try discriminate.
  - injection N as ->. specialize (Y _ J L). pose proof (cl_le w w' LE l). unfold cl in *. lia.
  - specialize (X k1). specialize (IH _ N J L). lia.
Qed.
Lemma quiet_put : forall s s' i x r, quiet s -> ag s' = set (ag s) i (x :: r) -> isq x = false -> quiet s'.
Proof. intros s s' i x r Q E X j f k N. rewrite E in N. apply nth_put in N. destruct N as [N|N]; [injection N as -> _; exact X|eapply Q; eauto]. Qed.
Lemma drain_step : forall s i f k, V s -> G s -> good s -> quiet s -> nth_error (ag s) i = Some (f :: k) -> isw f = true -> (f = W2 -> pl (fl s) = false) ->
  exists s', exec s (Step i) = Some s' /\ good s' /\ quiet s' /\ accs (log s') = accs (log s) /\ size s' < size s.
Proof.
  intros s i f k I R GD Q N W P2. destruct (alive _ I (proj1 GD)) as (FR & _). cbn [exec]. rewrite N, FR. pose proof (v_sh _ I _ _ N) as SH.
  assert (TP : (1 <= pr (fl s) < PW)%Z) by (eapply tok_pos; [exact I|exact N|destruct f; cbn in *; reflexivity || discriminate]).
  assert (K : k = [T0]) by (destruct f; cbn in SH, W; try discriminate; exact SH). subst k.
  assert (PO : cl po (ag s) = 0).
  { destruct (cl po (ag s)) eqn:X; [reflexivity|]. destruct (cl_pos po (ag s)) as (j & kk & g & N1 & J & T); [lia|]. assert (T1 : 1 <= tok g) by (destruct g; cbn in *; try lia; destruct b; cbn in *; lia). destruct (quiet_tok _ _ _ _ I R Q N1 J T1) as (r & -> & IW). destruct g; cbn in *; try lia; discriminate. }
  assert (P4 : cl p4 (ag s) = 0).
  { destruct (cl p4 (ag s)) eqn:X; [reflexivity|]. destruct (cl_pos p4 (ag s)) as (j & kk & g & N1 & J & T); [lia|]. pose proof (v_sh _ I _ _ N1) as S1. destruct kk as [|h kk]; [contradiction|]. destruct J as [->|J]; [pose proof (Q _ _ _ N1) as X1; destruct g; cbn in *; try lia; discriminate|]. exfalso. destruct h; cbn in S1; decompose [or] S1; subst; cbn in J; decompose [or] J; subst; try contradiction; cbn in T; lia. }
  assert (SHD : shared s = true).
  { apply Nat.ltb_lt. pose proof (v_rc _ I) as RC. destruct GD as [U _]. destruct (Z.ltb_spec 0 (pr (fl s))); cbn [b1] in RC; lia. }
  pose proof (g_hi _ R) as HI. assert (IT : it (fl s) = false) by (destruct (it (fl s)) eqn:B; [destruct (g_it _ R B); lia|reflexivity]).
  assert (LEN : forall kk, length (set (ag s) i kk) = length (ag s)) by (intros; apply set_length). pose proof (v_cn _ I) as CN.
  destruct f; try discriminate W; cbn [step]; cbv zeta.
  - eexists. split; [reflexivity|]. split; [exact GD|]. split; [eapply quiet_put; [exact Q|reflexivity|reflexivity]|]. split; [reflexivity|]. apply size_lt; [apply LEN|]. unfold work. un. cnt N wt. lia.
  - rewrite SHD. eexists. split; [reflexivity|]. split; [exact GD|]. split; [eapply quiet_put; [exact Q|reflexivity|reflexivity]|]. split; [reflexivity|]. apply size_lt; [apply LEN|]. unfold work. un. cnt N wt. lia.
  - rewrite IT. eexists. split; [reflexivity|]. split; [exact GD|]. split; [eapply quiet_put; [exact Q|reflexivity|reflexivity]|]. split; [reflexivity|]. apply size_lt; [apply LEN|]. unfold work. un. cnt N wt. lia.
  - rewrite (P2 eq_refl). eexists. split; [reflexivity|]. split; [exact GD|]. split; [eapply quiet_put; [exact Q|reflexivity|reflexivity]|]. split; [reflexivity|]. apply size_lt; [apply LEN|]. unfold work. un. cnt N wt. cbn [cn w_pl]. lia.
  - destruct (q s) as [|t r] eqn:QS.
    + exfalso. pose proof (g_cn _ R) as GC. rewrite QS, P4 in GC. cbn [length] in GC. pose proof (v_pr _ I). pose proof (cl_lt oo tok _ _ _ W3 oo_tok N (or_introl eq_refl)) as X. cbn in X. lia.
    + eexists. split; [reflexivity|]. split; [|split; [eapply quiet_put; [exact Q|reflexivity|reflexivity]|split; [un; rewrite accs_app; apply app_nil_r|apply size_lt; [apply LEN|]; unfold work; un; cnt N wt; lia]]].
      destruct GD as [U C]. split; [exact U|]. un. intros e J. apply in_app_or in J. destruct J as [J|[<-|[]]]; [apply C; exact J|reflexivity].
  - destruct t as [t|].
    + eexists. split; [reflexivity|]. split; [exact GD|]. split; [eapply quiet_put; [exact Q|reflexivity|reflexivity]|]. split; [reflexivity|]. apply size_lt; [apply LEN|]. unfold work. un. cnt N wt. cbn [cn w_pl]. lia.
    + exfalso. pose proof (cl_ge xx _ _ _ N) as X. rewrite (g_xx _ R) in X. cbn in X. lia.
  - eexists. split; [reflexivity|]. split; [|split; [eapply quiet_put; [exact Q|reflexivity|reflexivity]|split; [un; rewrite accs_app; apply app_nil_r|apply size_lt; [apply LEN|]; unfold work; un; cnt N wt; lia]]].
    destruct GD as [U C]. split; [exact U|]. un. intros e J. apply in_app_or in J. destruct J as [J|[<-|[]]]; [apply C; exact J|reflexivity].
  - eexists. split; [reflexivity|]. split; [exact GD|]. split; [eapply quiet_put; [exact Q|reflexivity|reflexivity]|]. split; [reflexivity|]. apply size_lt; [apply LEN|]. unfold work. un. cnt N wt. lia.
  - destruct (feq (fl s) f) eqn:FE.
    + apply feq_eq in FE. subst f. pose proof (g_cn _ R) as GC. pose proof (cl_ge oo _ _ _ N) as OG. cbn [suml oo] in OG. destruct (sunk_facts (fl s)) as (Y1 & Y2); [lia|lia|lia|].
      assert (CD : cn (done (fl s)) = (cn (fl s) - 1)%Z) by (unfold done; destruct (leave (fl s)); cbn [cn w_pr sunk w_cn]; exact Y1).
      destruct (pr (done (fl s)) =? 0)%Z; destruct (leave (fl s)) eqn:LV; (eexists; split; [reflexivity|]; split; [exact GD|]; split;
        [eapply quiet_put; [exact Q|reflexivity|reflexivity]|split; [reflexivity|apply size_lt; [apply LEN|]; unfold work; un; cnt N wt; rewrite ?CD; lia]]).
    + eexists. split; [reflexivity|]. split; [exact GD|]. split; [eapply quiet_put; [exact Q|reflexivity|reflexivity]|]. split; [reflexivity|].
      unfold size. assert (WE : work (put s i [W6 (fl s); T0]) = work s) by (unfold work; un; cnt N wt; lia). rewrite WE. un. rewrite LEN. pose proof (suml_set _ (stale (fl s)) _ _ _ [W6 (fl s); T0] N) as SS. cbn [stale] in SS. rewrite feq_refl, FE in SS. lia.
Qed.
(** From each such state with no thread posting, some run of the workers alone ends every accepted task:
    the workers are not stuck and no task is left behind. *)
Theorem C83_drains : forall m l s, (1 <= m < PW)%Z -> run (init m) l = Some s -> us s <> 0 -> calm (log s) -> ~ posting s ->
  exists l' s', (forall a, In a l' -> exists i, a = Step i) /\ run s l' = Some s' /\ accs (log s') = accs (log s) /\ q s' = [] /\ Permutation (accs (log s')) (ends (log s')).
Proof.
  intros m l s M H U C NP. assert (Q : quiet s) by (intros i f k N; destruct (isq f) eqn:QF; [exfalso; apply NP; exists i, f, k; auto|reflexivity]). clear NP. revert Q. assert (I : V s) by (eapply reach_V; eauto). assert (R : G s) by (eapply reach_G; [exact M|exact H|split; assumption]). assert (GD : good s) by (split; assumption). clear l H U C.
  remember (size s) as n eqn:E. revert s E I R GD. induction n as [n IH] using lt_wf_ind. intros s E I R GD Q.
  destruct (cl tok (ag s)) eqn:T.
  - exists [], s. pose proof (v_pr _ I). pose proof (g_lo _ R). pose proof (v_cn _ I). destruct (all_done _ I R) as [A B]; [lia|]. repeat split; auto. intros a [].
  - assert (PK : exists i f k, nth_error (ag s) i = Some (f :: k) /\ isw f = true /\ (f = W2 -> pl (fl s) = false)).
    { destruct (pl (fl s)) eqn:P.
      - pose proof (v_pl _ I) as VP. rewrite P in VP. cbn [b1] in VP. destruct (cl_pos hold (ag s)) as (i & k & f & N & J & X); [lia|].
        assert (TF : tok f = 1 \/ cf f = 1) by (destruct f; cbn in *; auto; lia). destruct TF as [TF|TF].
        + destruct (quiet_tok _ _ _ _ I R Q N J) as (r & -> & W); [lia|]. exists i, f, r. split; [exact N|]. split; [exact W|]. intros ->. cbn in X. lia.
        + exfalso. pose proof (cl_ge cf _ _ _ N) as CG. assert (1 <= suml cf k) by (clear -J TF; induction k as [|g k IH]; [contradiction|]; cbn; destruct J as [->|J]; [lia|specialize (IH J); lia]). destruct (g_cf _ R) as [_ Z]; [lia|]. pose proof (g_hi _ R). pose proof (v_pr _ I). lia.
      - destruct (cl_pos tok (ag s)) as (i & k & f & N & J & X); [lia|]. destruct (quiet_tok _ _ _ _ I R Q N J X) as (r & -> & W). exists i, f, r. auto. }
    destruct PK as (i & f & k & N & W & P). destruct (drain_step _ _ _ _ I R GD Q N W P) as (s1 & E1 & GD1 & Q1 & A1 & L1).
    destruct (IH (size s1)) with (s := s1) as (l' & s' & X1 & X2 & X3 & X4 & X5); [lia|reflexivity|eapply exec_V; eauto|eapply exec_G; eauto|exact GD1|exact Q1|].
    exists (Step i :: l'), s'. split; [intros a [<-|J]; [eauto|auto]|]. split; [cbn [run]; rewrite E1; exact X2|]. split; [congruence|]. auto.
Qed.
(** A second reference of the user keeps IsShared true. *)
Theorem C83_shared : forall m l s a s', (1 <= m < PW)%Z -> run (init m) l = Some s -> 2 <= us s -> exec s a = Some s' -> exists e, log s' = log s ++ e /\ ~ In EAlone e.
Proof.
  intros m l s a s' M H U E. pose proof (reach_V _ _ _ M H) as I. pose proof (rc_us _ I) as R. assert (SH : shared s = true) by (apply Nat.ltb_lt; lia).
  assert (NIL : forall (x : list event), x = x ++ [] /\ ~ In EAlone []) by (intros x; split; [symmetry; apply app_nil_r|intros []]).
  destruct a as [i|t| | |i|x| |]; cbn [exec] in E.
  - destruct (nth_error (ag s) i) as [[|f k]|]; try discriminate. destruct (fre s); [injection E as <-; exists []; apply NIL|].
    cases E; un; try (exists []; apply NIL); try congruence; (eexists; split; [reflexivity|]; intros J; cbn in J; decompose [or] J; try discriminate; try contradiction).
  - destruct (Nat.eqb (us s) 0); [discriminate|]. injection E as <-. exists []. apply NIL.
  - destruct (Nat.eqb (us s) 0); [discriminate|]. injection E as <-. exists []. apply NIL.
  - destruct (Nat.eqb (us s) 0); [discriminate|]. injection E as <-. exists [EInt]. split; [reflexivity|]. intros [J|[]]; discriminate.
  - destruct (nth_error (ag s) i) as [[|[] k]|]; try discriminate. injection E as <-. exists [EFail]. split; [reflexivity|]. intros [J|[]]; discriminate.
  - destruct (Nat.eqb (us s) 0 || _); [discriminate|]. injection E as <-. exists []. apply NIL.
  - destruct (Nat.eqb (us s) 0); [discriminate|]. injection E as <-. exists []. apply NIL.
  - destruct (us s) as [|[|n]]; [discriminate|lia|]. injection E as <-. exists []. apply NIL.
Qed.
(** A user with one reference posts task 1 and waits for it; the worker then finds IsShared false, cleans up
    and stops the runner: the next task is refused although nobody stopped the runner. *)
Theorem C83_refuted : match run (init 4) ([Post 1] ++ to 0 8 ++ to 1 14 ++ [Post 2] ++ to 2 1) with
  | Some s => In (ERej 2) (log s) /\ ~ In EInt (log s) /\ ~ In EJoin (log s) /\ ~ In EFail (log s) /\ us s = 1 /\ ag s = [[]; []; []]
  | None => False end.
Proof. vm_compute. intuition discriminate. Qed.
(** Two threads post; the first has been counted but has not yet taken a reference for its worker, so the
    worker of the second finds IsShared false and cancels both tasks. *)
Theorem C83_race_refuted : match run (init 4) ([Post 1; Post 2] ++ to 0 6 ++ to 1 8 ++ to 2 7 ++ to 0 2 ++ to 3 20) with
  | Some s => starts (log s) = [] /\ takes (log s) = [1; 2] /\ us s = 1 | None => False end.
Proof. vm_compute. repeat split. Qed.
(** With two references of the user: the only worker finds the queue empty between the count of task 2 and
    its Push and leaves; task 2 stays in the queue and nobody will run it. *)
Theorem C83_lost_refuted : match run (init 1) ([Copy; Post 1] ++ to 0 8 ++ [Post 2] ++ to 2 4 ++ to 1 18 ++ to 2 3) with
  | Some s => q s = [2] /\ ag s = [[]; []; []] /\ sp (fl s) = false /\ us s = 2 /\ accs (log s) = [1; 2] /\ ends (log s) = [1]
  | None => False end.
Proof. vm_compute. repeat split. Qed.

(** * C84: lifetime *)
(** While the user keeps a reference, the runner is neither destroyed nor used after that.  Missing: the
    workers that outlive the last reference of the user. *)
Theorem C84_partial : forall m l s, (1 <= m < PW)%Z -> run (init m) l = Some s -> us s <> 0 -> fre s = false /\ uaf s = false.
Proof. intros m l s M H U. pose proof (alive _ (reach_V _ _ _ M H) U). tauto. Qed.
(** At rest, the reference count is what the user holds and one more for each time the last worker left by
    line 358; so a dropped runner is destroyed iff that never happened. *)
Theorem C84_exact : forall m l s, (1 <= m < PW)%Z -> run (init m) l = Some s -> idle s -> rc s = us s + zeros (log s) /\ (us s = 0 -> (fre s = true <-> zeros (log s) = 0)).
Proof.
  intros m l s M H D. pose proof (reach_V _ _ _ M H) as I. pose proof (v_rc _ I) as R. pose proof (v_pr _ I) as P. rewrite (cl_idle _ _ D) in P. rewrite P, !(cl_idle _ _ D) in R. cbn [b1 Z.ltb Z.compare Z.of_nat] in R. assert (RC : rc s = us s + zeros (log s)) by lia. split; [assumption|].
  intros U. pose proof (v_dt _ I) as DT. rewrite (cl_idle _ _ D) in DT. destruct (Nat.eqb_spec (rc s) 0); destruct (fre s); cbn [b1] in DT; split; intros; try lia; try reflexivity; discriminate.
Qed.
(** The destructor runs once. *)
Theorem C84_once : forall m l s, (1 <= m < PW)%Z -> run (init m) l = Some s -> cl dt (ag s) + b1 (fre s) <= 1.
Proof. intros m l s M H. pose proof (v_dt _ (reach_V _ _ _ M H)). destruct (Nat.eqb (rc s) 0); lia. Qed.
(** The user drops the runner before the worker looks at IsShared: the worker leaves by line 358 without
    Release and the runner is never destroyed. *)
Theorem C84_leak_refuted : match run (init 4) ([Post 1] ++ to 0 8 ++ [Drop] ++ to 1 8) with
  | Some s => ag s = [[]; []] /\ us s = 0 /\ fre s = false /\ rc s = 1 /\ takes (log s) = [1] /\ starts (log s) = [] | None => False end.
Proof. vm_compute. repeat split. Qed.
(** The user drops the runner while the worker runs the last task: the worker's Release destroys the runner
    and the worker goes on to ask IsShared of it. *)
Theorem C84_use_refuted : match run (init 4) ([Post 1] ++ to 0 8 ++ to 1 7 ++ [Drop] ++ to 1 8) with
  | Some s => fre s = true /\ uaf s = true /\ ends (log s) = [1] | None => False end.
Proof. vm_compute. repeat split. Qed.

(** * C85: Join *)
Lemma join_step : forall s a s', V s -> exec s a = Some s' -> (exists e, log s' = log s ++ e /\ ~ In EJoin e) \/ (log s' = log s ++ [EJoin] /\ us s <> 0 /\ cn (fl s) = 0%Z /\ sp (fl s') = true).
Proof.
  intros s a s' I E. assert (NIL : forall (x : list event), x = x ++ [] /\ ~ In EJoin []) by (intros x; split; [symmetry; apply app_nil_r|intros []]).
  destruct a as [i|t| | |i|x| |]; cbn [exec] in E.
  - destruct (nth_error (ag s) i) as [[|f k]|] eqn:N; try discriminate. destruct (fre s); [injection E as <-; left; exists []; apply NIL|].
    assert (UU : isp f = true -> k = [] -> us s <> 0) by (intros A -> U; pose proof (v_us _ I U _ _ N) as X; cbn in X; congruence). pose proof (v_sh _ I _ _ N) as SH. cbn [shape] in SH.
    cases E; un; try (left; exists []; apply NIL); try (left; eexists; split; [reflexivity|]; intros J; cbn in J; decompose [or] J; try discriminate; try contradiction; fail).
    + right. repeat split; auto. apply Z.eqb_eq. assumption.
    + right. match goal with H : feq _ _ = true |- _ => apply feq_eq in H; rewrite H end. repeat split; auto.
  - destruct (Nat.eqb (us s) 0); [discriminate|]. injection E as <-. left. exists []. apply NIL.
  - destruct (Nat.eqb (us s) 0); [discriminate|]. injection E as <-. left. exists []. apply NIL.
  - destruct (Nat.eqb (us s) 0); [discriminate|]. injection E as <-. left. exists [EInt]. split; [reflexivity|]. intros [J|[]]; discriminate.
  - destruct (nth_error (ag s) i) as [[|[] k]|]; try discriminate. injection E as <-. left. exists [EFail]. split; [reflexivity|]. intros [J|[]]; discriminate.
  - destruct (Nat.eqb (us s) 0 || _); [discriminate|]. injection E as <-. left. exists []. apply NIL.
  - destruct (Nat.eqb (us s) 0); [discriminate|]. injection E as <-. left. exists []. apply NIL.
  - destruct (us s) as [|[|n]]; [discriminate| |injection E as <-; left; exists []; apply NIL]. destruct (existsb user (ag s)); [discriminate|]. destruct (Nat.eqb _ 1); injection E as <-; left; exists []; apply NIL.
Qed.
Lemma sp_stays : forall s a s', exec s a = Some s' -> sp (fl s) = true -> sp (fl s') = true /\ exists e, log s' = log s ++ e /\ (calm e -> accs e = []).
Proof.
  intros s a s' E S. destruct a as [i|t| | |i|x| |]; cbn [exec] in E.
  - destruct (nth_error (ag s) i) as [[|f k]|] eqn:N; try discriminate. destruct (fre s); [injection E as <-; split; [exact S|exists []; split; [symmetry; apply app_nil_r|reflexivity]]|].
    cases E; un; cbn [sp bump sunk w_lk w_sp w_it w_pl w_cn w_pr]; (split; [assumption || reflexivity|]); first [exists []; split; [symmetry; apply app_nil_r|reflexivity] | eexists; split; [reflexivity|]; intros C; try reflexivity; specialize (C _ (or_introl eq_refl)); cbn in C; rewrite S in C; discriminate].
  - destruct (Nat.eqb (us s) 0); [discriminate|]. injection E as <-. split; [exact S|exists []; split; [symmetry; apply app_nil_r|reflexivity]].
  - destruct (Nat.eqb (us s) 0); [discriminate|]. injection E as <-. split; [exact S|exists []; split; [symmetry; apply app_nil_r|reflexivity]].
  - destruct (Nat.eqb (us s) 0); [discriminate|]. injection E as <-. split; [reflexivity|exists [EInt]; split; reflexivity].
  - destruct (nth_error (ag s) i) as [[|[] k]|]; try discriminate. injection E as <-. split; [exact S|exists [EFail]; split; reflexivity].
  - destruct (Nat.eqb (us s) 0 || _); [discriminate|]. injection E as <-. split; [exact S|exists []; split; [symmetry; apply app_nil_r|reflexivity]].
  - destruct (Nat.eqb (us s) 0); [discriminate|]. injection E as <-. split; [exact S|exists []; split; [symmetry; apply app_nil_r|reflexivity]].
  - destruct (us s) as [|[|n]]; [discriminate| |injection E as <-; split; [exact S|exists []; split; [symmetry; apply app_nil_r|reflexivity]]]. destruct (existsb user (ag s)); [discriminate|]. destruct (Nat.eqb _ 1); injection E as <-; (split; [exact S|exists []; split; [symmetry; apply app_nil_r|reflexivity]]).
Qed.
Lemma split_last : forall (l1 l2 l e : list event) x, l1 ++ x :: l2 = l ++ e -> ~ In x e -> exists l2', l = l1 ++ x :: l2' /\ l2 = l2' ++ e.
Proof.
  induction l1 as [|y l1 IH]; intros l2 l e x H NI.
  - destruct l as [|z l]; cbn in H; [subst e; contradiction NI; left; reflexivity|]. injection H as -> ->. exists l. auto.
  - destruct l as [|z l]; cbn in H; [subst e; contradiction NI; right; apply in_or_app; right; left; reflexivity|]. injection H as -> H. destruct (IH _ _ _ _ H NI) as (l2' & -> & ->). exists l2'. auto.
Qed.
(** When Join returns S_OK, every task accepted so far has run to its end, if nothing out of the ordinary
    happened; and as long as nothing does, no task is accepted later.  Missing: [odd] events. *)
Theorem C85_partial : forall m l s l1 l2, (1 <= m < PW)%Z -> run (init m) l = Some s -> log s = l1 ++ EJoin :: l2 -> calm l1 -> Permutation (accs l1) (ends l1) /\ (calm l2 -> accs l2 = []).
Proof.
  intros m l. assert (X : forall s l1 l2, (1 <= m < PW)%Z -> run (init m) l = Some s -> log s = l1 ++ EJoin :: l2 -> calm l1 -> (Permutation (accs l1) (ends l1) /\ (calm l2 -> accs l2 = [])) /\ sp (fl s) = true).
  { induction l as [|a l IH] using rev_ind; intros s l1 l2 M H L C.
    - cbn in H. injection H as <-. destruct l1; discriminate.
    - apply run_snoc in H. destruct H as (s1 & H & E). pose proof (reach_V _ _ _ M H) as I. destruct (join_step _ _ _ I E) as [(e & L' & NJ)|(L' & U & Z & S)].
      + assert (L2 : l1 ++ EJoin :: l2 = log s1 ++ e) by congruence. destruct (split_last _ _ _ _ _ L2 NJ) as (l2' & L3 & ->). destruct (IH _ _ _ M H L3 C) as [[A B] S]. destruct (sp_stays _ _ _ E S) as [S' (e' & L4 & AC)]. split; [|assumption].
        split; [assumption|]. intros C2. apply calm_app in C2. destruct C2 as [C2 C3]. assert (e' = e) by (rewrite L' in L4; apply app_inv_head in L4; auto). subst e'. rewrite accs_app, (B C2), (AC C3). reflexivity.
      + split; [|assumption]. destruct l2 as [|x l2].
        * assert (L3 : l1 ++ [EJoin] = log s1 ++ [EJoin]) by congruence. apply app_inj_tail in L3. destruct L3 as [-> _]. split; [|reflexivity]. apply all_done; auto. apply (reach_G _ _ _ M H). split; assumption.
        * destruct (exists_last (l := x :: l2)) as (l3 & y & EQ); [discriminate|]. rewrite EQ in L. assert (L3 : (l1 ++ EJoin :: l3) ++ [y] = log s1 ++ [EJoin]) by (rewrite <- app_assoc; cbn; congruence). apply app_inj_tail in L3. destruct L3 as [L3 ->].
          destruct (IH _ _ _ M H (eq_sym L3) C) as [[A B] S']. split; [assumption|]. rewrite EQ. intros C2. apply calm_app in C2. rewrite accs_app, B by apply C2. reflexivity. }
  intros s l1 l2 M H L C. apply (X s l1 l2 M H L C).
Qed.
(** A thread past the check for bStopWakeup has its task accepted after Join returned. *)
Theorem C85_refuted : match run (init 4) ([Copy; Post 1] ++ to 0 2 ++ [Join] ++ to 1 1 ++ to 0 6 ++ to 2 7) with
  | Some s => log s = [EJoin; EAcc 1 true; EPush 1; EStart 1; EEnd 1] | None => False end.
Proof. vm_compute. reflexivity. Qed.
(** After Interrupt, a worker that leaves cleans up and Join returns while another worker runs a task. *)
Theorem C85_int_refuted : match run (init 4) ([Copy; Post 1] ++ to 0 8 ++ to 1 6 ++ [Post 2] ++ to 2 8 ++ [Interrupt; Join] ++ to 4 1 ++ to 3 10 ++ to 4 1) with
  | Some s => log s = [EAcc 1 false; EPush 1; EStart 1; EAcc 2 false; EPush 2; EInt; ECan 2; ECln] ++ [EJoin] | None => False end.
Proof. vm_compute. reflexivity. Qed.

(** * Concrete cases *)
Definition calmb (l : list event) : bool := forallb (fun e => negb (odd e)) l.
Lemma calmb_ok : forall l, calmb l = true -> calm l.
Proof. intros l H e J. unfold calmb in H. rewrite forallb_forall in H. specialize (H _ J). apply negb_true_iff in H. exact H. Qed.
(** Three posters, limit 2: two tasks run, the third waits. *)
Definition exA : list act := [Copy; Post 1; Post 2; Post 3] ++ to 0 8 ++ to 1 8 ++ to 2 7 ++ to 3 6 ++ to 4 6.
Definition exB : list act := to 3 14 ++ to 4 7.
Example C61_case : match run (init 2) exA with Some s => running s = 2 /\ q s = [3] /\ pr (fl s) = 2%Z /\ starts (log s) = [1; 2] | None => False end.
Proof. vm_compute. repeat split. Qed.
Example C61_case_lock : match run (init 2) ([Copy; Post 1; Post 2] ++ to 0 4 ++ to 1 4) with Some s => ag s = [[P4 1 true true]; [P2 2 2]] /\ log s = [EAcc 1 false] | None => False end.
Proof. vm_compute. repeat split. Qed.
Example C83_case : match run (init 2) exA with Some s => us s = 2 /\ calmb (log s) = true /\ q s = [3] /\ ag s = [[]; []; []; [W4 1; T0]; [W4 2; T0]] | None => False end.
Proof. vm_compute. repeat split. Qed.
Example C83_case_rest : match run (init 2) (exA ++ exB) with Some s => us s = 2 /\ calmb (log s) = true /\ ag s = [[]; []; []; []; []] /\ ends (log s) = [1; 3; 2] /\ sp (fl s) = false | None => False end.
Proof. vm_compute. repeat split. Qed.
Example C84_case : match run (init 2) (exA ++ exB ++ [Drop; Drop] ++ to 5 4) with Some s => us s = 0 /\ fre s = true /\ uaf s = false /\ zeros (log s) = 0 | None => False end.
Proof. vm_compute. repeat split. Qed.
Example C85_case : match run (init 2) (exA ++ [Join] ++ to 5 1 ++ to 3 15 ++ to 4 11 ++ to 5 1) with Some s => calmb (log s) = true /\ last (log s) EInt = EJoin /\ accs (log s) = [1; 2; 3] /\ ends (log s) = [1; 3; 2] /\ us s = 2 | None => False end.
Proof. vm_compute. repeat split. Qed.

Print Assumptions C61_limit.
Print Assumptions C61_once.
Print Assumptions C61_distinct.
Print Assumptions C61_order.
Print Assumptions C61_pop.
Print Assumptions C61_push_partial.
Print Assumptions C61_push_refuted.
Print Assumptions C83_partial.
Print Assumptions C83_rest_partial.
Print Assumptions C83_drains.
Print Assumptions C83_shared.
Print Assumptions C83_refuted.
Print Assumptions C83_race_refuted.
Print Assumptions C83_lost_refuted.
Print Assumptions C84_partial.
Print Assumptions C84_exact.
Print Assumptions C84_once.
Print Assumptions C84_leak_refuted.
Print Assumptions C84_use_refuted.
Print Assumptions C85_partial.
Print Assumptions C85_refuted.
Print Assumptions C85_int_refuted.
