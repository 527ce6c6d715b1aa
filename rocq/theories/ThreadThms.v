(** Theorems about ThreadTaskRunnerImpl (ThreadModel.v). *)
From Coq Require Import Lia List ZArith Bool Arith.
From Verif Require Import Slots SlotsProofs Threads ThreadModel ThreadProofs ThreadInv.
Import ListNotations.
Local Open Scope Z_scope.
Local Opaque CW W32.

(** ** C87: order *)
(** Tasks leave the queue in the order in which they were pushed, each once; a task that starts while
    another runs ends before it. *)
Theorem C87_fifo : forall p b l s, run (init p b) l = Some s ->
  pushed (log s) = taken (log s) ++ q s /\ nest [] (log s) = Some (tasks (rs s)).
Proof. intros p b l s R. exact (run_F _ _ _ R (F_init p b)). Qed.
(** Until CleanupTaskQueue, posts succeed in the order of their pushes; at most one is still to be counted. *)
Theorem C87_accepted : forall p b l s, run (init p b) l = Some s -> ~ In ECln (log s) ->
  exists r, pushed (log s) = accs (log s) ++ r /\ (length r <= 1)%nat.
Proof.
  intros p b l s R N. exists (fly (ag s)). split; [apply (run_Acc _ _ _ R N (Lk_init p b)); reflexivity|].
  rewrite fly_len. destruct (run_Lk _ _ _ R N (Lk_init p b)) as (_ & L). pose proof (sum_inadd_le (ag s)). destruct (lk (fl s)); cbn in L; lia.
Qed.
(** Until then two threads never push at once. *)
Theorem C87_exclusive_partial : forall p b l s i j a c, run (init p b) l = Some s -> ~ In ECln (log s) ->
  nth_error (ag s) i = Some a -> nth_error (ag s) j = Some c -> hold a = 1%nat -> hold c = 1%nat -> i = j.
Proof.
  intros p b l s i j a c R N A C HA HC. destruct (Nat.eq_dec i j) as [|D]; [assumption|exfalso].
  destruct (run_Lk _ _ _ R N (Lk_init p b)) as (_ & L). pose proof (suml_two _ hold _ _ _ _ _ D A C). destruct (lk (fl s)); cbn in L; lia.
Qed.
(** The loop of a background runner from its start to its sleep, and from a message to its end. *)
Definition to_sleep : list act := [Enter; Move; Move; Move; Move].
Definition to_end : list act := [Input; Move; Move; Move; Move; Move; Move; Move].
Definition race : list act := [Post 1; Step 0; Step 0; Post 2; Step 1] ++ to_sleep ++ [Interrupt] ++ to_end.
(** CleanupTaskQueue clears the lock under a thread that is pushing: two threads push at once. *)
Theorem C87_exclusive_refuted : exists l s, run (init true true) l = Some s /\
  nth_error (ag s) 0 = Some (P2 1) /\ nth_error (ag s) 1 = Some (P2 2).
Proof. exists (race ++ [Step 1]). eexists. split; [vm_compute; reflexivity|]. vm_compute. auto. Qed.
Example ex_C87 :
  match run (init true true) ([Post 1; Step 0; Step 0; Step 0; Step 0; Enter; Move; Move; Move; Move; Move; Post 2; Step 1; Step 1; Step 1; Step 1; Enter; Move; Move; Move; Move; Move; Ret]) with
  | Some s => log s = [EPush 1; EAcc 1; EStart 1; EPush 2; EAcc 2; EStart 2; EEnd 2] /\ tasks (rs s) = [1%nat]
  | None => False
  end.
Proof. vm_compute. auto. Qed.

(** ** C88: no task is forgotten *)
(** The loop waits for a message and there is none. *)
Definition asleep (s : st) : Prop := match rs s with Lp _ Z0 :: _ => mq s = O /\ qt s = false | _ => False end.
(** A post that has counted its task has also sent its message. *)
Definition settled (s : st) : Prop := forall i a, nth_error (ag s) i = Some a -> match a with P4 _ | P5 => False | _ => True end.
Lemma counts : forall p b l s, run (init p b) l = Some s -> clean (log s) ->
  Inv s /\ F s /\ Acc s /\ Z.of_nat (length (accs (log s))) = Z.of_nat (length (starts (log s))) + cn (fl s) - runs (rs s) - pd s.
Proof.
  intros p b l s R C. pose proof (run_inv _ _ _ R C (Inv_init p b)) as I. pose proof (run_F _ _ _ R (F_init p b)) as FF.
  assert (A : Acc s) by (apply (run_Acc _ _ _ R (proj2 (proj2 (proj2 C))) (Lk_init p b)); reflexivity).
  split; [assumption|split; [assumption|split; [assumption|]]].
  pose proof (i_c _ I) as IC. destruct FF as (P & _). unfold Acc in A.
  pose proof (f_equal (@length nat) P) as P'. pose proof (f_equal (@length nat) A) as A'. rewrite app_length in P', A'. rewrite fly_len in A'.
  assert (T : Z.of_nat (length (taken (log s))) = Z.of_nat (length (starts (log s))) + ncan (log s)).
  { clear. induction (log s) as [|e l IH]; [reflexivity|]. change (e :: l) with ([e] ++ l). rewrite taken_app, starts_app, ncan_app, !app_length.
    destruct e; cbn [taken starts flat_map length app]; try (change (ncan [_]) with 0 in *; lia). change (ncan [ECan t]) with 1. cbn [length]. lia. }
  lia.
Qed.
Lemma prefix_eq : forall (a b c d : list nat), a ++ b = c ++ d -> length a = length c -> a = c.
Proof. induction a as [|x a IH]; intros b [|y c] d E L; try discriminate L; [reflexivity|]. cbn in *. injection E as -> E. f_equal. eapply IH; [exact E|lia]. Qed.
Lemma len_starts : forall p b l s, run (init p b) l = Some s -> clean (log s) -> ~ clr (rs s) -> cn (fl s) = runs (rs s) + pd s -> accs (log s) = starts (log s).
Proof.
  intros p b l s R C NC E. destruct (counts _ _ _ _ R C) as (I & (P & _) & A & N).
  assert (Z0 : ncan (log s) = 0) by (destruct (i_k _ I); [assumption|contradiction]).
  unfold Acc in A. rewrite P, (taken_starts _ Z0) in A. symmetry. eapply prefix_eq; [exact A|lia].
Qed.
(** When the loop sleeps, every accepted task has been started. *)
Theorem C88_partial : forall p b l s, run (init p b) l = Some s -> clean (log s) -> asleep s -> settled s ->
  accs (log s) = starts (log s).
Proof.
  intros p b l s R C SL SE. destruct (counts _ _ _ _ R C) as (I & _).
  unfold asleep in SL. pose proof (i_e _ I) as K. unfold kn in K.
  destruct (rs s) as [|[b' x| | | | | | | | ] k] eqn:RS; try contradiction. destruct x; try contradiction. cbn in K. destruct SL as (MQ & _).
  apply (len_starts _ _ _ _ R C); [rewrite RS; intros []|]. rewrite RS. cbn [runs]. destruct K as (_ & PD & [K|K]); [lia|exfalso].
  destruct K as [K|[(i & K)|(i & m & K & _)]]; [lia|exact (SE _ _ K)|exact (SE _ _ K)].
Qed.
Definition posting (t i : nat) : list act := [Post t; Step i; Step i; Step i; Step i; Step i; Step i].
(** Not when a message's callback has entered the loop: the accepted task is taken for the running one. *)
Theorem C88_nest_refuted : exists l s, run (init true true) l = Some s /\ asleep s /\ settled s /\
  In 7%nat (accs (log s)) /\ starts (log s) = [] /\ ~ In EEat (log s) /\ ~ In EFull (log s) /\ ~ In ECln (log s).
Proof.
  exists (to_sleep ++ [Input; Move; Move; Move; Move; Enter] ++ posting 7 0 ++ [Move; Move; Move; Move; Move; Move; Move; Move; Ret; Move; Move; Move; Move; Move; Move; Move]).
  eexists. split; [vm_compute; reflexivity|]. split; [vm_compute; auto|].
  split; [intros [|[|i]] a G; vm_compute in G; try discriminate; injection G as <-; exact I|].
  split; [vm_compute; auto|]. split; [reflexivity|]. repeat split; intros H; vm_compute in H; intuition discriminate.
Qed.
(** Not when a timer's callback has removed the message. *)
Theorem C88_eat_refuted : exists l s, run (init true true) l = Some s /\ asleep s /\ settled s /\
  In 7%nat (accs (log s)) /\ starts (log s) = [] /\ ~ In ENest (log s) /\ ~ In EFull (log s) /\ ~ In ECln (log s).
Proof.
  exists ([Enter; Move; Move; Timer] ++ posting 7 0 ++ [Eat; Ret; Move; Move]).
  eexists. split; [vm_compute; reflexivity|]. split; [vm_compute; auto|].
  split; [intros [|[|i]] a G; vm_compute in G; try discriminate; injection G as <-; exact I|].
  split; [vm_compute; auto|]. split; [reflexivity|]. repeat split; intros H; vm_compute in H; intuition discriminate.
Qed.
Example ex_C88 :
  match run (init true true) (to_sleep ++ posting 7 0 ++ [Move; Move; Move; Move; Ret; Move; Move; Move; Move; Move; Move; Move; Move; Ret; Move; Move; Move]) with
  | Some s => asleep s /\ starts (log s) = [7%nat] /\ ends (log s) = [7%nat]
  | None => False
  end.
Proof. vm_compute. auto. Qed.

(** ** C88: progress *)
Lemma run_app : forall l m s, run s (l ++ m) = match run s l with Some s' => run s' m | None => None end.
Proof. induction l as [|a l IH]; intros m s; cbn; [reflexivity|]. destruct (exec s a); [apply IH|reflexivity]. Qed.
(** The loop alone: its own steps and returns of callbacks. *)
Definition own (a : act) : Prop := a = Move \/ a = Ret.
Definition reach (n : nat) (s : st) (P : st -> Prop) : Prop := exists l s', Forall own l /\ (length l <= n)%nat /\ run s l = Some s' /\ P s'.
Lemma reach_here : forall n s (P : st -> Prop), P s -> reach n s P.
Proof. intros n s P H. exists [], s. repeat split; auto. cbn. lia. Qed.
Lemma reach_move : forall n s s' P, move s = Some s' -> reach n s' P -> reach (S n) s P.
Proof.
  intros n s s' P M (l & s2 & A & B & C & D). exists (Move :: l), s2. split; [constructor; [left; reflexivity|assumption]|].
  split; [cbn; lia|]. split; [cbn [run exec]; rewrite M; exact C|exact D].
Qed.
Lemma reach_ret : forall n s s' P, ret s = Some s' -> reach n s' P -> reach (S n) s P.
Proof.
  intros n s s' P M (l & s2 & A & B & C & D). exists (Ret :: l), s2. split; [constructor; [right; reflexivity|assumption]|].
  split; [cbn; lia|]. split; [cbn [run exec]; rewrite M; exact C|exact D].
Qed.
Lemma reach_le : forall n m s P, (n <= m)%nat -> reach n s P -> reach m s P.
Proof. intros n m s P L (l & s2 & A & B & C & D). exists l, s2. repeat split; auto. lia. Qed.
(** What the walk of the loop needs of the state. *)
Record Go (s : st) (b : bool) (x : pc) (k : list frame) (t : nat) : Prop := {
  g_rs : rs s = Lp b x :: k; g_sh : (1 < us s + (match id s with Zero => 1 | _ => 0 end) + loops (rs s))%nat;
  g_it : it (fl s) = false; g_qt : qt s = false; g_q : exists r, q s = t :: r;
  g_cn : 0 <= cn (fl s) <= CW - 4; g_re : re s = runs k + 1; g_r : 0 <= runs k;
  g_pd : 0 <= pd s; g_c : runs k < cn (fl s) - pd s; g_pn : runs k <= pn s; g_pc : pn s + pd s <= cn (fl s) }.
Lemma Go_shared : forall s b x k t, Go s b x k t -> shared s = true.
Proof. intros s b x k t G. unfold shared, refs. apply Nat.ltb_lt. exact (g_sh _ _ _ _ _ G). Qed.
Definition begun (t : nat) (s s' : st) : Prop := log s' = log s ++ [EStart t].
Lemma go_to : forall s b x y k t, Go s b x k t -> Go (w_rs s (Lp b y :: k)) b y k t.
Proof. intros s b x y k t [A B C D E F1 F2 F3 F4 F5 F6 F7]. constructor; cbn; auto. rewrite A in B. exact B. Qed.
Lemma begun_w : forall t s k s', begun t (w_rs s k) s' -> begun t s s'. Proof. intros t s k s' H. exact H. Qed.
Lemma at_G0 : forall s b k t, Go s b G0 k t -> reach 1 s (begun t s).
Proof.
  intros s b k t G. destruct (g_q _ _ _ _ _ G) as (r & Q). eapply reach_move; [unfold move; rewrite (g_rs _ _ _ _ _ G), Q; reflexivity|].
  apply reach_here. reflexivity.
Qed.
Lemma at_Q0 : forall s b k t, Go s b Q0 k t -> pn s <> runs k -> reach 4 s (begun t s).
Proof.
  intros s b k t G N. pose proof (g_rs _ _ _ _ _ G) as R.
  assert (E : (re s - 1) mod W32 = runs k) by (destruct G; rewrite Z.mod_small; rewrite ?W32v, ?CWv in *; lia).
  assert (M : move s = Some (w_rs s (Lp b (if b then K0 else G0) :: k))).
  { unfold move. rewrite R, E. destruct (Z.eqb_spec (pn s) (runs k)); [contradiction|]. reflexivity. }
  eapply reach_move; [exact M|]. destruct b.
  - pose proof (go_to _ _ _ K0 _ _ G) as G1. eapply reach_move; [unfold move; cbn [rs w_rs]; rewrite (Go_shared _ _ _ _ _ G1); reflexivity|].
    pose proof (go_to _ _ _ K1 _ _ G1) as G2. eapply reach_move; [unfold move; cbn [rs w_rs fl]; rewrite (g_it _ _ _ _ _ G); reflexivity|].
    exact (at_G0 _ _ _ _ (go_to _ _ _ G0 _ _ G2)).
  - apply (reach_le 1); [lia|]. exact (at_G0 _ _ _ _ (go_to _ _ _ G0 _ _ G)).
Qed.
Lemma at_N0 : forall s b k t, Go s b N0 k t -> reach 7 s (begun t s).
Proof.
  intros s b k t G. pose proof (g_rs _ _ _ _ _ G) as R.
  assert (V : (cn (fl s) - pd s) mod W32 = cn (fl s) - pd s) by (destruct G; apply Z.mod_small; rewrite W32v, CWv in *; lia).
  set (s1 := w_rs (w_pn s (cn (fl s) - pd s)) (Lp b (if b then Q0 else K0) :: k)).
  assert (M : move s = Some s1) by (unfold move; rewrite R, V; reflexivity).
  assert (G1 : forall y, Go (w_rs s1 (Lp b y :: k)) b y k t).
  { destruct G as [A B C D E F1 F2 F3 F4 F5 F6 F7]. intros y. constructor; cbn; auto; try lia. rewrite A in B. exact B. }
  eapply reach_move; [exact M|]. destruct b.
  - apply (reach_le 4); [lia|]. apply (at_Q0 _ _ _ _ (G1 Q0)). destruct G. cbn. lia.
  - pose proof (G1 K0) as G2. assert (SH : shared s1 = true) by exact (Go_shared _ _ _ _ _ G2).
    eapply reach_move; [unfold move; change (rs s1) with (Lp false K0 :: k); cbv beta iota zeta; rewrite SH; reflexivity|].
    eapply reach_move; [unfold move, s1; cbn [rs w_rs fl w_pn]; rewrite (g_it _ _ _ _ _ G); reflexivity|].
    apply (at_Q0 _ _ _ _ (G1 Q0)). destruct G. cbn. lia.
Qed.
Lemma at_M0 : forall n s b k t, mq s = n -> Go s b M0 k t -> reach (4 * n + 10) s (begun t s).
Proof.
  induction n as [|n IH]; intros s b k t MQ G; pose proof (g_rs _ _ _ _ _ G) as R.
  - assert (M1' : reach 8 (w_rs s (Lp b M1 :: k)) (begun t s)).
    { eapply reach_move; [unfold move; cbn [rs w_rs mq qt]; rewrite MQ, (g_qt _ _ _ _ _ G); reflexivity|].
      exact (at_N0 _ _ _ _ (go_to _ _ _ N0 _ _ (go_to _ _ _ M1 _ _ G))). }
    destruct b.
    + eapply reach_move; [unfold move; rewrite R, (Go_shared _ _ _ _ _ G); reflexivity|].
      eapply reach_move; [unfold move; cbn [rs w_rs fl]; rewrite (g_it _ _ _ _ _ G); reflexivity|]. exact M1'.
    + eapply reach_move; [unfold move; rewrite R, (Go_shared _ _ _ _ _ G); reflexivity|]. apply (reach_le 8); [lia|exact M1'].
  - assert (G2 : Go (w_mq (w_rs s (Lp b M0 :: k)) n) b M0 k t).
    { pose proof (go_to _ _ _ M0 _ _ G) as [A B C D E F1 F2 F3 F4 F5 F6 F7]. constructor; auto. }
    assert (M1' : reach (4 * n + 12) (w_rs s (Lp b M1 :: k)) (begun t s)).
    { replace (4 * n + 12)%nat with (S (4 * n + 11)) by lia. eapply reach_move; [unfold move; cbn [rs w_rs mq]; rewrite MQ; reflexivity|].
      replace (4 * n + 11)%nat with (S (4 * n + 10)) by lia. eapply reach_ret; [reflexivity|]. exact (IH (w_mq (w_rs s (Lp b M0 :: k)) n) _ _ _ eq_refl G2). }
    destruct b.
    + replace (4 * S n + 10)%nat with (S (S (4 * n + 12))) by lia. eapply reach_move; [unfold move; rewrite R, (Go_shared _ _ _ _ _ G); reflexivity|].
      eapply reach_move; [unfold move; cbn [rs w_rs fl]; rewrite (g_it _ _ _ _ _ G); reflexivity|]. exact M1'.
    + replace (4 * S n + 10)%nat with (S (4 * n + 13)) by lia. eapply reach_move; [unfold move; rewrite R, (Go_shared _ _ _ _ _ G); reflexivity|]. apply (reach_le (4 * n + 12)); [lia|exact M1'].
Qed.
Lemma at_Z0 : forall s b k t, Go s b Z0 k t -> (0 < mq s)%nat -> reach (4 * mq s + 11) s (begun t s).
Proof.
  intros s b k t G MQ. replace (4 * mq s + 11)%nat with (S (4 * mq s + 10)) by lia.
  eapply reach_move; [unfold move; rewrite (g_rs _ _ _ _ _ G); replace (Nat.ltb 0 (mq s)) with true by (symmetry; apply Nat.ltb_lt; assumption); reflexivity|].
  exact (at_M0 _ _ _ _ _ eq_refl (go_to _ _ _ M0 _ _ G)).
Qed.
Lemma at_S0 : forall s b k t, Go s b S0 k t -> (0 < mq s)%nat \/ pd s <> 0 -> reach (4 * mq s + 13) s (begun t s).
Proof.
  intros s b k t G O. pose proof (g_rs _ _ _ _ _ G) as R. replace (4 * mq s + 13)%nat with (S (4 * mq s + 12)) by lia.
  destruct (Z.eqb_spec (pd s) 0) as [PD|PD].
  - destruct O as [O|O]; [|contradiction].
    eapply reach_move; [unfold move; rewrite R, PD; reflexivity|]. destruct b.
    + apply (reach_le (4 * mq s + 11)); [lia|]. exact (at_Z0 _ _ _ _ (go_to _ _ _ Z0 _ _ G) O).
    + replace (4 * mq s + 12)%nat with (S (4 * mq s + 11)) by lia. eapply reach_move; [reflexivity|].
      exact (at_Z0 _ _ _ _ (go_to _ _ _ Z0 _ _ (go_to _ _ _ T0 _ _ G)) O).
  - set (c := cn (fl s) - pd s) in *.
    assert (V : (cn (fl s) - pd s) mod CW = c) by (destruct G; apply Z.mod_small; rewrite CWv in *; lia).
    set (s1 := w_pn (w_pd (w_fl s (w_cn (fl s) c)) 0) c).
    assert (M : move s = Some (w_rs s1 (Lp b (if b then Q0 else M0) :: k))).
    { unfold move. rewrite R. destruct (Z.eqb_spec (pd s) 0); [contradiction|]. rewrite V. fold s1.
      destruct G as [A B C D E F1 F2 F3 F4 F5 F6 F7]. unfold c in *.
      destruct (Z.eqb_spec (cn (fl s) - pd s) 0); [lia|]. change (re s1) with (re s). rewrite F2. destruct (Z.leb_spec (runs k + 1) (cn (fl s) - pd s)); [reflexivity|lia]. }
    assert (G1 : forall y, Go (w_rs s1 (Lp b y :: k)) b y k t).
    { destruct G as [A B C D E F1 F2 F3 F4 F5 F6 F7]. unfold c in *. intros y. constructor; cbn; auto; try lia. rewrite A in B. exact B. }
    eapply reach_move; [exact M|]. destruct b.
    + apply (reach_le 4); [lia|]. apply (at_Q0 _ _ _ _ (G1 Q0)). destruct G. cbn. unfold c. lia.
    + apply (reach_le (4 * mq s + 10)); [lia|]. exact (at_M0 _ (w_rs s1 (Lp false M0 :: k)) _ _ _ eq_refl (G1 M0)).
Qed.
Lemma at_T0 : forall s b k t, Go s b T0 k t -> (0 < mq s)%nat \/ (b = true /\ pd s <> 0) -> reach (4 * mq s + 14) s (begun t s).
Proof.
  intros s b k t G O. pose proof (g_rs _ _ _ _ _ G) as R. replace (4 * mq s + 14)%nat with (S (4 * mq s + 13)) by lia.
  eapply reach_move; [unfold move; rewrite R; reflexivity|]. destruct b.
  - apply (at_S0 _ _ _ _ (go_to _ _ _ S0 _ _ G)). cbn. tauto.
  - apply (reach_le (4 * mq s + 11)); [lia|]. apply (at_Z0 _ _ _ _ (go_to _ _ _ Z0 _ _ G)). cbn. destruct O as [O|(O & _)]; [assumption|discriminate].
Qed.
Lemma at_any : forall s b x k t, Go s b x k t ->
  ((0 < mq s)%nat \/ match x with Z0 => False | T0 => b = true /\ pd s <> 0 | S0 | Q0 | K0 | K1 => pd s <> 0 \/ pn s <> runs k | _ => True end) ->
  (x = S0 \/ x = T0 -> pn s = runs k) -> reach (4 * mq s + 17) s (begun t s).
Proof.
  intros s b x k t G O PN.
  assert (Q : forall s, Go s b Q0 k t -> (0 < mq s)%nat \/ pd s <> 0 \/ pn s <> runs k -> reach (4 * mq s + 15) s (begun t s)).
  { clear. intros s G O. destruct (Z.eq_dec (pn s) (runs k)) as [E|E]; [|apply (reach_le 4); [lia|]; apply (at_Q0 _ _ _ _ G E)].
    assert (X : (re s - 1) mod W32 = runs k) by (destruct G; rewrite Z.mod_small; rewrite ?W32v, ?CWv in *; lia).
    replace (4 * mq s + 15)%nat with (S (4 * mq s + 14)) by lia.
    eapply reach_move; [unfold move; rewrite (g_rs _ _ _ _ _ G), X, E, Z.eqb_refl; reflexivity|].
    destruct b.
    - apply (at_T0 _ _ _ _ (go_to _ _ _ T0 _ _ G)). cbn. tauto.
    - apply (reach_le (4 * mq s + 13)); [lia|]. apply (at_S0 _ _ _ _ (go_to _ _ _ S0 _ _ G)). cbn. tauto. }
  assert (K : forall s, Go s b K1 k t -> (0 < mq s)%nat \/ pd s <> 0 \/ pn s <> runs k -> reach (4 * mq s + 16) s (begun t s)).
  { clear - Q. intros s G O. replace (4 * mq s + 16)%nat with (S (4 * mq s + 15)) by lia.
    eapply reach_move; [unfold move; rewrite (g_rs _ _ _ _ _ G), (g_it _ _ _ _ _ G); reflexivity|]. destruct b.
    - apply (reach_le 1); [lia|]. exact (at_G0 _ _ _ _ (go_to _ _ _ G0 _ _ G)).
    - apply (Q _ (go_to _ _ _ Q0 _ _ G)). exact O. }
  pose proof (g_rs _ _ _ _ _ G) as R. destruct x.
  - apply (reach_le (4 * mq s + 10)); [lia|]. exact (at_M0 _ _ _ _ _ eq_refl G).
  - assert (GM : Go (w_rs s (Lp b M1 :: k)) b M1 k t) by exact (go_to _ _ _ M1 _ _ G).
    replace (4 * mq s + 17)%nat with (S (4 * mq s + 16)) by lia. eapply reach_move; [unfold move; rewrite R, (g_it _ _ _ _ _ G); reflexivity|].
    destruct (mq s) as [|n] eqn:MQ.
    + eapply (reach_move 15); [unfold move; cbn [rs w_rs mq qt]; rewrite MQ, (g_qt _ _ _ _ _ G); reflexivity|].
      apply (reach_le 7); [lia|]. exact (at_N0 _ _ _ _ (go_to _ _ _ N0 _ _ GM)).
    + replace (4 * S n + 16)%nat with (S (S (4 * n + 18))) by lia. eapply reach_move; [unfold move; cbn [rs w_rs mq]; rewrite MQ; reflexivity|].
      eapply reach_ret; [reflexivity|]. apply (reach_le (4 * n + 10)); [lia|]. 
      refine (at_M0 n (w_mq (w_rs s (Lp b M0 :: k)) n) b k t eq_refl _). pose proof (go_to _ _ _ M0 _ _ G) as [A B C D E F1 F2 F3 F4 F5 F6 F7]. constructor; auto.
  - destruct (mq s) as [|n] eqn:MQ.
    + eapply (reach_move 16); [unfold move; rewrite R, MQ, (g_qt _ _ _ _ _ G); reflexivity|].
      apply (reach_le 7); [lia|]. exact (at_N0 _ _ _ _ (go_to _ _ _ N0 _ _ G)).
    + replace (4 * S n + 17)%nat with (S (S (4 * n + 19))) by lia. eapply reach_move; [unfold move; rewrite R, MQ; reflexivity|].
      eapply reach_ret; [reflexivity|]. apply (reach_le (4 * n + 10)); [lia|].
      refine (at_M0 n (w_mq (w_rs s (Lp b M0 :: k)) n) b k t eq_refl _). pose proof (go_to _ _ _ M0 _ _ G) as [A B C D E F1 F2 F3 F4 F5 F6 F7]. constructor; auto.
  - apply (reach_le 7); [lia|]. exact (at_N0 _ _ _ _ G).
  - replace (4 * mq s + 17)%nat with (S (4 * mq s + 16)) by lia.
    eapply reach_move; [unfold move; rewrite R, (Go_shared _ _ _ _ _ G); reflexivity|]. apply (K _ (go_to _ _ _ K1 _ _ G)). exact O.
  - apply (reach_le (4 * mq s + 16)); [lia|]. apply (K _ G). exact O.
  - apply (reach_le (4 * mq s + 15)); [lia|]. apply (Q _ G). exact O.
  - apply (reach_le (4 * mq s + 13)); [lia|]. apply (at_S0 _ _ _ _ G). rewrite PN in O by auto. tauto.
  - apply (reach_le (4 * mq s + 14)); [lia|]. exact (at_T0 _ _ _ _ G O).
  - apply (reach_le (4 * mq s + 11)); [lia|]. apply (at_Z0 _ _ _ _ G). tauto.
  - apply (reach_le 1); [lia|]. exact (at_G0 _ _ _ _ G).
Qed.
(** A loop with an accepted task starts the next one after its messages and at most 17 further steps. *)
Theorem C88_progress_partial : forall p b l s c x k, run (init p b) l = Some s -> clean (log s) -> settled s ->
  rs s = Lp c x :: k -> it (fl s) = false -> qt s = false -> (0 < us s)%nat -> accs (log s) <> starts (log s) ->
  exists t, reach (4 * mq s + 17) s (begun t s).
Proof.
  intros p b l s c x k R C SE RS IT QT US NE. destruct (counts _ _ _ _ R C) as (I & (P & _) & A & N).
  pose proof (i_wf _ I) as W. pose proof (i_re _ I) as E. pose proof (i_b _ I) as H. pose proof (i_cn _ I) as CN. pose proof (i_e _ I) as K. pose proof (i_k _ I) as NC.
  unfold kn in K. rewrite RS in W, E, H, K, N, NC. rewrite (cur_lps _ (c, x) W eq_refl) in E. cbn [runs cur] in *. pose proof (runs_nn k) as RN.
  destruct NC as [NC|[]].
  assert (GT : runs k < cn (fl s) - pd s).
  { destruct (Z.eq_dec (cn (fl s)) (runs k + pd s)) as [Q|Q]; [|lia]. exfalso. apply NE. apply (len_starts _ _ _ _ R C); rewrite RS; [intros []|exact Q]. }
  assert (QQ : exists t r, q s = t :: r).
  { unfold Acc in A. rewrite P, (taken_starts _ NC) in A. destruct (q s) as [|t r] eqn:Q; [exfalso|eauto].
    pose proof (f_equal (@length nat) A) as LA. rewrite !app_length in LA. cbn in LA. lia. }
  destruct QQ as (t & r & Q). exists t.
  assert (NW : forall r0, wake_in (mq s) (ag s) r0 -> (0 < mq s)%nat).
  { intros r0 [Z|[(i & Z)|(i & m & Z & _)]]; [assumption|destruct (SE _ _ Z)|destruct (SE _ _ Z)]. }
  apply (at_any s c x k t).
  - constructor; auto; try lia; [rewrite RS; cbn [loops isl]; lia|exists r; assumption].
  - destruct (Nat.eq_dec (mq s) 0) as [M|M]; [|left; lia]. right.
    assert (NW' : ~ wake_in (mq s) (ag s) (runs k)) by (intros Z; apply NW in Z; lia).
    destruct x; cbn in K; try exact Logic.I.
    + destruct (Z.eq_dec (pd s) 0); [right|auto]. intros PN. destruct K as (_ & K). destruct (K e PN); [lia|contradiction].
    + destruct (Z.eq_dec (pd s) 0); [right|auto]. intros PN. destruct K as (_ & K). destruct (K e PN); [lia|contradiction].
    + destruct (Z.eq_dec (pd s) 0); [right|auto]. intros PN. destruct (K e PN); [lia|contradiction].
    + left. intros PD. destruct K as (_ & K). destruct (K PD); [lia|contradiction].
    + destruct K as (_ & K1 & K2). destruct c; [split; [reflexivity|]|exfalso; destruct (K2 (K1 eq_refl)); [lia|contradiction]].
      intros PD. destruct (K2 PD); [lia|contradiction].
    + destruct K as (_ & PD & [K|K]); [lia|contradiction].
  - intros [-> | ->]; cbn in K; tauto.
Qed.
Example ex_C88_progress :
  match run (init true true) (to_sleep ++ posting 7 0) with
  | Some s => clean (log s) /\ accs (log s) = [7%nat] /\ starts (log s) = [] /\ rs s = [Lp true Z0] /\ mq s = 1%nat
  | None => False
  end.
Proof. vm_compute. intuition congruence. Qed.

(** ** C89: nested loops *)
(** Entered only by tasks of the queue, a loop never finds the queue empty when it takes a task. *)
Theorem C89_partial : forall p b l s, run (init p b) l = Some s -> clean (log s) -> ~ In ENull (log s).
Proof. intros p b l s R C. exact (i_n _ (run_inv _ _ _ R C (Inv_init p b))). Qed.
(** Entered by the callback of a message with no task pending, the loop turns for ever without looking
    at messages, whatever else happens, until a task is posted or the runner interrupted or dropped. *)
Definition quiet (a : act) : Prop := match a with Post _ | Interrupt | Drop => False | _ => True end.
Definition spin (k : list frame) (s : st) : Prop :=
  (exists x, (x = K0 \/ x = K1 \/ x = Q0 \/ x = G0) /\ rs s = Lp false x :: k) /\
  pn s = 0 /\ re s = 2 /\ q s = [] /\ it (fl s) = false /\ us s = 1%nat /\
  forall i a, nth_error (ag s) i = Some a -> match a with J0 | J1 | Idle => True | _ => False end.
Lemma spin_exec : forall k a s s', exec s a = Some s' -> quiet a -> spin k s -> spin k s'.
Proof.
  intros k a s s' E QA ((x & X & R) & PN & RE & Q & IT & US & AG).
  assert (SH : shared s = true) by (unfold shared, refs; rewrite US, R; destruct (id s); cbn [loops isl]; apply Nat.ltb_lt; lia).
  destruct a; cbn [exec] in E; try contradiction.
  - unfold move in E. rewrite R in E. destruct X as [->|[->|[->| ->]]]; cbv beta iota zeta in E.
    + rewrite SH in E. injection E as <-. split; [exists K1; auto|]. cbn. auto 10.
    + rewrite IT in E. injection E as <-. split; [exists Q0; auto|]. cbn. auto 10.
    + rewrite PN, RE in E. replace (0 =? (2 - 1) mod W32) with false in E by (rewrite W32v; reflexivity). injection E as <-. split; [exists G0; auto|]. cbn. auto 10.
    + rewrite Q in E. injection E as <-. split; [exists K0; auto|]. cbn. auto 10.
  - unfold ret in E. rewrite R in E. discriminate.
  - unfold enter in E. rewrite R in E. discriminate.
  - rewrite R in E. destruct X as [->|[->|[->| ->]]]; discriminate.
  - rewrite R in E. destruct X as [->|[->|[->| ->]]]; discriminate.
  - rewrite R in E. destruct (mq s); discriminate.
  - destruct (id s); try discriminate. injection E as <-. split; [exists x; auto|]. cbn. auto 10.
  - destruct (id s); try discriminate. injection E as <-. split; [exists x; auto|]. cbn. auto 10.
  - unfold step in E. destruct (nth_error (ag s) i) as [a|] eqn:G; [|discriminate]. pose proof (AG _ _ G) as AA.
    assert (AG' : forall y, match y with J0 | J1 | Idle => True | _ => False end -> forall j a0, nth_error (set (ag s) i y) j = Some a0 -> match a0 with J0 | J1 | Idle => True | _ => False end).
    { intros y Y j a0 J. destruct (nth_set _ _ _ _ _ _ J) as [(_ & ->)|(_ & J')]; [assumption|exact (AG _ _ J')]. }
    destruct a; try contradiction.
    + destruct (enc (fl s) <? 16); injection E as <-; (split; [exists x; auto|]); cbn; repeat (split; [assumption|]); apply AG'; exact I.
    + destruct (enc (fl s) =? 6); [|discriminate]. injection E as <-; (split; [exists x; auto|]); cbn; repeat (split; [assumption|]); apply AG'; exact I.
    + discriminate.
  - destruct (Nat.eqb (us s) 0); [discriminate|]. injection E as <-. split; [exists x; auto|]. cbn. repeat (split; [assumption|]).
    intros i a0 J. destruct (Nat.lt_ge_cases i (length (ag s))) as [L|L]; [rewrite nth_error_app1 in J by assumption; exact (AG _ _ J)|].
    rewrite nth_error_app2 in J by assumption. destruct (i - length (ag s))%nat as [|[|n]]; cbn in J; try discriminate. injection J as <-. exact I.
Qed.
Lemma spin_run : forall k l s s', run s l = Some s' -> Forall quiet l -> spin k s -> spin k s'.
Proof.
  intros k. induction l as [|a l IH]; intros s s' R Q S; cbn in R; [injection R as <-; assumption|].
  destruct (exec s a) as [s1|] eqn:E; [|discriminate]. inversion Q; subst. exact (IH _ _ R H2 (spin_exec _ _ _ _ E H1 S)).
Qed.
Definition w_log (s : st) v := ST (pool s) (fl s) (q s) (id s) (re s) (pn s) (pd s) (mq s) (qt s) (us s) (rs s) (ag s) v.
Definition nested : list act := [Enter; Input; Move; Move; Enter; Move; Move; Move].
Theorem C89_refuted : exists s, run (init true false) nested = Some s /\
  (forall l s', Forall quiet l -> run s l = Some s' -> exists x, (x = K0 \/ x = K1 \/ x = Q0 \/ x = G0) /\ rs s' = Lp false x :: tl (rs s)) /\
  (forall n, exists s', run s (repeat Move (4 * n)) = Some s' /\ rs s' = rs s).
Proof.
  pose (s0 := match run (init true false) nested with Some s => s | None => init true false end). exists s0. split; [vm_compute; reflexivity|].
  assert (S : spin [Cb false; Lp false M0] s0).
  { split; [exists K0; split; [auto|vm_compute; reflexivity]|]. repeat (split; [vm_compute; reflexivity|]). intros [|i] a H; vm_compute in H; discriminate. }
  assert (RS : rs s0 = [Lp false K0; Cb false; Lp false M0]) by (vm_compute; reflexivity).
  split.
  - intros l s' QL R. destruct (spin_run _ _ _ _ R QL S) as (X & _). rewrite RS. exact X.
  - intros n. assert (T : forall n l, exists l', run (w_log s0 l) (repeat Move (4 * n)) = Some (w_log s0 l')).
    { clear. induction n as [|n IH]; intros l; [exists l; reflexivity|].
      replace (4 * S n)%nat with (4 + 4 * n)%nat by lia. rewrite repeat_app, run_app.
      destruct (IH (l ++ [ENull])) as (l' & IH'). exists l'. rewrite <- IH'. reflexivity. }
    destruct (T n (log s0)) as (l' & T'). exists (w_log s0 l'). split; [exact T'|reflexivity].
Qed.
Example ex_C89 :
  match run (init true false) (posting 1 0 ++ [Post 2; Step 1; Step 1; Step 1; Step 1; Step 1; Enter; Move; Move; Move; Move; Move; Move; Move; Enter; Move; Move; Move; Move; Move; Move; Move; Ret]) with
  | Some s => clean (log s) /\ starts (log s) = [1%nat; 2%nat] /\ ends (log s) = [2%nat] /\ re s = 2
  | None => False
  end.
Proof. vm_compute. intuition congruence. Qed.

(** ** C90: Join *)
(** A Join that finds no task counted returns at once; then every accepted task has run to its end. *)
Theorem C90_partial : forall p b l s i, run (init p b) l = Some s -> clean (log s) -> ~ clr (rs s) ->
  nth_error (ag s) i = Some J0 -> enc (fl s) < 16 ->
  (exists s', exec s (Step i) = Some s' /\ log s' = log s ++ [EJoin]) /\ accs (log s) = starts (log s) /\ nest [] (log s) = Some [].
Proof.
  intros p b l s i R C NC G E. destruct (counts _ _ _ _ R C) as (I & (_ & FN) & _ & _).
  pose proof (i_b _ I) as H. pose proof (i_cn _ I) as CN. pose proof (runs_nn (rs s)) as RN.
  assert (C0 : cn (fl s) = 0).
  { unfold enc in E. destruct (lk (fl s)), (sp (fl s)), (it (fl s)), (bg (fl s)); cbn [bit] in E; lia. }
  split; [|split].
  - cbn [exec]. unfold step. rewrite G. replace (enc (fl s) <? 16) with true by (symmetry; apply Z.ltb_lt; assumption). eexists. split; reflexivity.
  - apply (len_starts _ _ _ _ R C NC). lia.
  - rewrite FN. f_equal. pose proof (tasks_len (rs s)) as T. destruct (tasks (rs s)); [reflexivity|]. cbn [length] in T. lia.
Qed.
Example ex_C90 :
  match run (init true true) (to_sleep ++ posting 7 0 ++ [Move; Move; Move; Move; Ret; Move; Move; Move; Move; Move; Move; Move; Move; Ret; Move; Move; Move; Join]) with
  | Some s => nth_error (ag s) 1 = Some J0 /\ enc (fl s) < 16 /\ accs (log s) = [7%nat]
  | None => False
  end.
Proof. vm_compute. auto. Qed.
(** A Join that has to wait never returns, unless the runner is interrupted, dropped or receives WM_QUIT. *)
Definition calm (a : act) : Prop := match a with Quit | Interrupt | Drop => False | _ => True end.
Definition stays (s : st) : Prop :=
  it (fl s) = false /\ qt s = false /\ us s = 1%nat /\ Forall (fun f => match f with Lp _ _ | Run _ | Cb _ => True | _ => False end) (rs s) /\ Lk s /\ ~ In ECln (log s).
Lemma stays_exec : forall a s s', exec s a = Some s' -> calm a -> stays s -> stays s'.
Proof.
  intros a s s' E CA (IT & QT & US & FR & LK & NC).
  assert (NC' : ~ In ECln (log s') /\ it (fl s') = false /\ qt s' = false /\ us s' = 1%nat /\ Forall (fun f => match f with Lp _ _ | Run _ | Cb _ => True | _ => False end) (rs s')).
  { destruct a; cbn [exec] in E; try contradiction.
    - unfold move in E. destruct (rs s) as [|f k] eqn:R; [discriminate|]. inversion FR as [|? ? F1 F2]; subst.
      destruct f as [b x|t|tm| | | | | | ]; try contradiction; try discriminate.
      assert (SH : shared s = true) by (unfold shared, refs; rewrite US, R; destruct (id s); cbn [loops isl]; apply Nat.ltb_lt; lia).
      assert (U : forall x', Forall (fun f => match f with Lp _ _ | Run _ | Cb _ => True | _ => False end) (Lp b x' :: k)) by (intros; constructor; [exact I|assumption]).
      destruct x; cbv beta iota zeta in E; rewrite ?SH, ?IT, ?QT in E.
      all: repeat match type of E with (if ?c then _ else _) = _ => destruct c eqn:? | match ?c with _ => _ end = _ => destruct c eqn:? end; try discriminate; injection E as <-; cbn; auto 10.
      + split; [rewrite in_app_iff; intros [?|[?|[]]]; [tauto|discriminate]|]. auto.
      + split; [rewrite in_app_iff; intros [?|[?|[]]]; [tauto|discriminate]|]. repeat (split; [assumption|]). constructor; [exact I|apply U].
    - unfold ret in E. destruct (rs s) as [|f k] eqn:R; [discriminate|]. inversion FR as [|? ? F1 F2]; subst. destruct f; try discriminate; injection E as <-; cbn; auto 10.
      split; [rewrite in_app_iff; intros [?|[?|[]]]; [tauto|discriminate]|]. auto.
    - unfold enter in E. destruct (rs s) as [|f k] eqn:R; [destruct (id s); [|destruct (Nat.eqb (us s) 0); [discriminate|]|discriminate]|destruct f; try discriminate]; injection E as <-; cbn; rewrite ?R.
      1,2,3: repeat (split; [assumption|]); constructor; auto.
      split; [rewrite in_app_iff; intros [?|[?|[]]]; [tauto|discriminate]|]. repeat (split; [assumption|]); constructor; auto.
    - destruct (rs s) as [|[b x| | | | | | | | ] k] eqn:R; try discriminate. destruct x; try discriminate. injection E as <-. cbn. rewrite ?R. repeat (split; [assumption|]). constructor; auto.
    - destruct (rs s) as [|[b0 x| | | | | | | | ] k] eqn:R; try discriminate. destruct x; try discriminate. injection E as <-. cbn. inversion FR; subst.
      repeat (split; [assumption|]). destruct b; repeat (constructor; auto).
    - destruct (rs s) as [|f k] eqn:R; [discriminate|]. destruct f as [| |[] | | | | | | ]; try discriminate; destruct (mq s); try discriminate; injection E as <-; cbn; rewrite ?R; auto 10.
      split; [rewrite in_app_iff; intros [?|[?|[]]]; [tauto|discriminate]|]. auto.
    - destruct (id s); try discriminate. injection E as <-. cbn. auto 10.
    - unfold step in E. destruct (nth_error (ag s) i) as [a|] eqn:G; [|discriminate]. destruct a as [t|t|t|t|n| | | | ]; try discriminate.
      + destruct (sp (fl s)); injection E as <-; cbn; auto 10. split; [rewrite in_app_iff; intros [?|[?|[]]]; [tauto|discriminate]|]. auto.
      + destruct (lk (fl s)); injection E as <-; cbn; auto 10.
      + injection E as <-. cbn. split; [rewrite in_app_iff; intros [?|[?|[]]]; [tauto|discriminate]|]. auto.
      + cbv zeta in E. injection E as <-. cbn [log say put w_ag w_fl fl qt us rs].
        assert (L : lk (fl s) = true).
        { destruct LK as (_ & LK). pose proof (suml_ge _ hold _ _ _ G) as X. cbn in X. destruct (lk (fl s)); [reflexivity|]. cbn in LK. lia. }
        rewrite unlock_locked by (auto; destruct LK; lia). cbn [it].
        split; [|auto]. rewrite in_app_iff. intros [?|[?|X]]; [tauto|discriminate|]. destruct (_ <=? _); [destruct X as [X|[]]; discriminate|destruct X].
      + destruct (n <? _); injection E as <-; cbn; auto 10.
      + injection E as <-. destruct (id s); cbn; auto 10.
      + destruct (enc (fl s) <? 16); injection E as <-; cbn; auto 10. split; [rewrite in_app_iff; intros [?|[?|[]]]; [tauto|discriminate]|]. auto.
      + destruct (enc (fl s) =? 6); [|discriminate]. injection E as <-; cbn. split; [rewrite in_app_iff; intros [?|[?|[]]]; [tauto|discriminate]|]. auto.
    - destruct (Nat.eqb (us s) 0); [discriminate|]. injection E as <-. cbn. auto 10.
    - destruct (Nat.eqb (us s) 0); [discriminate|]. injection E as <-. cbn. auto 10. }
  destruct NC' as (N1 & N2 & N3 & N4 & N5). unfold stays. repeat (split; [assumption|]). split; [|assumption]. exact (exec_Lk _ _ _ E N1 LK).
Qed.
Lemma stays_run : forall l s s', run s l = Some s' -> Forall calm l -> stays s -> stays s'.
Proof.
  induction l as [|a l IH]; intros s s' R Q S; cbn in R; [injection R as <-; assumption|].
  destruct (exec s a) as [s1|] eqn:E; [|discriminate]. inversion Q; subst. exact (IH _ _ R H2 (stays_exec _ _ _ E H1 S)).
Qed.
Theorem C90_waits_fail : forall p b l s i, Forall calm l -> run (init p b) l = Some s -> nth_error (ag s) i = Some J1 -> exec s (Step i) = None.
Proof.
  intros p b l s i CL R G. assert (S : stays s).
  { apply (stays_run _ _ _ R CL). repeat (split; [reflexivity|]). split; [constructor|]. split; [apply Lk_init|intros []]. }
  destruct S as (IT & _ & _ & _ & (CN & _) & _). cbn [exec]. unfold step. rewrite G.
  destruct (Z.eqb_spec (enc (fl s)) 6) as [E|]; [exfalso|reflexivity].
  unfold enc in E. rewrite IT in E. destruct (lk (fl s)), (sp (fl s)), (bg (fl s)); cbn [bit] in E; lia.
Qed.
(** So it is after all tasks have run. *)
Theorem C90_refuted : exists l s, Forall calm l /\ run (init true true) l = Some s /\ clean (log s) /\ asleep s /\ settled s /\
  accs (log s) = [7%nat] /\ starts (log s) = [7%nat] /\ ends (log s) = [7%nat] /\ nth_error (ag s) 1 = Some J1 /\
  (forall m s', Forall calm m -> run s m = Some s' -> nth_error (ag s') 1 = Some J1 -> exec s' (Step 1) = None).
Proof.
  pose (l := to_sleep ++ posting 7 0 ++ [Join; Step 1; Move; Move; Move; Move; Ret; Move; Move; Move; Move; Move; Move; Move; Move; Ret; Move; Move; Move]).
  exists l. assert (CL : Forall calm l) by (repeat constructor).
  eexists. split; [assumption|]. split; [vm_compute; reflexivity|].
  split; [repeat split; intros H; vm_compute in H; intuition discriminate|]. split; [vm_compute; auto|].
  split; [intros [|[|[|i]]] a G; vm_compute in G; try discriminate; injection G as <-; exact I|].
  repeat (split; [reflexivity|]).
  intros m s' CM RM GM. refine (C90_waits_fail true true (l ++ m) s' 1 _ _ GM); [apply Forall_app; auto|].
  rewrite run_app. replace (run (init true true) l) with (Some (match run (init true true) l with Some s => s | None => init true true end)) by (vm_compute; reflexivity). exact RM.
Qed.

(** ** C91: the end of the runner *)
Definition cans (l : list event) : list nat := flat_map (fun e => match e with ECan t => [t] | _ => [] end) l.
Definition posts (a : agent) : Prop := match a with P1 _ | P2 _ | P3 _ => True | _ => False end.
Definition over : flags := FL false true true false 0.
Lemma flat_snoc : forall A (f : event -> list A) l e, flat_map f (l ++ [e]) = flat_map f l ++ f e.
Proof. intros A f l e. rewrite flat_map_app. cbn. rewrite app_nil_r. reflexivity. Qed.
Definition Over (s : st) (s' : st) : Prop :=
  sp (fl s') = true /\ pool s' = true /\ (forall i a, nth_error (ag s') i = Some a -> ~ posts a) /\
  accs (log s') = accs (log s) /\ starts (log s') = starts (log s) /\
  (exists c, cans (log s') = cans (log s) ++ c /\ c ++ q s' = q s) /\
  (rs s' = [C0] \/ rs s' = [C1] /\ q s' = [] \/ rs s' = [] /\ q s' = [] /\ id s' = Dead /\ fl s' = over).
Definition rest (s : st) : nat := match rs s with [C0] => length (q s) + 2 | [C1] => 1 | _ => 0 end%nat.
Lemma exec_pool : forall a s s', exec s a = Some s' -> pool s' = pool s.
Proof.
  intros a s s' E.
  assert (B : forall s k, pool (back s k) = pool s) by (intros s1 k; unfold back; destruct k; cbn; [destruct (pool s1) eqn:H; cbn; rewrite ?H; reflexivity|reflexivity]).
  destruct a; cbn [exec] in E; unfold move, ret, enter, step, leave in E; cbv beta iota zeta in E;
  repeat match type of E with match ?c with _ => _ end = _ => destruct c eqn:? end; try discriminate; injection E as <-; rewrite ?B; cbn; rewrite ?B; try reflexivity.
  all: repeat match goal with |- context [match ?c with _ => _ end] => destruct c end; rewrite ?B; try reflexivity.
Qed.
Lemma Over_exec : forall s0 a s s', exec s a = Some s' -> Over s0 s -> Over s0 s' /\ ((if match a with Move => true | _ => false end then 1 else 0) + rest s' = rest s)%nat.
Proof.
  intros s0 a s s' E (SP & PO & AG & AC & SA & (c & CC & CQ) & R). unfold rest.
  assert (PUT : forall i x, ~ posts x -> forall j y, nth_error (set (ag s) i x) j = Some y -> ~ posts y).
  { intros i x X j y J. destruct (nth_set _ _ _ _ _ _ J) as [(_ & ->)|(_ & J')]; [assumption|exact (AG _ _ J')]. }
  assert (APP : forall x, ~ posts x -> forall j y, nth_error (ag s ++ [x]) j = Some y -> ~ posts y).
  { intros x X j y J. destruct (Nat.lt_ge_cases j (length (ag s))) as [L|L]; [rewrite nth_error_app1 in J by assumption; exact (AG _ _ J)|].
    rewrite nth_error_app2 in J by assumption. destruct (j - length (ag s))%nat as [|[|n]]; cbn in J; try discriminate. injection J as <-. assumption. }
  assert (GEN : forall s1, rs s1 = rs s -> q s1 = q s -> id s1 = id s -> fl s1 = fl s \/ fl s1 = w_sp (fl s) \/ fl s1 = w_it (w_sp (fl s)) -> pool s1 = pool s -> (forall i a, nth_error (ag s1) i = Some a -> ~ posts a) ->
    accs (log s1) = accs (log s) -> starts (log s1) = starts (log s) -> cans (log s1) = cans (log s) -> Over s0 s1 /\ (0 + rest s1 = rest s)%nat).
  { intros s1 E1 E2 E3 E4 E5 E6 E7 E8 E9. split; [|unfold rest; rewrite E1, E2; reflexivity].
    unfold Over. rewrite E1, E2, E3, E5, E7, E8, E9. split; [destruct E4 as [->|[->| ->]]; [assumption|reflexivity|reflexivity]|].
    repeat (split; [assumption|]). split; [exists c; auto|]. destruct R as [R|[R|(R1 & R2 & R3 & R4)]]; auto. right. right. repeat (split; [assumption|]). destruct E4 as [->|[->| ->]]; rewrite R4; reflexivity. }
  unfold rest in GEN. cbv iota in GEN.
  destruct a; cbn [exec] in E.
  - unfold move in E. destruct R as [R|[(R & Q)|(R & _)]]; rewrite R in E |- *; [| |discriminate].
    + destruct (q s) as [|t r] eqn:Q; injection E as <-.
      * split; [|reflexivity]. unfold Over. cbn [log say w_rs fl pool ag q rs]. unfold accs, starts, cans in *. rewrite !flat_snoc, !app_nil_r. repeat (split; [assumption|]). split; [exists c; rewrite Q in *; auto|]. right. left. rewrite Q. auto.
      * split; [|cbn [rs say w_q q rs length]; rewrite R; cbn [length]; lia]. unfold Over. cbn [log say w_q fl pool ag q rs]. unfold accs, starts, cans in *. rewrite !flat_snoc, !app_nil_r. repeat (split; [assumption|]).
        split; [exists (c ++ [t]); rewrite CC, <- !app_assoc; split; [reflexivity|assumption]|]. left. assumption.
    + unfold back in E. cbn [w_rs w_fl pool] in E. rewrite PO in E. injection E as <-. split; [|reflexivity].
      unfold Over. cbn [log say w_id w_rs w_fl fl pool ag q rs id]. unfold accs, starts, cans in *. rewrite !flat_snoc, !app_nil_r. split; [reflexivity|]. repeat (split; [assumption|]). split; [exists c; auto|]. right. right. auto.
  - unfold ret in E. destruct R as [R|[(R & Q)|(R & _)]]; rewrite R in E; discriminate.
  - unfold enter in E. destruct R as [R|[(R & Q)|(R & _ & D & _)]]; rewrite R in E; try discriminate. rewrite D in E. discriminate.
  - destruct R as [R|[(R & Q)|(R & _)]]; rewrite R in E; discriminate.
  - destruct R as [R|[(R & Q)|(R & _)]]; rewrite R in E; discriminate.
  - destruct R as [R|[(R & Q)|(R & _)]]; rewrite R in E; destruct (mq s); discriminate.
  - destruct (id s) eqn:D; try discriminate. injection E as <-. apply GEN; auto.
  - destruct (id s) eqn:D; try discriminate. injection E as <-. apply GEN; auto.
  - unfold step in E. destruct (nth_error (ag s) i) as [a|] eqn:G; [|discriminate]. pose proof (AG _ _ G) as NP. destruct a as [t|t|t|t|n| | | | ]; try (exfalso; apply NP; exact I); try discriminate.
    + rewrite SP in E. injection E as <-. apply GEN; cbn [rs q id fl pool ag log say put w_ag]; auto; try (apply PUT; intros []); unfold accs, starts, cans; rewrite ?flat_snoc, ?app_nil_r; auto.
    + injection E as <-. apply GEN; cbn [rs q id fl pool ag log say put w_ag]; auto. apply PUT. destruct (n <? _); intros [].
    + injection E as <-. apply GEN; destruct (id s) eqn:D; cbn [rs q id fl pool ag log say put w_ag w_mq]; auto; try (apply PUT; intros []).
    + destruct (enc (fl s) <? 16); injection E as <-; apply GEN; cbn [rs q id fl pool ag log say put w_ag w_fl]; auto; try (apply PUT; intros []); unfold accs, starts, cans; rewrite ?flat_snoc, ?app_nil_r; auto.
    + destruct (enc (fl s) =? 6); [|discriminate]. injection E as <-; apply GEN; cbn [rs q id fl pool ag log say put w_ag w_fl]; auto; try (apply PUT; intros []); unfold accs, starts, cans; rewrite ?flat_snoc, ?app_nil_r; auto.
  - destruct (Nat.eqb (us s) 0); [discriminate|]. injection E as <-. apply GEN; cbn; auto. apply APP. intros [].
  - destruct (Nat.eqb (us s) 0); [discriminate|]. injection E as <-. apply GEN; cbn; auto. apply APP. intros [].
  - destruct (Nat.eqb (us s) 0); [discriminate|]. injection E as <-. apply GEN; cbn [rs q id fl pool ag log say w_fl]; auto; try (apply PUT; intros []); unfold accs, starts, cans; rewrite ?flat_snoc, ?app_nil_r; auto.
  - destruct (_ || _); [discriminate|]. injection E as <-. apply GEN; auto.
Qed.
Definition ismove (a : act) : bool := match a with Move => true | _ => false end.
Lemma Over_run : forall s0 l s s', run s l = Some s' -> Over s0 s -> Over s0 s' /\ (length (filter ismove l) + rest s' = rest s)%nat.
Proof.
  intros s0. induction l as [|a l IH]; intros s s' R O; cbn [run] in R; [injection R as <-; split; [assumption|reflexivity]|].
  destruct (exec s a) as [s1|] eqn:E; [|discriminate]. destruct (Over_exec _ _ _ _ E O) as (O1 & M1). destruct (IH _ _ R O1) as (O2 & M2).
  split; [assumption|]. cbn [filter]. destruct a; cbn [ismove length] in *; lia.
Qed.
(** CleanupTaskQueue reached by the outermost loop while posting is refused and no post is under way: each
    queued task is cancelled once, in order, nothing is accepted or started any more, and after as many
    steps of the thread as there were tasks, and two, the runner is finished: then for ever the queue is
    empty, a post is refused and a Join returns. *)
Theorem C91_partial : forall b l s m s', run (init true b) l = Some s -> rs s = [C0] -> sp (fl s) = true ->
  (forall i a, nth_error (ag s) i = Some a -> ~ posts a) -> run s m = Some s' ->
  accs (log s') = accs (log s) /\ starts (log s') = starts (log s) /\
  (exists c, cans (log s') = cans (log s) ++ c /\ c ++ q s' = q s) /\
  (length (filter ismove m) <= length (q s) + 2)%nat /\
  ((length (filter ismove m) < length (q s) + 2)%nat -> exec s' Move <> None) /\
  (length (filter ismove m) = length (q s) + 2 -> rs s' = [] /\ q s' = [] /\ id s' = Dead /\
     forall i a, nth_error (ag s') i = Some a -> match a with J1 => exists s2, exec s' (Step i) = Some s2 /\ log s2 = log s' ++ [EJoin] | _ => True end)%nat /\
  (forall i t, nth_error (ag s') i = Some (P0 t) -> exists s2, exec s' (Step i) = Some s2 /\ log s2 = log s' ++ [ERej t] /\ q s2 = q s').
Proof.
  intros b l s m s' R RS SP AG RM.
  assert (PO : pool s = true).
  { clear - R. assert (X : forall l s s', run s l = Some s' -> pool s' = pool s).
    { clear. induction l as [|a l IH]; intros s s' H; cbn in H; [injection H as <-; reflexivity|]. destruct (exec s a) as [s1|] eqn:E; [|discriminate]. rewrite (IH _ _ H). apply (exec_pool _ _ _ E). }
    rewrite (X _ _ _ R). reflexivity. }
  assert (O : Over s s) by (unfold Over; repeat (split; [auto; fail|]); split; [exists []; rewrite app_nil_r; auto|auto]).
  destruct (Over_run _ _ _ _ RM O) as ((S1 & _ & S3 & S4 & S5 & S6 & S7) & M).
  unfold rest in M. rewrite RS in M.
  split; [assumption|]. split; [assumption|]. split; [assumption|]. split; [lia|]. split; [|split].
  - intros L. cbn [exec]. unfold move. destruct S7 as [H|[(H & _)|(H & _)]]; rewrite H in *; [destruct (q s'); discriminate|discriminate|lia].
  - intros L. destruct S7 as [H|[(H & _)|(H & Q & D & FL0)]]; rewrite H in M; [lia|lia|]. repeat (split; [assumption|]).
    intros i a G. destruct a; auto. cbn [exec]. unfold step. rewrite G, FL0. eexists. split; reflexivity.
  - intros i t G. cbn [exec]. unfold step. rewrite G, S1. eexists. split; [reflexivity|]. split; reflexivity.
Qed.
Example ex_C91 :
  match run (init true true) (posting 7 0 ++ [Post 8; Step 1; Step 1; Step 1; Step 1; Step 1; Enter; Move; Move; Join; Step 2; Post 9; Interrupt; Move; Move; Move; Move]) with
  | Some s => rs s = [C0] /\ sp (fl s) = true /\ ag s = [Idle; Idle; J1; P0 9] /\ accs (log s) = [7%nat; 8%nat] /\ q s = [7%nat; 8%nat]
  | None => False
  end.
Proof. vm_compute. auto 10. Qed.
(** A post that has the push lock when the flags are stored: its addition sets the lock and clears the stop
    flag for ever.  The post reports success, its task stays in the queue, all later posts spin on the
    lock, and no Join returns. *)
Definition Stuck (s : st) : Prop :=
  rs s = [] /\ id s = Dead /\ lk (fl s) = true /\ cn (fl s) = 1 /\ q s = [1%nat] /\
  accs (log s) = [1%nat] /\ starts (log s) = [] /\ cans (log s) = [] /\ ~ In EJoin (log s) /\
  forall i a, nth_error (ag s) i = Some a -> match a with P2 _ | P3 _ => False | _ => True end.
Lemma Stuck_exec : forall a s s', exec s a = Some s' -> Stuck s -> Stuck s'.
Proof.
  intros a s s' E (R & D & L & C & Q & A & SA & CA & J & AG).
  assert (PUT : forall i x, match x with P2 _ | P3 _ => False | _ => True end -> forall j y, nth_error (set (ag s) i x) j = Some y -> match y with P2 _ | P3 _ => False | _ => True end).
  { intros i x X j y JJ. destruct (nth_set _ _ _ _ _ _ JJ) as [(_ & ->)|(_ & J')]; [assumption|exact (AG _ _ J')]. }
  assert (APP : forall x, match x with P2 _ | P3 _ => False | _ => True end -> forall j y, nth_error (ag s ++ [x]) j = Some y -> match y with P2 _ | P3 _ => False | _ => True end).
  { intros x X j y JJ. destruct (Nat.lt_ge_cases j (length (ag s))) as [LL|LL]; [rewrite nth_error_app1 in JJ by assumption; exact (AG _ _ JJ)|].
    rewrite nth_error_app2 in JJ by assumption. destruct (j - length (ag s))%nat as [|[|n]]; cbn in JJ; try discriminate. injection JJ as <-. assumption. }
  destruct a; cbn [exec] in E.
  - unfold move in E. rewrite R in E. discriminate.
  - unfold ret in E. rewrite R in E. discriminate.
  - unfold enter in E. rewrite R, D in E. discriminate.
  - rewrite R in E. discriminate.
  - rewrite R in E. discriminate.
  - rewrite R in E. discriminate.
  - rewrite D in E. discriminate.
  - rewrite D in E. discriminate.
  - unfold step in E. destruct (nth_error (ag s) i) as [a|] eqn:G; [|discriminate]. pose proof (AG _ _ G) as NP. destruct a as [t|t|t|t|n| | | | ]; try contradiction; try discriminate.
    + destruct (sp (fl s)); injection E as <-; unfold Stuck; cbn [rs id fl q log ag say put w_ag]; unfold accs, starts, cans in *; rewrite ?flat_snoc, ?app_nil_r; repeat (split; [first [assumption|rewrite in_app_iff; intros [?|[?|[]]]; [tauto|discriminate]]|]); apply PUT; exact I.
    + rewrite L in E. injection E as <-. unfold Stuck. auto 15.
    + injection E as <-. unfold Stuck. cbn [rs id fl q log ag say put w_ag]. repeat (split; [assumption|]). apply PUT. destruct (n <? _); exact I.
    + rewrite D in E. injection E as <-. unfold Stuck. cbn [rs id fl q log ag say put w_ag]. repeat (split; [assumption|]). apply PUT. exact I.
    + replace (enc (fl s) <? 16) with false in E by (symmetry; apply Z.ltb_ge; unfold enc; rewrite C; destruct (lk (fl s)), (sp (fl s)), (it (fl s)), (bg (fl s)); cbn [bit]; lia).
      injection E as <-. unfold Stuck. cbn [rs id fl q log ag say put w_ag w_fl w_sp lk cn]. repeat (split; [assumption|]). apply PUT. exact I.
    + replace (enc (fl s) =? 6) with false in E by (symmetry; apply Z.eqb_neq; unfold enc; rewrite C; destruct (lk (fl s)), (sp (fl s)), (it (fl s)), (bg (fl s)); cbn [bit]; lia). discriminate.
  - destruct (Nat.eqb (us s) 0); [discriminate|]. injection E as <-. unfold Stuck. cbn [rs id fl q log ag w_ag]. repeat (split; [assumption|]). apply APP. exact I.
  - destruct (Nat.eqb (us s) 0); [discriminate|]. injection E as <-. unfold Stuck. cbn [rs id fl q log ag w_ag]. repeat (split; [assumption|]). apply APP. exact I.
  - destruct (Nat.eqb (us s) 0); [discriminate|]. injection E as <-. unfold Stuck. cbn [rs id fl q log ag say w_fl w_it w_sp lk cn]. unfold accs, starts, cans in *. rewrite ?flat_snoc, ?app_nil_r. repeat (split; [first [assumption|rewrite in_app_iff; intros [?|[?|[]]]; [tauto|discriminate]]|]). assumption.
  - destruct (_ || _); [discriminate|]. injection E as <-. unfold Stuck. cbn [rs id fl q log ag w_us]. auto 15.
Qed.
Lemma Stuck_run : forall l s s', run s l = Some s' -> Stuck s -> Stuck s'.
Proof.
  induction l as [|a l IH]; intros s s' R S; cbn in R; [injection R as <-; assumption|].
  destruct (exec s a) as [s1|] eqn:E; [|discriminate]. exact (IH _ _ R (Stuck_exec _ _ _ E S)).
Qed.
Theorem C91_refuted : exists l s, run (init true true) l = Some s /\ accs (log s) = [1%nat] /\ q s = [1%nat] /\ (exists i, nth_error (ag s) i = Some (P1 2)) /\ sp (fl s) = false /\
  forall m s', run s m = Some s' -> accs (log s') = [1%nat] /\ starts (log s') = [] /\ cans (log s') = [] /\ ~ In EJoin (log s') /\
    (forall i t, nth_error (ag s') i = Some (P1 t) -> exec s' (Step i) = Some s') /\ (forall i, nth_error (ag s') i = Some J1 -> exec s' (Step i) = None).
Proof.
  pose (s0 := match run (init true true) (race ++ [Step 0; Step 0]) with Some s => s | None => init true true end).
  exists (race ++ [Step 0; Step 0]), s0. split; [vm_compute; reflexivity|]. repeat (split; [vm_compute; reflexivity|]). split; [exists 1%nat; vm_compute; reflexivity|]. split; [vm_compute; reflexivity|].
  assert (S0 : Stuck s0).
  { unfold Stuck. repeat (split; [vm_compute; reflexivity|]). split; [intros H; vm_compute in H; intuition discriminate|].
    intros [|[|i]] a G; vm_compute in G; try (injection G as <-; exact I); destruct i; discriminate. }
  intros m s' R. destruct (Stuck_run _ _ _ R S0) as (_ & _ & L & C & _ & A & SA & CA & J & _). repeat (split; [assumption|]). split.
  - intros i t G. cbn [exec]. unfold step. rewrite G, L. reflexivity.
  - intros i G. cbn [exec]. unfold step. rewrite G.
    replace (enc (fl s') =? 6) with false by (symmetry; apply Z.eqb_neq; unfold enc; rewrite C; destruct (lk (fl s')), (sp (fl s')), (it (fl s')), (bg (fl s')); cbn [bit]; lia). reflexivity.
Qed.

(** ** C92: the last reference *)
Lemma cleanup : forall r s, rs s = [C0] -> pool s = true -> q s = r ->
  exists s', run s (repeat Move (length r + 2)) = Some s' /\ rs s' = [] /\ id s' = Dead /\ q s' = [] /\ fl s' = over /\ log s' = log s ++ map ECan r ++ [EClr; ECln].
Proof.
  induction r as [|t r IH]; intros s R P Q.
  - cbn [length Nat.add repeat run exec]. unfold move. rewrite R, Q. cbn [rs say w_rs]. unfold back. cbn [w_rs w_fl say pool]. rewrite P. eexists. split; [reflexivity|]. cbn. rewrite <- app_assoc. auto 10.
  - cbn [length Nat.add repeat run exec]. unfold move. rewrite R, Q. destruct (IH (say (w_q s r) [ECan t]) R P eq_refl) as (s' & R' & A & B & C & D & E). exists s'. split; [exact R'|]. repeat (split; [assumption|]). rewrite E. cbn. rewrite <- app_assoc. reflexivity.
Qed.
Lemma alive_exec : forall a s s', exec s a = Some s' -> (rs s <> [] -> id s = Alive) -> rs s' <> [] -> id s' = Alive.
Proof.
  intros a s s' E H.
  assert (B : forall s1 k, id s1 = Alive -> rs (back s1 k) <> [] -> id (back s1 k) = Alive) by (intros s1 k H1; unfold back; destruct k; cbn; [intros X; exfalso; apply X; destruct (pool s1); reflexivity|auto]).
  destruct a; cbn [exec] in E.
  - unfold move, leave in E. destruct (rs s) as [|f k] eqn:R; [discriminate|]. assert (A : id s = Alive) by (apply H; discriminate).
    cbv beta iota zeta in E. repeat match type of E with match ?c with _ => _ end = _ => destruct c eqn:? end; try discriminate; injection E as <-; cbn; auto.
    all: repeat match goal with |- context [match ?c with _ => _ end] => destruct c end; auto.
  - unfold ret in E. destruct (rs s) as [|f k] eqn:R; [discriminate|]. destruct f; try discriminate; injection E as <-; intros _; apply H; discriminate.
  - unfold enter in E. destruct (rs s) as [|f k] eqn:R; [destruct (id s) eqn:D; [|destruct (Nat.eqb (us s) 0); [discriminate|]|discriminate]|destruct f; try discriminate]; injection E as <-; intros _; cbn; auto; apply H; discriminate.
  - destruct (rs s) as [|[b x| | | | | | | | ] k] eqn:R; try discriminate. destruct x; try discriminate. injection E as <-. intros _. apply H. discriminate.
  - destruct (rs s) as [|[b0 x| | | | | | | | ] k] eqn:R; try discriminate. destruct x; try discriminate. injection E as <-. intros _. apply H. discriminate.
  - destruct (rs s) as [|f k] eqn:R; [discriminate|]. destruct f as [| |[] | | | | | | ]; try discriminate; destruct (mq s); try discriminate; injection E as <-; intros _; apply H; discriminate.
  - destruct (id s) eqn:D; try discriminate. injection E as <-. intros _. assumption.
  - destruct (id s) eqn:D; try discriminate. injection E as <-. intros _. assumption.
  - unfold step in E. repeat match type of E with match ?c with _ => _ end = _ => destruct c eqn:? end; try discriminate; injection E as <-; cbn [id rs say put w_ag w_fl w_q]; auto. destruct (id s) eqn:D; cbn [id rs put w_ag w_mq]; rewrite ?D in *; auto.
  - destruct (Nat.eqb (us s) 0); [discriminate|]. injection E as <-. auto.
  - destruct (Nat.eqb (us s) 0); [discriminate|]. injection E as <-. auto.
  - destruct (Nat.eqb (us s) 0); [discriminate|]. injection E as <-. auto.
  - destruct (_ || _); [discriminate|]. injection E as <-. auto.
Qed.
Lemma alive_run : forall l s s', run s l = Some s' -> (rs s <> [] -> id s = Alive) -> (rs s' <> [] -> id s' = Alive) /\ pool s' = pool s.
Proof.
  induction l as [|a l IH]; intros s s' R H; cbn in R; [injection R as <-; auto|]. destruct (exec s a) as [s1|] eqn:E; [|discriminate].
  destruct (IH _ _ R (alive_exec _ _ _ E H)) as (A & B). split; [assumption|]. rewrite B. exact (exec_pool _ _ _ E).
Qed.
(** The user has no reference left and the outermost loop wakes up: it returns at once, cancelling every
    queued task, and the thread ends. *)
Theorem C92_partial : forall b l s c, run (init true b) l = Some s -> us s = 0%nat -> rs s = [Lp c Z0] -> (0 < mq s)%nat \/ qt s = true ->
  exists s', run s (repeat Move (5 + length (q s))) = Some s' /\ rs s' = [] /\ id s' = Dead /\ q s' = [] /\ log s' = log s ++ map ECan (q s) ++ [EClr; ECln].
Proof.
  intros b l s c R U RS M. destruct (alive_run _ _ _ R) as (AL & PO); [intros X; contradiction X; reflexivity|]. specialize (AL ltac:(rewrite RS; discriminate)). cbn in PO.
  replace (5 + length (q s))%nat with (3 + (length (q s) + 2))%nat by lia. rewrite repeat_app, run_app.
  assert (W : Nat.ltb 0 (mq s) || qt s = true) by (destruct M as [M|M]; [apply Nat.ltb_lt in M; rewrite M; reflexivity|rewrite M, orb_true_r; reflexivity]).
  assert (T : exists s1, run s (repeat Move 3) = Some s1 /\ rs s1 = [C0] /\ pool s1 = true /\ q s1 = q s /\ log s1 = log s).
  { cbn [repeat run exec]. unfold move. rewrite RS, W. cbn [rs w_rs]. unfold shared, refs. cbn [us id rs w_rs loops isl]. rewrite U, AL. cbn [Nat.add Nat.ltb Nat.leb leave rs w_rs w_re us id loops isl].
    eexists. split; [reflexivity|]. cbn. rewrite U, AL. cbn. auto. }
  destruct T as (s1 & -> & A & B & C & D). destruct (cleanup (q s) s1 A B C) as (s' & R' & E1 & E2 & E3 & _ & E5). exists s'. rewrite <- D. auto 10.
Qed.
Example ex_C92 :
  match run (init true true) (to_sleep ++ [Drop; Input]) with
  | Some s => us s = 0%nat /\ rs s = [Lp true Z0] /\ (0 < mq s)%nat
  | None => False
  end.
Proof. vm_compute. auto. Qed.
(** But nothing wakes it up: dropped while it sleeps, the thread waits for a foreign message for ever. *)
Theorem C92_refuted : forall b, exists s, run (init true b) (match b with true => to_sleep | false => [Enter; Move; Move; Move; Move; Move; Move; Move; Move] end ++ [Drop]) = Some s /\
  us s = 0%nat /\ rs s = [Lp b Z0] /\ forall a, exec s a <> None -> a = Input \/ a = Quit \/ exists c, a = Spur c.
Proof.
  intros []; eexists; (split; [vm_compute; reflexivity|]); (split; [reflexivity|]); (split; [reflexivity|]);
  intros a H; destruct a; auto; try (exfalso; apply H; reflexivity); eauto; exfalso; apply H; cbn; destruct i; reflexivity.
Qed.
(** Nor does a nested loop end: the outer loop's reference counts as a user.  Without WM_QUIT the task that
    entered it never returns. *)
Definition Nst (r : list frame) (s : st) : Prop :=
  us s = 0%nat /\ it (fl s) = false /\ qt s = false /\ (forall i a, nth_error (ag s) i = Some a -> a = Idle) /\
  exists k c x, rs s = k ++ Lp c x :: r /\ Forall (fun f => match f with Lp _ _ | Run _ | Cb _ => True | _ => False end) k.
Lemma loops_app : forall k m, loops (k ++ m) = (loops k + loops m)%nat.
Proof. induction k as [|f k IH]; intros m; cbn; [reflexivity|]. rewrite IH. lia. Qed.
Lemma Nst_exec : forall r a s s', (1 <= loops r)%nat -> exec s a = Some s' -> a <> Quit -> Nst r s -> Nst r s'.
Proof.
  intros r a s s' LR E NQ (U & IT & QT & AG & k & c & x & R & FK).
  assert (SH : shared s = true) by (unfold shared, refs; rewrite R, loops_app; cbn [loops isl]; apply Nat.ltb_lt; lia).
  destruct a; cbn [exec] in E; try contradiction.
  - unfold move in E. rewrite R in E.
    assert (KEEP : forall s1 f0 k1, us s1 = us s -> it (fl s1) = it (fl s) -> qt s1 = qt s -> ag s1 = ag s -> rs s = f0 :: k1 -> (exists y z, rs s1 = Lp y z :: k1) \/ (exists y z g, match g with Run _ | Cb _ => True | _ => False end /\ rs s1 = g :: Lp y z :: k1) -> Nst r s1).
    { intros s1 f0 k1 E1 E2 E3 E4 EK RR. rewrite R in EK. unfold Nst. rewrite E1, E2, E3, E4. repeat (split; [assumption|]).
      destruct k as [|g k]; cbn in EK; injection EK as <- <-.
      - destruct RR as [(y & z & RR)|(y & z & g & G & RR)]; [exists [], y, z; auto|]. exists [g], y, z. split; [assumption|]. constructor; [destruct g; auto|constructor].
      - inversion FK; subst. destruct RR as [(y & z & RR)|(y & z & g0 & G & RR)]; [exists (Lp y z :: k), c, x|exists (g0 :: Lp y z :: k), c, x]; (split; [assumption|]); repeat (constructor; auto). destruct g0; auto. }
    destruct (k ++ Lp c x :: r) as [|f k1] eqn:EK; [discriminate|].
    assert (FF : match f with Lp _ _ | Run _ | Cb _ => True | _ => False end) by (destruct k as [|g k]; cbn in EK; injection EK as <- <-; [exact I|inversion FK; assumption]).
    destruct f as [b y|t|tm| | | | | | ]; try contradiction; try discriminate.
    destruct y; cbv beta iota zeta in E; rewrite ?SH, ?IT, ?QT in E.
    all: repeat match type of E with (if ?c then _ else _) = _ => destruct c eqn:? | match ?c with _ => _ end = _ => destruct c eqn:? end; try discriminate; injection E as <-.
    all: eapply (fun s1 a b c d => KEEP s1 _ _ a b c d R); try reflexivity; cbn [rs w_rs w_mq w_pn w_pd w_fl w_q say fl it w_cn]; first [solve [left; eauto] | right; do 3 eexists; split; [|reflexivity]; exact I].
  - unfold ret in E. rewrite R in E. destruct k as [|g k]; cbn in E; [discriminate|]. inversion FK; subst.
    destruct g; try discriminate; injection E as <-; unfold Nst; cbn [us fl qt ag rs say w_rs w_pn w_pd]; repeat (split; [assumption|]); exists k, c, x; auto.
  - unfold enter in E. rewrite R in E. destruct k as [|g k]; cbn in E; [discriminate|].
    destruct g; try discriminate; injection E as <-; unfold Nst; cbn [us fl qt ag rs say w_rs w_re]; repeat (split; [assumption|]); rewrite ?R; eexists (_ :: _ :: k), c, x; (split; [reflexivity|]); constructor; auto.
  - rewrite R in E. destruct k as [|g k]; cbn in E.
    + destruct x; try discriminate. injection E as <-. unfold Nst. cbn [us fl qt ag rs w_rs]. repeat (split; [assumption|]). exists [Cb true], c, T0. split; [reflexivity|]. repeat constructor.
    + destruct g as [b0 y| | | | | | | | ]; try discriminate. destruct y; try discriminate. injection E as <-. unfold Nst. cbn [us fl qt ag rs w_rs]. repeat (split; [assumption|]). exists (Cb true :: Lp b0 T0 :: k), c, x. split; [reflexivity|]. repeat constructor. inversion FK; assumption.
  - rewrite R in E. destruct k as [|g k]; cbn in E.
    + destruct x; try discriminate. injection E as <-. unfold Nst. cbn [us fl qt ag rs w_rs]. repeat (split; [assumption|]). destruct b; [exists [Cb false]|exists []]; eexists; eexists; (split; [reflexivity|]); repeat constructor.
    + destruct g as [b0 y| | | | | | | | ]; try discriminate. destruct y; try discriminate. injection E as <-. unfold Nst. cbn [us fl qt ag rs w_rs]. repeat (split; [assumption|]). inversion FK; subst. destruct b; [eexists (Cb false :: _ :: k)|eexists (_ :: k)]; exists c, x; (split; [reflexivity|]); repeat (constructor; auto).
  - rewrite R in E. destruct k as [|g k]; cbn in E; [destruct (mq s); discriminate|]. destruct g as [| |[] | | | | | | ]; try discriminate; destruct (mq s); try discriminate; injection E as <-; unfold Nst; cbn [us fl qt ag rs w_mq say]; repeat (split; [assumption|]); rewrite ?R; eexists (_ :: k), c, x; (split; [reflexivity|]); assumption.
  - destruct (id s); try discriminate. injection E as <-. unfold Nst. cbn. repeat (split; [assumption|]). eauto.
  - unfold step in E. destruct (nth_error (ag s) i) as [a|] eqn:G; [|discriminate]. rewrite (AG _ _ G) in E. discriminate.
  - rewrite U in E. discriminate.
  - rewrite U in E. discriminate.
  - rewrite U in E. discriminate.
  - rewrite U in E. discriminate.
Qed.
Theorem C92_nest_refuted : exists l s, run (init true true) l = Some s /\ clean (log s) /\ us s = 0%nat /\ rs s = [Lp true Z0; Run 7; Lp true Q0] /\
  forall m s', ~ In Quit m -> run s m = Some s' -> exists k c x, rs s' = k ++ Lp c x :: [Run 7; Lp true Q0].
Proof.
  pose (l := posting 7 0 ++ [Enter; Move; Move; Move; Move; Move; Enter; Move; Move; Move; Move; Drop]).
  pose (s0 := match run (init true true) l with Some s => s | None => init true true end).
  exists l, s0. split; [vm_compute; reflexivity|]. split; [repeat split; intros H; vm_compute in H; intuition discriminate|]. repeat (split; [vm_compute; reflexivity|]).
  assert (N0 : Nst [Run 7; Lp true Q0] s0).
  { unfold Nst. repeat (split; [vm_compute; reflexivity|]). split; [intros [|[|i]] a G; vm_compute in G; try discriminate; injection G as <-; reflexivity|]. exists [], true, Z0. split; [vm_compute; reflexivity|constructor]. }
  assert (X : forall m s s', ~ In Quit m -> run s m = Some s' -> Nst [Run 7; Lp true Q0] s -> Nst [Run 7; Lp true Q0] s').
  { induction m as [|a m IH]; intros s s' NQ R N; cbn [run] in R; [injection R as <-; assumption|]. destruct (exec s a) as [s1|] eqn:E; [|discriminate].
    apply (IH s1 s'); [intros H; apply NQ; right; assumption|assumption|]. eapply Nst_exec; [|exact E|intros ->; apply NQ; left; reflexivity|assumption]. cbn. lia. }
  intros m s' NQ R. destruct (X _ _ _ NQ R N0) as (_ & _ & _ & _ & k & c & x & R' & _). eauto.
Qed.
(** Interrupt does not wake the loop either: whatever the users of the runner do afterwards, it sleeps. *)
Definition foreign (a : act) : Prop := match a with Input | Quit | Spur _ => True | _ => False end.
Definition Slp (b : bool) (s : st) : Prop :=
  rs s = [Lp b Z0] /\ mq s = 0%nat /\ qt s = false /\ sp (fl s) = true /\
  forall i a, nth_error (ag s) i = Some a -> match a with P0 _ | J0 | J1 | Idle => True | _ => False end.
Lemma Slp_exec : forall b a s s', exec s a = Some s' -> ~ foreign a -> Slp b s -> Slp b s'.
Proof.
  intros b a s s' E NF (R & M & Q & SP & AG).
  assert (PUT : forall i x, match x with P0 _ | J0 | J1 | Idle => True | _ => False end -> forall j y, nth_error (set (ag s) i x) j = Some y -> match y with P0 _ | J0 | J1 | Idle => True | _ => False end).
  { intros i x X j y JJ. destruct (nth_set _ _ _ _ _ _ JJ) as [(_ & ->)|(_ & J')]; [assumption|exact (AG _ _ J')]. }
  assert (APP : forall x, match x with P0 _ | J0 | J1 | Idle => True | _ => False end -> forall j y, nth_error (ag s ++ [x]) j = Some y -> match y with P0 _ | J0 | J1 | Idle => True | _ => False end).
  { intros x X j y JJ. destruct (Nat.lt_ge_cases j (length (ag s))) as [LL|LL]; [rewrite nth_error_app1 in JJ by assumption; exact (AG _ _ JJ)|].
    rewrite nth_error_app2 in JJ by assumption. destruct (j - length (ag s))%nat as [|[|n]]; cbn in JJ; try discriminate. injection JJ as <-. assumption. }
  destruct a; cbn [exec] in E; try (exfalso; apply NF; exact I).
  - unfold move in E. rewrite R, M, Q in E. discriminate.
  - unfold ret in E. rewrite R in E. discriminate.
  - unfold enter in E. rewrite R in E. discriminate.
  - rewrite R in E. discriminate.
  - rewrite R in E. discriminate.
  - unfold step in E. destruct (nth_error (ag s) i) as [a|] eqn:G; [|discriminate]. pose proof (AG _ _ G) as NP. destruct a as [t|t|t|t|n| | | | ]; try contradiction; try discriminate.
    + rewrite SP in E. injection E as <-. unfold Slp. cbn [rs mq qt fl ag say put w_ag]. repeat (split; [assumption|]). apply PUT. exact I.
    + destruct (enc (fl s) <? 16); injection E as <-; unfold Slp; cbn [rs mq qt fl ag say put w_ag w_fl w_sp sp]; repeat (split; [first [assumption|reflexivity]|]); apply PUT; exact I.
    + destruct (enc (fl s) =? 6); [|discriminate]. injection E as <-; unfold Slp; cbn [rs mq qt fl ag say put w_ag]; repeat (split; [assumption|]); apply PUT; exact I.
  - destruct (Nat.eqb (us s) 0); [discriminate|]. injection E as <-. unfold Slp. cbn [rs mq qt fl ag w_ag]. repeat (split; [assumption|]). apply APP. exact I.
  - destruct (Nat.eqb (us s) 0); [discriminate|]. injection E as <-. unfold Slp. cbn [rs mq qt fl ag w_ag]. repeat (split; [assumption|]). apply APP. exact I.
  - destruct (Nat.eqb (us s) 0); [discriminate|]. injection E as <-. unfold Slp. cbn [rs mq qt fl ag say w_fl w_it w_sp sp]. repeat (split; [first [assumption|reflexivity]|]). assumption.
  - destruct (_ || _); [discriminate|]. injection E as <-. unfold Slp. cbn [rs mq qt fl ag w_us]. auto.
Qed.
Theorem C92_interrupt_refuted : exists s, run (init true true) (to_sleep ++ [Interrupt]) = Some s /\ it (fl s) = true /\ rs s = [Lp true Z0] /\
  forall m s', (forall a, In a m -> ~ foreign a) -> run s m = Some s' -> rs s' = rs s.
Proof.
  eexists. split; [vm_compute; reflexivity|]. split; [reflexivity|]. split; [reflexivity|].
  assert (X : forall m s s', (forall a, In a m -> ~ foreign a) -> run s m = Some s' -> Slp true s -> Slp true s').
  { induction m as [|a m IH]; intros s s' N R S; cbn [run] in R; [injection R as <-; assumption|]. destruct (exec s a) as [s1|] eqn:E; [|discriminate].
    apply (IH s1 s'); [intros x H; apply N; right; assumption|assumption|]. exact (Slp_exec _ _ _ _ E (N _ (or_introl eq_refl)) S). }
  intros m s' N R. destruct (X _ _ _ N R) as (R' & _); [|exact R']. unfold Slp. cbn. repeat (split; [reflexivity|]). intros [|i] a G; discriminate.
Qed.
Print Assumptions C87_fifo.
Print Assumptions C87_accepted.
Print Assumptions C87_exclusive_partial.
Print Assumptions C87_exclusive_refuted.
Print Assumptions C88_partial.
Print Assumptions C88_nest_refuted.
Print Assumptions C88_eat_refuted.
Print Assumptions C88_progress_partial.
Print Assumptions C89_partial.
Print Assumptions C89_refuted.
Print Assumptions C90_partial.
Print Assumptions C90_waits_fail.
Print Assumptions C90_refuted.
Print Assumptions C91_partial.
Print Assumptions C91_refuted.
Print Assumptions C92_partial.
Print Assumptions C92_refuted.
Print Assumptions C92_nest_refuted.
Print Assumptions C92_interrupt_refuted.
