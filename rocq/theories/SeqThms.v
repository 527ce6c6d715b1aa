(** Properties C59, C60, C81, C82: the sequenced task runner. *)
From Coq Require Import List ZArith Bool Arith Lia.
From Verif Require Import Slots SlotsProofs Threads SeqModel SeqProofs.
Import ListNotations.

(** No thread is in the code of the runner. *)
Definition idle (s : st) : Prop := forall i k, nth_error (ag s) i = Some k -> k = [].

Lemma idle_ct : forall s w, idle s -> ct w s = 0.
Proof. intros s w D. destruct (ct w s) eqn:E; [reflexivity|]. destruct (suml_pos _ (suml w) (ag s)) as (i & k & N & Q); [unfold ct in E; lia|]. rewrite (D _ _ N) in Q. cbn in Q. lia. Qed.
Lemma suml_in : forall T (f : T -> nat) l, 0 < suml f l -> exists x, In x l /\ 0 < f x.
Proof. intros T f l H. destruct (suml_pos _ f l H) as (i & x & N & Q). exists x. split; [apply (nth_error_In _ _ N)|assumption]. Qed.

(** * C59 *)
(** Tasks never overlap. *)
Theorem C59_serial : forall l s, run init l = Some s -> ~ In EFull (log s) -> serial None (log s) <> None.
Proof. intros l s H NF. destruct (v_se _ (reach_inv _ _ H) NF) as (c & E & _). congruence. Qed.
(** Tasks leave the queue, to be run or cancelled, in the order of acceptance and once. *)
Theorem C59_order : forall l s, run init l = Some s -> exists rest, accs (log s) = takes (log s) ++ rest.
Proof. intros l s H. eexists. apply (v_or _ (reach_inv _ _ H)). Qed.
(** The count overflows only when 2^29-2 tasks are waiting. *)
Theorem C59_full : forall l s a s', run init l = Some s -> exec s a = Some s' -> ~ In EFull (log s) -> In EFull (log s') -> (2 ^ 29 - 2 <= Z.of_nat (length (q s)))%Z.
Proof.
  intros l s a s' H E NF J. pose proof (reach_inv _ _ H) as I.
  assert (A : exists i t f k, a = Step i /\ nth_error (ag s) i = Some (P3 t f :: k) /\ feq (fl s) f = true /\ ((cn f + 1) mod CW = 0)%Z).
  { destruct a as [i|t| | |i|]; cbn [exec] in E.
    - destruct (nth_error (ag s) i) as [[|f k]|] eqn:N; try discriminate. destruct f; cbn [step look] in E; unfold look in E; cbv zeta in E;
      repeat match goal with H : context [match ?x with _ => _ end] |- _ => destruct x eqn:?; try discriminate end; injection E as <-; cbn [log say put add w_fl w_q] in J;
      try contradiction (NF J); apply in_app_or in J; destruct J as [J|J]; try contradiction (NF J); cbn in J; repeat (destruct J as [J|J]; try discriminate); try contradiction.
      exists i, t, f, k. repeat split; auto. apply Z.eqb_eq. assumption.
    - destruct (usr s); [|discriminate]. injection E as <-. contradiction (NF J).
    - destruct (usr s); [|discriminate]. injection E as <-. contradiction (NF J).
    - destruct (usr s); [|discriminate]. injection E as <-. cbn in J. apply in_app_or in J. destruct J as [J|[J|[]]]; [contradiction (NF J)|discriminate].
    - destruct (nth_error (ag s) i) as [[|[] k]|]; try discriminate. destruct b; [|discriminate]. injection E as <-. cbn in J. apply in_app_or in J. destruct J as [J|[J|[]]]; [contradiction (NF J)|discriminate].
    - destruct (usr s && _); [|discriminate]. destruct (Nat.eqb _ 0); injection E as <-; contradiction (NF J). }
  destruct A as (i & t & f & k & -> & N & FE & C). apply feq_eq in FE. subst f. destruct (v_f _ I _ _ _ N (or_introl eq_refl)) as [F1 F2].
  assert (U : usr s = true) by (apply (v_uf _ I); pose proof (ct_ge _ _ _ uf N) as Q; cbn in Q; lia).
  pose proof (v_ct _ I U F2 NF) as R. destruct (v_lk _ I) as [_ L2]. specialize (L2 U F2). rewrite F1 in L2. cbn in L2. destruct (v_tk _ I NF) as [T1 _].
  assert (P : ct p4 s <= ct p45 s) by (unfold ct; clear; induction (ag s) as [|k l IH]; cbn; [lia|]; assert (suml p4 k <= suml p45 k) by (clear; induction k as [|f k IH]; cbn; [lia|]; destruct f; cbn; lia); lia).
  assert (W : ct w45 s <= ct tok s) by (unfold ct; clear; induction (ag s) as [|k l IH]; cbn; [lia|]; assert (suml w45 k <= suml tok k) by (clear; induction k as [|f k IH]; cbn; [lia|]; destruct f; cbn; lia); lia).
  pose proof (v_cn _ I) as CN. assert (X : (cn (fl s) + 1 = CW)%Z). { destruct (Z.eq_dec (cn (fl s) + 1) CW) as [X|X]; [assumption|]. rewrite Z.mod_small in C by lia. lia. } unfold CW in X. lia.
Qed.
(** The popping side of the queue is used by one thread at a time (or the queue is empty and stays so),
    unless the runner was interrupted. *)
Theorem C59_pop_partial : forall l s i j, run init l = Some s -> usr s = true -> calm (log s) -> i <> j -> popping s i -> popping s j -> q s = [] /\ sp (fl s) = true /\ ~ working s.
Proof.
  intros l s i j H U C NE (f & k & N1 & F1) (g & k' & N2 & F2). pose proof (reach_G _ _ H (conj U C)) as R.
  assert (CZ : cn (fl s) = 0%Z -> sp (fl s) = true -> q s = [] /\ sp (fl s) = true /\ ~ working s).
  { intros Z S. pose proof (g_ct _ R) as A. split; [destruct (q s); [reflexivity|cbn in A; lia]|]. split; [assumption|]. intros (x & t & y & z & N & J).
    pose proof (g_tk _ R) as T. rewrite Z in T. cbn in T. pose proof (ct_ge _ _ _ tok N) as Q. cbn in Q. repeat (destruct J as [<-|J]; [cbn in Q; lia|]). destruct J. }
  assert (CC : forall x y z, nth_error (ag s) x = Some (y :: z) -> y = C1 -> cn (fl s) = 0%Z /\ sp (fl s) = true).
  { intros x y z N ->. pose proof (ct_ge _ _ _ cf N) as Q. cbn in Q. destruct (g_cf _ R); [lia|auto]. }
  destruct F1 as [->| ->]; [|destruct (CC _ _ _ N1 eq_refl); auto]. destruct F2 as [->| ->]; [|destruct (CC _ _ _ N2 eq_refl); auto].
  exfalso. pose proof (g_tk _ R) as T. pose proof (suml_two _ (suml tok) (ag s) _ _ _ _ NE N1 N2) as Q. unfold ct in T. cbn [suml tok] in Q. destruct (_ =? 0)%Z; lia.
Qed.
(** A worker that has just finished its last task and the next worker can be in Pop at the same time when
    the runner is interrupted. *)
Theorem C59_pop_refuted : exists l, match run init l with
  | Some s => popping s 1 /\ popping s 3 /\ q s = [2; 3] /\ ~ In EFail (log s) /\ ~ In EFull (log s) /\ usr s = true
  | None => False end.
Proof.
  exists ([Post 1; Step 0; Step 0; Step 0; Step 0; Step 0] ++ map Step (repeat 1 7) ++ [Post 2; Step 2; Step 2; Step 2; Step 2; Step 2; Post 3; Step 4; Step 4; Step 4; Step 4; Step 4; Interrupt; Step 1; Step 1; Step 3; Step 3; Step 3]).
  vm_compute. split; [exists C1, [TR]; auto|]. split; [exists W3, [TR]; auto|]. split; [reflexivity|]. split; [intuition discriminate|]. split; [intuition discriminate|reflexivity].
Qed.

(** * C60 *)
(** When tasks are queued and no thread is posting, a worker is running or scheduled - if no worker ever
    found the queue empty. *)
Theorem C60_partial : forall l s, run init l = Some s -> usr s = true -> calm (log s) -> ~ posting s -> q s <> [] -> working s.
Proof.
  intros l s H U C NP NQ. pose proof (reach_inv _ _ H) as I. pose proof (reach_G _ _ H (conj U C)) as R. pose proof (g_ct _ R) as A. pose proof (g_tk _ R) as T. assert (LQ : 0 < length (q s)) by (destruct (q s); [congruence|cbn; lia]).
  destruct (Z.eqb_spec (cn (fl s)) 0) as [Z|Z]; [lia|]. destruct (suml_pos _ (suml tok) (ag s)) as (i & k & N & Q); [unfold ct in T; lia|]. pose proof (v_sh _ I _ _ N) as SH.
  destruct k as [|f k]; [cbn in Q; lia|]. cbn [suml] in Q.
  assert (KZ : suml tok k = 0) by (destruct f; destruct k as [|[] [|? ?]]; cbn in SH; try contradiction; reflexivity).
  destruct f; cbn [tok] in Q; try lia; try (contradiction NP; exists i, 0, (fl s), b, (P4 t b :: k); split; [exact N|]; do 2 right; left; left; reflexivity).
  - contradiction NP. exists i, t, (fl s), b, (P4 t b :: k). split; [exact N|]. do 2 right. left. left. reflexivity.
  - contradiction NP. exists i, 0, (fl s), b, (P5 b :: k). split; [exact N|]. do 3 right. left. left. reflexivity.
  - contradiction NP. exists i, 0, (fl s), b, (P6 b :: k). split; [exact N|]. do 4 right. left. left. reflexivity.
  - exists i, 0, W0, k. split; [exact N|]. cbn. auto.
  - exists i, 0, W1, k. split; [exact N|]. cbn. auto.
  - exists i, 0, W2, k. split; [exact N|]. cbn. auto.
  - exists i, 0, W3, k. split; [exact N|]. cbn. auto.
  - exists i, t, (W4 t), k. split; [exact N|]. cbn. auto 10.
  - exists i, 0, W5, k. split; [exact N|]. cbn. auto 10.
Qed.
(** The lost wake-up: the worker takes the count of a task whose Push is still under way for more work,
    finds the queue empty and ends; the posting thread starts no worker. *)
Theorem C60_refuted : exists l, match run init l with
  | Some s => idle s /\ q s = [2] /\ accs (log s) = [1; 2] /\ starts (log s) = [1] /\ usr s = true /\ sp (fl s) = false /\ ~ In EInt (log s) /\ ~ In EFail (log s) /\ ~ In EFull (log s)
  | None => False end.
Proof.
  exists ([Post 1; Step 0; Step 0; Step 0; Step 0; Step 0; Post 2; Step 2; Step 2] ++ map Step (repeat 1 13) ++ [Step 2; Step 2; Step 2]).
  vm_compute. split; [intros [|[|[|[|i]]]] k N; cbn in N; congruence|]. repeat (split; [reflexivity|]). repeat split; intuition discriminate.
Qed.
(** Once in such a state no task is ever run again, whatever is posted. *)
Definition stuck (s : st) : Prop := Inv s /\ ct tok s = 0 /\ (sp (fl s) = true \/ cn (fl s) <> 0%Z).
Lemma look_ag : forall s i t k, exists kk, ag (look s i t (fl s) k) = set (ag s) i kk /\ suml tok kk = suml tok k /\ fl (look s i t (fl s) k) = fl s /\ exists e, log (look s i t (fl s) k) = log s ++ e /\ starts e = [].
Proof.
  intros s i t k. unfold look. destruct (sp (fl s)); [|destruct (lk (fl s))].
  - exists k. repeat split. exists [ERej t]. split; reflexivity.
  - exists (P1 t :: k). repeat split. exists []. split; [symmetry; apply app_nil_r|reflexivity].
  - exists (P3 t (fl s) :: k). repeat split. exists []. split; [symmetry; apply app_nil_r|reflexivity].
Qed.
Lemma stuck_set : forall s s' i kk kk', nth_error (ag s) i = Some kk -> ct tok s = 0 -> ag s' = set (ag s) i kk' -> suml tok kk' = 0 -> ct tok s' = 0.
Proof. intros s s' i kk kk' N Z E Q. unfold ct in *. rewrite E. pose proof (suml_set _ (suml tok) _ _ _ kk' N). lia. Qed.
Lemma stuck_exec : forall s a s', stuck s -> exec s a = Some s' -> ~ In EFull (log s') -> stuck s' /\ starts (log s') = starts (log s).
Proof.
  intros s a s' (I & T & C) E NF. assert (I' : Inv s') by (eapply exec_inv; eauto). enough (Q : ct tok s' = 0 /\ (sp (fl s') = true \/ cn (fl s') <> 0%Z) /\ starts (log s') = starts (log s)) by (destruct Q as (A & B & D); split; [split; [assumption|split; assumption]|assumption]).
  destruct a as [i|t| | |i|]; cbn [exec] in E.
  - destruct (nth_error (ag s) i) as [[|f k]|] eqn:N; try discriminate. assert (TZ : tok f = 0 /\ suml tok k = 0) by (pose proof (ct_ge _ _ _ tok N) as Q; cbn in Q; lia). destruct TZ as [TF TK].
    assert (LK : s' = look s i (match f with P1 t | P3 t _ => t | _ => 0 end) (fl s) k -> ct tok s' = 0 /\ (sp (fl s') = true \/ cn (fl s') <> 0%Z) /\ starts (log s') = starts (log s)).
    { intros ->. destruct (look_ag s i (match f with P1 t | P3 t _ => t | _ => 0 end) k) as (kk & A & B & D & e & L & LE). split; [eapply stuck_set; eauto; lia|]. rewrite D, L, starts_app, LE, app_nil_r. split; [assumption|reflexivity]. }
    destruct f as [t|t f|t b|b|b| | | | | |t| | | | | | | | | | | |]; cbn [tok] in TF; try discriminate; cbn [step] in E.
    + injection E as <-. apply LK. reflexivity.
    + destruct (feq (fl s) f) eqn:FE; [|injection E as <-; apply LK; reflexivity]. apply feq_eq in FE. subst f. cbv zeta in E. injection E as <-.
      destruct (v_f _ I _ _ _ N (or_introl eq_refl)) as [F1 F2]. assert (CZ : cn (fl s) <> 0%Z) by (destruct C; [congruence|assumption]).
      split; [|split].
      * eapply stuck_set; [exact N|exact T|reflexivity|]. cbn. destruct (Z.eqb_spec (cn (fl s)) 0); [contradiction|]. cbn. assumption.
      * right. cbn. intros X. apply NF. cbn. rewrite X. apply in_or_app. right. right. left. reflexivity.
      * cbn [log say put w_fl]. rewrite starts_app. match goal with |- context [if ?b then [EFull] else _] => destruct b end; apply app_nil_r.
    + injection E as <-. split; [|split; [assumption|reflexivity]]. eapply stuck_set; [exact N|exact T|reflexivity|]. cbn. lia.
    + injection E as <-. split; [|split; [assumption|reflexivity]]. eapply stuck_set; [exact N|exact T|reflexivity|]. cbn. lia.
    + destruct b; [discriminate|]. injection E as <-. split; [|split; [assumption|reflexivity]]. eapply stuck_set; [exact N|exact T|reflexivity|]. cbn. lia.
    + injection E as <-. split; [|split; [left; reflexivity|reflexivity]]. eapply stuck_set; [exact N|exact T|reflexivity|]. cbn. lia.
    + destruct (shared s); injection E as <-; (split; [|split; [assumption|reflexivity]]; eapply stuck_set; [exact N|exact T|reflexivity|]; cbn; lia).
    + destruct (it (fl s)); injection E as <-; (split; [|split; [assumption|reflexivity]]; eapply stuck_set; [exact N|exact T|reflexivity|]; cbn; lia).
    + destruct (sp (fl s)) eqn:SP; injection E as <-; cbn [fl put]; (split; [|split; [rewrite SP; assumption|reflexivity]]; eapply stuck_set; [exact N|exact T|reflexivity|]; cbn; lia).
    + destruct (cn (fl s) =? 0)%Z; injection E as <-; (split; [|split; [assumption|reflexivity]]; eapply stuck_set; [exact N|exact T|reflexivity|]; cbn; lia).
    + destruct (Nat.eqb (refs s) 1); injection E as <-; (split; [|split; [assumption|reflexivity]]; eapply stuck_set; [exact N|exact T|reflexivity|]; cbn; lia).
    + injection E as <-. split; [|split; [assumption|reflexivity]]. eapply stuck_set; [exact N|exact T|reflexivity|]. cbn. lia.
    + destruct (q s) as [|t r]; injection E as <-; (split; [eapply stuck_set; [exact N|exact T|reflexivity|]; cbn; lia|split; [assumption|]]); [reflexivity|]. cbn [log say put w_q]. rewrite starts_app. apply app_nil_r.
    + injection E as <-. split; [|split; [left; reflexivity|reflexivity]]. eapply stuck_set; [exact N|exact T|reflexivity|]. cbn. lia.
    + injection E as <-. split; [|split; [assumption|reflexivity]]. eapply stuck_set; [exact N|exact T|reflexivity|]. cbn. lia.
    + cbv zeta in E. destruct (cn (fl s) =? 0)%Z; injection E as <-; (split; [eapply stuck_set; [exact N|exact T|reflexivity|]; cbn; lia|split; [left; reflexivity|]]); [|reflexivity]. cbn [log say put w_fl]. rewrite starts_app. apply app_nil_r.
    + destruct (feq _ _); [|discriminate]. injection E as <-. split; [eapply stuck_set; [exact N|exact T|reflexivity|]; cbn; lia|]. split; [assumption|]. cbn [log say put]. rewrite starts_app. apply app_nil_r.
  - destruct (usr s); [|discriminate]. injection E as <-. unfold ct in *. cbn. rewrite suml_app. cbn. repeat split; [lia|assumption].
  - destruct (usr s); [|discriminate]. injection E as <-. unfold ct in *. cbn. rewrite suml_app. cbn. repeat split; [lia|assumption].
  - destruct (usr s); [|discriminate]. injection E as <-. cbn [log say w_fl]. rewrite starts_app. repeat split; [assumption|left; reflexivity|apply app_nil_r].
  - destruct (nth_error (ag s) i) as [[|[] k]|] eqn:N; try discriminate. destruct b; [|discriminate]. pose proof (ct_ge _ _ _ tok N) as Q. cbn in Q. lia.
  - destruct (usr s && _); [|discriminate]. destruct (Nat.eqb _ 0); injection E as <-; unfold ct in *; cbn; rewrite ?suml_app; cbn; repeat split; [lia|assumption|assumption|assumption].
Qed.
Theorem C60_dead : forall l s l' s', run init l = Some s -> idle s -> usr s = true -> sp (fl s) = false -> q s <> [] -> ~ In EFull (log s) ->
  run s l' = Some s' -> ~ In EFull (log s') -> starts (log s') = starts (log s).
Proof.
  intros l s l' s' H D U S NQ NF. pose proof (reach_inv _ _ H) as I.
  assert (K : stuck s). { split; [assumption|]. split; [apply idle_ct; assumption|]. right. rewrite (v_ct _ I U S NF). destruct (q s); [congruence|cbn; lia]. }
  clear -K. revert s K. induction l' as [|a l' IH]; intros s K R N; cbn in R; [injection R as <-; reflexivity|]. destruct (exec s a) as [s1|] eqn:E; [|discriminate].
  assert (N1 : ~ In EFull (log s1)). { assert (Q : forall x y, run y x = Some s' -> exists e, log s' = log y ++ e). { clear. induction x as [|a x IH]; intros y R; cbn in R; [injection R as <-; exists []; symmetry; apply app_nil_r|]. destruct (exec y a) as [y1|] eqn:E; [|discriminate]. destruct (IH _ R) as (e & ->). destruct (exec_mono _ _ _ E) as (_ & e' & ->). rewrite <- app_assoc. eauto. } destruct (Q _ _ R) as (e & L). rewrite L in N. apply notin_app in N. apply N. }
  destruct (stuck_exec _ _ _ K E N1) as [K1 ->%eq_sym]. eauto.
Qed.

(** From a state in which nobody posts, the workers stop after a bounded number of steps and then every
    accepted task has ended. *)
Definition wt (f : frame) : nat := match f with W0 => 11 | W1 => 10 | W2 => 9 | W3 => 8 | W4 _ => 12 | W5 => 11 | T0 => 7 | T1 => 6 | T2 => 5 | T3 => 4 | C0 => 3 | C1 => 2 | C2 => 1 | TR => 5 | DT => 1 | J0 => 2 | J1 => 1 | _ => 0 end.
Definition pp (f : frame) : nat := match f with P1 _ | P3 _ _ | P4 _ _ | P5 _ | P6 _ | P7 => 1 | _ => 0 end.
Definition size (s : st) : nat := 5 * length (q s) + ct wt s.
Lemma step_size : forall s i f k s', ct pp s = 0 -> nth_error (ag s) i = Some (f :: k) -> step s i f k = Some s' -> size s' < size s /\ ct pp s' = 0.
Proof.
  intros s i f k s' P N E. assert (PF : pp f = 0) by (pose proof (ct_ge _ _ _ pp N) as Q; cbn in Q; lia).
  assert (X : exists kk, ag s' = set (ag s) i kk /\ 5 * length (q s') + suml wt kk < 5 * length (q s) + wt f + suml wt k /\ suml pp kk = suml pp k).
  { destruct f; cbn in PF; try discriminate; cbn [step] in E; cbv zeta in E; repeat match goal with H : context [match ?x with _ => _ end] |- _ => destruct x eqn:?; try discriminate end; injection E as <-; eexists; (split; [reflexivity|]); cbn [q w_q w_fl say put length suml wt pp Nat.mul]; split; try lia; match goal with H : q s = _ |- _ => rewrite ?H end; cbn; lia. }
  destruct X as (kk & A & B & C). unfold size, ct in *. rewrite A. pose proof (suml_set _ (suml wt) _ _ _ kk N) as M1. pose proof (suml_set _ (suml pp) _ _ _ kk N) as M2. cbn in M1, M2. lia.
Qed.
Definition steps (l : list act) : Prop := forall a, In a l -> exists i, a = Step i.
Lemma run_size : forall l s s', steps l -> ct pp s = 0 -> run s l = Some s' -> length l + size s' <= size s /\ ct pp s' = 0.
Proof.
  induction l as [|a l IH]; intros s s' S P R; cbn in R; [injection R as <-; cbn; auto|]. destruct (exec s a) as [s1|] eqn:E; [|discriminate]. destruct (S a (or_introl eq_refl)) as (i & ->). cbn [exec] in E.
  destruct (nth_error (ag s) i) as [[|f k]|] eqn:N; try discriminate. destruct (step_size _ _ _ _ _ P N E) as [M P1']. destruct (IH _ _ (fun a J => S a (or_intror J)) P1' R) as [A B]. cbn [length]. split; [lia|assumption].
Qed.
Lemma not_posting : forall s, ~ posting s -> ct pp s = 0.
Proof.
  intros s H. destruct (ct pp s) eqn:E; [reflexivity|]. destruct (suml_pos _ (suml pp) (ag s)) as (i & k & N & Q); [unfold ct in E; lia|]. destruct (suml_in _ pp k Q) as (f & J & W).
  destruct f; cbn in W; try lia; contradiction H; [exists i, t, (fl s), true, k|exists i, t, f, true, k|exists i, t, (fl s), b, k|exists i, 0, (fl s), b, k|exists i, 0, (fl s), b, k|exists i, 0, (fl s), true, k]; auto 10.
Qed.
Lemma serial_io : forall l c0 c, serial c0 l = Some c -> olist c0 ++ starts l = ends l ++ olist c.
Proof.
  unfold starts, ends. induction l as [|e l IH]; intros c0 c H; cbn in H; [injection H as ->; cbn; rewrite app_nil_r; reflexivity|]. destruct e; cbn; try (apply IH; assumption).
  - destruct c0; [discriminate|]. apply IH in H. assumption.
  - destruct c0 as [t'|]; [|discriminate]. destruct (Nat.eqb_spec t t') as [<-|]; [|discriminate]. apply IH in H. cbn in *. rewrite H. reflexivity.
Qed.
Lemma usr_stays : forall l s s', steps l -> run s l = Some s' -> usr s' = usr s.
Proof.
  induction l as [|a l IH]; intros s s' S R; cbn in R; [injection R as <-; reflexivity|]. destruct (exec s a) as [s1|] eqn:E; [|discriminate]. rewrite (IH _ _ (fun a J => S a (or_intror J)) R). destruct (S a (or_introl eq_refl)) as (i & ->). cbn [exec] in E.
  destruct (nth_error (ag s) i) as [[|f k]|] eqn:N; try discriminate. destruct f; cbn [step] in E; unfold look in E; cbv zeta in E; repeat match goal with H : context [match ?x with _ => _ end] |- _ => destruct x eqn:?; try discriminate end; injection E as <-; reflexivity.
Qed.
Lemma p4_pp : forall s, ct p4 s <= ct pp s /\ length (pend s) <= ct pp s.
Proof.
  intros s. unfold ct, pend. induction (ag s) as [|k l IH]; cbn; [lia|]. rewrite app_length. assert (suml p4 k <= suml pp k /\ length (flat_map p4t k) <= suml pp k) by (clear; induction k as [|f k IH]; cbn; [lia|]; rewrite app_length; destruct f; cbn; lia). lia.
Qed.
Lemma step_calm : forall s i f k s', Inv s -> G s -> good s -> ct pp s = 0 -> nth_error (ag s) i = Some (f :: k) -> step s i f k = Some s' -> good s'.
Proof.
  intros s i f k s' I R [U C] P N E. assert (PF : pp f = 0) by (pose proof (ct_ge _ _ _ pp N) as Q; cbn in Q; lia).
  assert (NQ : f = W3 -> q s <> []).
  { intros -> Q. pose proof (g_ct _ R) as A. pose proof (g_tk _ R) as T. rewrite Q in A. cbn in A. pose proof (p4_pp s) as [X _]. pose proof (ct_ge _ _ _ tok N) as Y. cbn in Y.
    assert (W : ct w45 s + suml tok (W3 :: k) <= ct tok s + suml w45 (W3 :: k)).
    { clear -N. unfold ct. assert (L : forall k, suml w45 k <= suml tok k) by (clear; induction k as [|f k IH]; cbn; [lia|]; destruct f; cbn; lia). revert i N. induction (ag s) as [|x l IH]; intros [|i] N; cbn in N; try discriminate.
      - injection N as ->. assert (suml (suml w45) l <= suml (suml tok) l) by (clear -L; induction l as [|x l IH]; cbn; [lia|]; specialize (L x); lia). cbn. lia.
      - specialize (IH _ N). specialize (L x). cbn in *. lia. }
    assert (KZ : suml w45 k = 0) by (pose proof (v_sh _ I _ _ N) as SH; destruct k as [|[] [|? ?]]; cbn in SH; try contradiction; try discriminate; reflexivity). cbn in W. destruct (Z.eqb_spec (cn (fl s)) 0); lia. }
  assert (L : exists e, log s' = log s ++ e /\ usr s' = usr s /\ calm e).
  { destruct f; cbn in PF; try discriminate; cbn [step] in E; cbv zeta in E; repeat match goal with H : context [match ?x with _ => _ end] |- _ => destruct x eqn:?; try discriminate end; injection E as <-; cbn [log usr say put w_fl w_q add];
    try (exists []; split; [symmetry; apply app_nil_r|split; [reflexivity|repeat split; intros []]]); try (contradiction NQ; reflexivity); eexists; (split; [reflexivity|split; [reflexivity|]]); repeat split; intros [J|[]]; discriminate. }
  destruct L as (e & L1 & L2 & (D1 & D2 & D3 & D4)). destruct C as (C1 & C2 & C3 & C4). split; [congruence|]. rewrite L1. repeat split; intros J; apply in_app_or in J; destruct J; auto.
Qed.
Theorem C60_drains : forall l s l' s', run init l = Some s -> usr s = true -> calm (log s) -> ~ posting s -> steps l' -> run s l' = Some s' ->
  length l' <= size s /\ ((forall i, exec s' (Step i) = None) -> q s' = [] /\ ends (log s') = accs (log s')).
Proof.
  intros l s l' s' H U C NP S R. pose proof (not_posting _ NP) as P. destruct (run_size _ _ _ S P R) as [A P']. split; [lia|]. intros B.
  assert (GI : Inv s' /\ G s' /\ good s').
  { pose proof (reach_inv _ _ H) as I. pose proof (reach_G _ _ H (conj U C)) as R0. assert (GD : good s) by (split; assumption). clear H A B NP U C P'.
    revert s P R I R0 GD S. induction l' as [|a l' IH]; intros s P R I R0 GD S; cbn in R; [injection R as <-; auto|]. destruct (exec s a) as [s1|] eqn:E; [|discriminate].
    destruct (S a (or_introl eq_refl)) as (i & ->). pose proof E as E'. cbn [exec] in E'. destruct (nth_error (ag s) i) as [[|f k]|] eqn:N; try discriminate. pose proof (step_calm _ _ _ _ _ I R0 GD P N E') as GD1. pose proof (step_size _ _ _ _ _ P N E') as [_ P1'].
    apply (IH s1); auto; [eapply exec_inv; eauto|eapply exec_G; eauto|intros a J; apply S; right; assumption]. }
  destruct GI as (I' & R' & [U' C']). pose proof (p4_pp s') as [Q1 Q2]. assert (PE : pend s' = []) by (destruct (pend s'); [reflexivity|cbn in Q2; lia]).
  assert (NW : forall i f k, nth_error (ag s') i = Some (f :: k) -> f = J1 \/ pp f = 1).
  { intros i f k N. specialize (B i). cbn [exec] in B. rewrite N in B. destruct f; auto; exfalso; cbn [step] in B; cbv zeta in B; repeat match goal with H : context [match ?x with _ => _ end] |- _ => destruct x eqn:?; try discriminate end; discriminate. }
  assert (TZ : ct tok s' = 0).
  { destruct (ct tok s') eqn:E; [reflexivity|]. destruct (suml_pos _ (suml tok) (ag s')) as (i & k & N & W); [unfold ct in E; lia|]. destruct k as [|f k]; [cbn in W; lia|]. pose proof (v_sh _ I' _ _ N) as SH.
    destruct (NW _ _ _ N) as [->|PF]; [destruct k as [|[] [|? ?]]; cbn in SH; try contradiction; cbn in W; lia|]. pose proof (ct_ge _ _ _ pp N) as Y. cbn in Y. lia. }
  pose proof (g_ct _ R') as A1. pose proof (g_tk _ R') as A2. rewrite TZ in A2. destruct (Z.eqb_spec (cn (fl s')) 0) as [Z|Z]; [|discriminate].
  assert (QE : q s' = []) by (destruct (q s'); [reflexivity|cbn in A1; lia]). split; [assumption|].
  rewrite (v_or _ I'), QE, PE, (g_can _ R'). cbn. rewrite !app_nil_r. destruct C' as (_ & _ & _ & NF). destruct (v_se _ I' NF) as (c & SE & RU).
  assert (c = None). { assert (Y : length (runs s') <= ct tok s'). { unfold runs, ct. clear. induction (ag s') as [|k l IH]; cbn; [lia|]. rewrite app_length. pose proof (flat_len _ _ w4t_len k). lia. } rewrite RU, TZ in Y. destruct c; [cbn in Y; lia|reflexivity]. } subst c.
  apply serial_io in SE. cbn in SE. rewrite app_nil_r in SE. congruence.
Qed.

(** * C81 *)
Lemma sp_stays : forall s a s', Inv s -> exec s a = Some s' -> sp (fl s) = true -> sp (fl s') = true /\ accs (log s') = accs (log s).
Proof.
  intros s a s' I E S. destruct a as [i|t| | |i|]; cbn [exec] in E.
  - destruct (nth_error (ag s) i) as [[|f k]|] eqn:N; try discriminate. destruct f; cbn [step] in E; unfold look in E; cbv zeta in E;
    try (destruct (feq (fl s) f) eqn:FE; [apply feq_eq in FE; subst f; destruct (v_f _ I _ _ _ N (or_introl eq_refl)); congruence|]);
    repeat match goal with H : context [match ?x with _ => _ end] |- _ => destruct x eqn:?; try discriminate end; injection E as <-; cbn [fl sp log say put add w_fl w_q]; rewrite ?accs_app; (split; [auto|]); try reflexivity; try apply app_nil_r; congruence.
  - destruct (usr s); [|discriminate]. injection E as <-. auto.
  - destruct (usr s); [|discriminate]. injection E as <-. auto.
  - destruct (usr s); [|discriminate]. injection E as <-. cbn [fl log say w_fl sp]. rewrite accs_app. split; [reflexivity|apply app_nil_r].
  - destruct (nth_error (ag s) i) as [[|[] k]|]; try discriminate. destruct b; [|discriminate]. injection E as <-. cbn [fl log say put]. rewrite accs_app. split; [assumption|apply app_nil_r].
  - destruct (usr s && _); [|discriminate]. destruct (Nat.eqb _ 0); injection E as <-; auto.
Qed.
Lemma join_step : forall s a s', Inv s -> exec s a = Some s' -> log s' = log s \/ (exists e, log s' = log s ++ e /\ ~ In EJoin e) \/ (log s' = log s ++ [EJoin] /\ usr s = true /\ cn (fl s) = 0%Z /\ sp (fl s') = true).
Proof.
  intros s a s' I E. destruct a as [i|t| | |i|]; cbn [exec] in E.
  - destruct (nth_error (ag s) i) as [[|f k]|] eqn:N; try discriminate. assert (UF : 1 <= uf f -> usr s = true) by (intros Q; apply (v_uf _ I); pose proof (ct_ge _ _ _ uf N) as W; cbn in W; lia).
    destruct f; cbn [step] in E; unfold look in E; cbv zeta in E;
    repeat match goal with H : context [match ?x with _ => _ end] |- _ => destruct x eqn:?; try discriminate end; injection E as <-; cbn [log say put add w_fl w_q]; try (left; reflexivity);
    try solve [right; left; eexists; split; [reflexivity|]; intros J; cbn in J; repeat (destruct J as [J|J]; try discriminate); destruct J].
    + right. right. cbn in UF. repeat split; auto. apply Z.eqb_eq. assumption.
    + right. right. cbn in UF. match goal with H : feq _ _ = true |- _ => apply feq_eq in H; rewrite H end. repeat split; auto. cbn. match goal with H : fl s = _ |- _ => rewrite H end. reflexivity.
  - destruct (usr s); [|discriminate]. injection E as <-. auto.
  - destruct (usr s); [|discriminate]. injection E as <-. auto.
  - destruct (usr s); [|discriminate]. injection E as <-. right. left. eexists. split; [reflexivity|]. intros [J|[]]. discriminate.
  - destruct (nth_error (ag s) i) as [[|[] k]|]; try discriminate. destruct b; [|discriminate]. injection E as <-. right. left. eexists. split; [reflexivity|]. intros [J|[]]. discriminate.
  - destruct (usr s && _); [|discriminate]. destruct (Nat.eqb _ 0); injection E as <-; auto.
Qed.
Lemma join_good : forall s, Inv s -> G s -> calm (log s) -> cn (fl s) = 0%Z -> accs (log s) = ends (log s).
Proof.
  intros s I R C Z. pose proof (g_ct _ R) as A. pose proof (g_tk _ R) as T. rewrite Z in A, T. cbn in T.
  assert (QE : q s = []) by (destruct (q s); [reflexivity|cbn in A; lia]). assert (P4 : ct p4 s = 0) by lia.
  assert (PE : pend s = []). { assert (Y : length (pend s) <= ct p4 s). { unfold pend, ct. clear. induction (ag s) as [|k l IH]; cbn; [lia|]. rewrite app_length. assert (length (flat_map p4t k) <= suml p4 k) by (clear; induction k as [|f k IH]; cbn; [lia|]; rewrite app_length; destruct f; cbn; lia). lia. } destruct (pend s); [reflexivity|cbn in Y; lia]. }
  rewrite (v_or _ I), QE, PE, (g_can _ R). cbn. rewrite !app_nil_r. destruct C as (_ & _ & _ & NF). destruct (v_se _ I NF) as (c & SE & RU).
  assert (c = None). { assert (Y : length (runs s) <= ct tok s). { unfold runs, ct. clear. induction (ag s) as [|k l IH]; cbn; [lia|]. rewrite app_length. pose proof (flat_len _ _ w4t_len k). lia. } rewrite RU, T in Y. destruct c; [cbn in Y; lia|reflexivity]. } subst c.
  apply serial_io in SE. cbn in SE. rewrite app_nil_r in SE. assumption.
Qed.
Lemma run_snoc : forall l s a s', run s (l ++ [a]) = Some s' <-> exists s1, run s l = Some s1 /\ exec s1 a = Some s'.
Proof.
  induction l as [|b l IH]; intros s a s'; cbn.
  - split; [destruct (exec s a) as [s1|] eqn:E; [|discriminate]; intros H; exists s; split; [reflexivity|congruence]|intros (s1 & H & E); injection H as <-; rewrite E; reflexivity].
  - destruct (exec s b); [apply IH|]. split; [discriminate|intros (s1 & H & _); discriminate].
Qed.
Lemma split_last : forall (l1 l2 l e : list event) x, l1 ++ x :: l2 = l ++ e -> ~ In x e -> exists l2', l = l1 ++ x :: l2' /\ l2 = l2' ++ e.
Proof.
  induction l1 as [|y l1 IH]; intros l2 l e x H NI.
  - destruct l as [|z l]; cbn in H; [subst e; contradiction NI; left; reflexivity|]. injection H as -> ->. exists l. auto.
  - destruct l as [|z l]; cbn in H; [subst e; contradiction NI; right; apply in_or_app; right; left; reflexivity|]. injection H as -> H. destruct (IH _ _ _ _ H NI) as (l2' & -> & ->). exists l2'. auto.
Qed.
(** When Join returns S_OK, every task accepted so far has run to its end and none is accepted later - if
    the runner was not interrupted, the thread pool did not fail and no worker found the queue empty. *)
Theorem C81_partial : forall l s l1 l2, run init l = Some s -> log s = l1 ++ EJoin :: l2 -> calm l1 -> accs l1 = ends l1 /\ accs l2 = [].
Proof.
  intros l. assert (X : forall s l1 l2, run init l = Some s -> log s = l1 ++ EJoin :: l2 -> calm l1 -> (accs l1 = ends l1 /\ accs l2 = []) /\ sp (fl s) = true).
  { induction l as [|a l IH] using rev_ind; intros s l1 l2 H L C.
    - cbn in H. injection H as <-. destruct l1; discriminate.
    - apply run_snoc in H. destruct H as (s1 & H & E). pose proof (reach_inv _ _ H) as I. destruct (join_step _ _ _ I E) as [L'|[(e & L' & NJ)|(L' & U & Z & S)]].
      + rewrite L' in L. destruct (IH _ _ _ H L C) as [A S]. split; [assumption|]. apply (sp_stays _ _ _ I E S).
      + assert (L2 : l1 ++ EJoin :: l2 = log s1 ++ e) by congruence. destruct (split_last _ _ _ _ _ L2 NJ) as (l2' & L3 & ->). destruct (IH _ _ _ H L3 C) as [[A B] S]. destruct (sp_stays _ _ _ I E S) as [S' AC]. split; [|assumption].
        split; [assumption|]. rewrite L, L3, !accs_app in AC. change (accs (EJoin :: l2' ++ e)) with (accs (l2' ++ e)) in AC. change (accs (EJoin :: l2')) with (accs l2') in AC. rewrite accs_app in AC. apply app_inv_head in AC. rewrite accs_app. congruence.
      + split; [|assumption]. destruct l2 as [|x l2].
        * assert (L3 : l1 ++ [EJoin] = log s1 ++ [EJoin]) by congruence. apply app_inj_tail in L3. destruct L3 as [-> _]. split; [|reflexivity]. apply join_good; auto. apply (reach_G _ _ H). split; assumption.
        * destruct (exists_last (l := x :: l2)) as (l3 & y & EQ); [discriminate|]. rewrite EQ in L. assert (L3 : (l1 ++ EJoin :: l3) ++ [y] = log s1 ++ [EJoin]) by (rewrite <- app_assoc; cbn; congruence). apply app_inj_tail in L3. destruct L3 as [L3 ->].
          destruct (IH _ _ _ H (eq_sym L3) C) as [[A B] S']. split; [assumption|]. rewrite EQ, accs_app, B. reflexivity. }
  intros s l1 l2 H L C. apply (X s l1 l2 H L C).
Qed.
(** After Interrupt, Join can return while a task is running. *)
Theorem C81_refuted : exists l, match run init l with
  | Some s => exists l1, log s = l1 ++ [EJoin] /\ accs l1 = [1; 2] /\ ends l1 = [1] /\ starts l1 = [1; 2] /\ ~ In EFail l1 /\ ~ In ENull l1
  | None => False end.
Proof.
  exists ([Post 1; Step 0; Step 0; Step 0; Step 0; Step 0] ++ map Step (repeat 1 7) ++ [Post 2; Step 2; Step 2; Step 2; Step 2; Step 2; Interrupt; Step 1; Step 3; Step 3; Step 3; Step 3; Step 1; Step 1; Step 1; Join; Step 4]).
  vm_compute. exists [EAcc 1; EStart 1; EEnd 1; EAcc 2; EInt; EStart 2]. repeat (split; [reflexivity|]). split; intuition discriminate.
Qed.
(** When the thread pool fails, Join can return though an accepted task was neither run nor cancelled. *)
Theorem C81_fail_refuted : exists l, match run init l with
  | Some s => exists l1, log s = l1 ++ [EJoin] /\ accs l1 = [1; 2] /\ takes l1 = [1] /\ idle s /\ usr s = true /\ ~ In EInt l1
  | None => False end.
Proof.
  exists ([Post 1; Step 0; Step 0; Step 0; Step 0; Post 2; Step 1; Step 1; Fail 0; Step 0; Step 0; Step 0; Step 0; Step 0; Step 0; Step 1; Step 1; Step 1; Join; Step 2]).
  vm_compute. exists [EAcc 1; EAcc 2; EFail; ECan 1]. repeat (split; [reflexivity|]). split; [intros [|[|[|i]]] k N; cbn in N; try congruence; destruct i; discriminate|]. split; [reflexivity|intuition discriminate].
Qed.

(** * C82 *)
Definition dt (f : frame) : nat := match f with DT => 1 | _ => 0 end.
Record D (s : st) : Prop := {
  d_once : ct dt s + b1 (fre s) <= 1;
  d_last : 0 < ct dt s + b1 (fre s) -> usr s = false /\ ct isw s = 0;
  d_live : usr s = false -> ct isw s = 0 -> ct dt s + b1 (fre s) = 1;
  d_q : forall i, nth_error (ag s) i = Some [C2; DT] \/ nth_error (ag s) i = Some [DT] \/ fre s = true -> q s = [];
  d_user : usr s = false -> forall i k, nth_error (ag s) i = Some k -> user k = false }.
Lemma D_put : forall s s' i kk kk' new, D s -> nth_error (ag s) i = Some kk -> ag s' = set (ag s) i kk' ++ new -> new = [] \/ new = [[W0; TR]] -> usr s' = usr s ->
  (moved s s' kk kk' new -> ct dt s' + b1 (fre s') <= 1 /\ (0 < ct dt s' + b1 (fre s') -> usr s = false /\ ct isw s' = 0) /\ (usr s = false -> ct isw s' = 0 -> ct dt s' + b1 (fre s') = 1)) ->
  (fre s' = true -> fre s = true \/ q s' = []) -> (usr s = true \/ (q s = [] -> q s' = [])) -> (kk' = [C2; DT] \/ kk' = [DT] -> q s' = []) -> (user kk' = true -> user kk = true) -> D s'.
Proof.
  intros s s' i kk kk' new I N EA EN EU CT EF EQ EK EV. destruct (CT (moved_ok _ _ _ _ _ _ N EA)) as (A & B & C).
  assert (LS : forall j k, nth_error (ag s') j = Some k -> k = kk' \/ nth_error (ag s) j = Some k \/ k = [W0; TR]).
  { intros j k Q. rewrite EA in Q. destruct (Nat.lt_ge_cases j (length (set (ag s) i kk'))) as [L|L].
    - rewrite nth_error_app1 in Q by assumption. apply nth_set in Q. destruct Q as [[_ ->]|[_ Q]]; auto.
    - rewrite nth_error_app2 in Q by assumption. apply nth_error_In in Q. destruct EN as [->| ->]; [destruct Q|]. destruct Q as [<-|[]]. auto. }
  split; rewrite ?EU; auto.
  - assert (QN : forall j, nth_error (ag s) j = Some [C2; DT] \/ nth_error (ag s) j = Some [DT] \/ fre s = true -> q s' = []).
    { intros j Q. destruct EQ as [EQ|EQ]; [|apply EQ; apply (d_q _ I _ Q)]. exfalso. destruct (d_last _ I) as [W _]; [|congruence]. destruct Q as [Q|[Q|Q]]; [pose proof (ct_ge _ _ _ dt Q) as X; cbn in X; lia|pose proof (ct_ge _ _ _ dt Q) as X; cbn in X; lia|rewrite Q; cbn; lia]. }
    intros j [Q|[Q|Q]].
    + destruct (LS _ _ Q) as [X|[X|X]]; [auto|eauto|discriminate].
    + destruct (LS _ _ Q) as [X|[X|X]]; [auto|eauto|discriminate].
    + destruct (EF Q) as [X|X]; [apply (QN 0); auto|assumption].
  - intros U j k Q. destruct (LS _ _ Q) as [->|[X|X]]; [|apply (d_user _ I U _ _ X)|subst k; reflexivity]. destruct (user kk') eqn:E; [|reflexivity]. rewrite <- (d_user _ I U _ _ N). symmetry. auto.
Qed.
Lemma D_cnt : forall s s' kk kk', D s -> moved s s' kk kk' [] -> suml dt kk' = suml dt kk -> suml isw kk' = suml isw kk ->
  ct dt s' + b1 (fre s) <= 1 /\ (0 < ct dt s' + b1 (fre s) -> usr s = false /\ ct isw s' = 0) /\ (usr s = false -> ct isw s' = 0 -> ct dt s' + b1 (fre s) = 1).
Proof.
  intros s s' kk kk' R M A B. pose proof (M dt) as M1. pose proof (M isw) as M2. cbn in M1, M2. assert (E1 : ct dt s' = ct dt s) by lia. assert (E2 : ct isw s' = ct isw s) by lia. rewrite E1, E2.
  split; [apply (d_once _ R)|]. split; [apply (d_last _ R)|apply (d_live _ R)].
Qed.
Ltac dm R s N i kk' new := eapply (D_put s _ i _ kk' new R); [exact N|cbn [ag put add say w_fl w_q]; rewrite ?app_nil_r; reflexivity|auto|reflexivity|..]; cbn [fl put add say w_fl w_q usr fre q log];
  try solve [ (let M := fresh in intros M; apply (D_cnt _ _ _ _ R M); reflexivity) | auto | (let X := fresh in intros [X|X]; discriminate) | (let X := fresh in cbn; intros X; first [exact X|discriminate]) ].
Lemma step_D : forall s i f k s', Inv s -> D s -> nth_error (ag s) i = Some (f :: k) -> step s i f k = Some s' -> D s'.
Proof.
  intros s i f k s' I R N E. pose proof (v_sh _ I _ _ N) as SH.
  assert (UF : 1 <= uf f -> usr s = true) by (intros Q; apply (v_uf _ I); pose proof (ct_ge _ _ _ uf N) as W; cbn in W; lia).
  assert (LK : forall t, 1 <= uf f -> k = [] -> s' = look s i t (fl s) k -> D s').
  { intros t Q -> ->. specialize (UF Q). assert (UT : user [f] = true) by (cbn in SH; destruct f; cbn in Q; try lia; reflexivity). unfold look. destruct (sp (fl s)); [|destruct (lk (fl s))]; [dm R s N i (@nil frame) (@nil (list frame))|dm R s N i [P1 t] (@nil (list frame))|dm R s N i [P3 t (fl s)] (@nil (list frame))];
(let M := fresh in intros M; apply (D_cnt _ _ _ _ R M); destruct f; cbn in Q; try lia; reflexivity). }
  destruct f as [t|t f|t b|b|b| | | | | |t| | | | | | | | | | | |]; cbn [step] in E;
   try (assert (K : k = []) by (destruct k as [|[] [|? ?]]; cbn in SH; try contradiction; try discriminate; reflexivity); subst k);
   try (assert (K : k = [TR]) by (destruct k as [|[] [|? ?]]; cbn in SH; try contradiction; try discriminate; reflexivity); subst k).
  - injection E as <-. eapply LK; [cbn; lia|reflexivity|reflexivity].
  - destruct (feq (fl s) f); [|injection E as <-; eapply LK; [cbn; lia|reflexivity|reflexivity]]. cbv zeta in E. injection E as <-. dm R s N i [P4 t (cn f =? 0)%Z] (@nil (list frame)).
  - injection E as <-. specialize (UF ltac:(cbn; lia)). dm R s N i [P5 b] (@nil (list frame)).
  - injection E as <-. dm R s N i [P6 b] (@nil (list frame)).
  - specialize (UF ltac:(cbn; lia)). destruct b; injection E as <-; [dm R s N i (@nil frame) [[W0; TR]]|dm R s N i (@nil frame) (@nil (list frame))].
    intros M. pose proof (M dt) as M1. pose proof (M isw) as M2. cbn in M1, M2. pose proof (d_once _ R). pose proof (d_last _ R) as LL. repeat split; try lia; intros; try congruence; destruct LL; try lia; congruence.
  - injection E as <-. dm R s N i [C0] (@nil (list frame)).
  - injection E as <-. dm R s N i [W1; TR] (@nil (list frame)).
  - destruct (shared s); injection E as <-; [dm R s N i [W2; TR] (@nil (list frame))|dm R s N i [T0; TR] (@nil (list frame))].
  - injection E as <-. dm R s N i [W3; TR] (@nil (list frame)).
  - destruct (q s) as [|t r] eqn:Q; injection E as <-; [dm R s N i [T0; TR] (@nil (list frame))|dm R s N i [W4 t; TR] (@nil (list frame))].
    right. congruence.
  - injection E as <-. dm R s N i [W5; TR] (@nil (list frame)).
  - cbv zeta in E. destruct (it (fl s)); [|destruct (_ =? 0)%Z]; injection E as <-; [dm R s N i [T0; TR] (@nil (list frame))|dm R s N i [T0; TR] (@nil (list frame))|dm R s N i [W1; TR] (@nil (list frame))].
  - destruct (shared s); injection E as <-; [dm R s N i [T1; TR] (@nil (list frame))|dm R s N i [C0; TR] (@nil (list frame))].
  - destruct (it (fl s)); injection E as <-; [dm R s N i [C0; TR] (@nil (list frame))|dm R s N i [T2; TR] (@nil (list frame))].
  - destruct (sp (fl s)); injection E as <-; [dm R s N i [T3; TR] (@nil (list frame))|dm R s N i [TR] (@nil (list frame))].
  - destruct (_ =? 0)%Z; injection E as <-; [dm R s N i [C0; TR] (@nil (list frame))|dm R s N i [TR] (@nil (list frame))].
  - destruct (Nat.eqb_spec (refs s) 1) as [C|C]; injection E as <-; unfold refs in C; change (workers s) with (ct isw s) in C; pose proof (ct_ge _ _ _ isw N) as W; cbn in W.
    + dm R s N i [C0; DT] (@nil (list frame)). intros M. pose proof (M dt) as M1. pose proof (M isw) as M2. cbn in M1, M2. pose proof (d_once _ R). pose proof (d_last _ R) as LL. cbn [fre put]. destruct (usr s); [lia|]. repeat split; try lia. all: intros; destruct (Nat.eq_dec (ct dt s + b1 (fre s)) 0); [lia|destruct LL; lia].
    + dm R s N i (@nil frame) (@nil (list frame)). intros M. pose proof (M dt) as M1. pose proof (M isw) as M2. cbn in M1, M2. pose proof (d_once _ R). pose proof (d_last _ R) as LL. cbn [fre put]. repeat split; try lia; intros; try (destruct LL; lia). rewrite H0 in C. lia.
  - injection E as <-. dm R s N i (C1 :: k) (@nil (list frame)).
  - destruct (q s) as [|t r] eqn:Q; injection E as <-; [dm R s N i (C2 :: k) (@nil (list frame))|dm R s N i (C0 :: k) (@nil (list frame))]. right. congruence.
  - injection E as <-. dm R s N i k (@nil (list frame)).
    + intros [->| ->]; [contradiction|]. apply (d_q _ R i). auto.
    + destruct k as [|[] [|? ?]]; cbn in SH |- *; try contradiction; try discriminate; auto.
  - injection E as <-. dm R s N i (@nil frame) (@nil (list frame)).
    + intros M. pose proof (M dt) as M1. pose proof (M isw) as M2. cbn in M1, M2. pose proof (d_once _ R). pose proof (d_last _ R) as LL. pose proof (d_live _ R) as LV. change (ct dt (ST (fl s) (q s) (usr s) true (set (ag s) i []) (log s)) + 1 <= 1 /\ (0 < ct dt (ST (fl s) (q s) (usr s) true (set (ag s) i []) (log s)) + 1 -> usr s = false /\ ct isw (ST (fl s) (q s) (usr s) true (set (ag s) i []) (log s)) = 0) /\ (usr s = false -> ct isw (ST (fl s) (q s) (usr s) true (set (ag s) i []) (log s)) = 0 -> ct dt (ST (fl s) (q s) (usr s) true (set (ag s) i []) (log s)) + 1 = 1)).
      repeat split; try lia; intros; destruct LL; auto; lia.
    + intros _. right. apply (d_q _ R i). auto.
  - cbv zeta in E. destruct (_ =? 0)%Z; injection E as <-; [dm R s N i (@nil frame) (@nil (list frame))|dm R s N i [J1] (@nil (list frame))].
  - destruct (feq _ _); [|discriminate]. injection E as <-. dm R s N i (@nil frame) (@nil (list frame)).
Qed.
Lemma D_add : forall s k, D s -> usr s = true -> suml dt k = 0 -> suml isw k = 0 -> D (add s k).
Proof.
  intros s k R U A B. assert (C : forall w, ct w (add s k) = ct w s + suml w k) by (intros w; unfold ct; cbn; rewrite suml_app; cbn; lia).
  assert (Z : ct dt s + b1 (fre s) = 0) by (destruct (Nat.eq_dec (ct dt s + b1 (fre s)) 0); [assumption|destruct (d_last _ R); [lia|congruence]]).
  split; cbn [usr fre q add]; rewrite ?C; try lia; try congruence.
  intros i [Q|[Q|Q]]; [| |rewrite Q in Z; cbn in Z; lia].
  - pose proof (ct_ge _ _ _ dt Q) as W. rewrite C in W. cbn in W. lia.
  - pose proof (ct_ge _ _ _ dt Q) as W. rewrite C in W. cbn in W. lia.
Qed.
Lemma exec_D : forall s a s', Inv s -> D s -> exec s a = Some s' -> D s'.
Proof.
  intros s a s' I R E. destruct a as [i|t| | |i|]; cbn [exec] in E.
  - destruct (nth_error (ag s) i) as [[|f k]|] eqn:N; try discriminate. eapply step_D; eauto.
  - destruct (usr s) eqn:U; [|discriminate]. injection E as <-. apply D_add; auto.
  - destruct (usr s) eqn:U; [|discriminate]. injection E as <-. apply D_add; auto.
  - destruct (usr s); [|discriminate]. injection E as <-. destruct R as [a b c d e]. split; assumption.
  - destruct (nth_error (ag s) i) as [[|[] k]|] eqn:N; try discriminate. destruct b; [|discriminate]. injection E as <-. pose proof (v_sh _ I _ _ N) as SH. assert (K : k = []) by (destruct k as [|[] [|? ?]]; cbn in SH; try contradiction; reflexivity). subst k. dm R s N i [P7] (@nil (list frame)).
  - destruct (usr s && _) eqn:U; [|discriminate]. apply andb_true_iff in U. destruct U as [U EX]. apply negb_true_iff in EX.
    assert (NU : forall j k, nth_error (ag s) j = Some k -> user k = false).
    { intros j k N. destruct (user k) eqn:X; [|reflexivity]. rewrite <- EX. symmetry. apply existsb_exists. exists k. split; [apply (nth_error_In _ _ N)|assumption]. }
    assert (Z : ct dt s + b1 (fre s) = 0) by (destruct (Nat.eq_dec (ct dt s + b1 (fre s)) 0); [assumption|destruct (d_last _ R); [lia|congruence]]).
    change (workers s) with (ct isw s) in E. destruct (Nat.eqb_spec (ct isw s) 0) as [W|W]; injection E as <-.
    + set (s1 := ST (fl s) (q s) false (fre s) (ag s) (log s)). assert (C : forall w, ct w (add s1 [C0; DT]) = ct w s + suml w [C0; DT]) by (intros w; unfold ct; cbn; rewrite suml_app; cbn; lia).
      split; cbn [usr fre q add s1]; rewrite ?C; cbn [suml dt isw]; try lia; try congruence.
      * intros i [Q|[Q|Q]]; [| |rewrite Q in Z; cbn in Z; lia]; exfalso; cbn [ag add s1] in Q; (destruct (Nat.lt_ge_cases i (length (ag s))) as [L|L]; [rewrite nth_error_app1 in Q by assumption; pose proof (ct_ge _ _ _ dt Q) as Y; cbn in Y; lia|rewrite nth_error_app2 in Q by assumption; apply nth_error_In in Q; destruct Q as [Q|[]]; discriminate]).
      * intros _ i k Q. cbn [ag add s1] in Q. destruct (Nat.lt_ge_cases i (length (ag s))) as [L|L]; [rewrite nth_error_app1 in Q by assumption; eauto|rewrite nth_error_app2 in Q by assumption; apply nth_error_In in Q; destruct Q as [<-|[]]; reflexivity].
    + split; cbn [usr fre q ag]; change (ct dt (ST (fl s) (q s) false (fre s) (ag s) (log s))) with (ct dt s); change (ct isw (ST (fl s) (q s) false (fre s) (ag s) (log s))) with (ct isw s); try lia.
      * apply (d_q _ R).
      * intros _. exact NU.
Qed.
Lemma init_D : D init.
Proof. split; try (cbv; lia); try discriminate. intros i [Q|[Q|Q]]; try discriminate; destruct i; discriminate. Qed.
Lemma reach_D : forall l s, run init l = Some s -> D s.
Proof.
  induction l as [|a l IH] using rev_ind; intros s H; [cbn in H; injection H as <-; apply init_D|]. apply run_snoc in H. destruct H as (s1 & H & E). eapply exec_D; [apply (reach_inv _ _ H)|eauto|exact E].
Qed.
(** Once the runner is destroyed no thread is in its code or can enter it, and every accepted task was
    started or cancelled. *)
Theorem C82_final : forall l s, run init l = Some s -> fre s = true -> idle s /\ takes (log s) = accs (log s) /\ (forall a, exec s a = None).
Proof.
  intros l s H F. pose proof (reach_inv _ _ H) as I. pose proof (reach_D _ _ H) as R. destruct (d_last _ R) as [U W]; [rewrite F; cbn; lia|]. pose proof (d_once _ R) as O. rewrite F in O. cbn in O.
  assert (ID : idle s).
  { intros i k N. pose proof (v_sh _ I _ _ N) as SH. pose proof (d_user _ R U _ _ N) as NU. pose proof (ct_ge _ _ _ isw N) as Q1. pose proof (ct_ge _ _ _ dt N) as Q2. destruct k as [|f [|g [|? ?]]]; [reflexivity|..]; exfalso; cbn in *.
    - destruct f; cbn in *; try discriminate; lia.
    - destruct g; cbn in *; try contradiction; try lia; destruct f; contradiction.
    - destruct f, g; contradiction. }
  split; [assumption|]. split.
  - rewrite (v_or _ I), (d_q _ R 0) by auto. assert (P : pend s = []). { unfold pend. clear -ID. assert (Q : forall k, In k (ag s) -> k = []) by (intros k J; apply In_nth_error in J; destruct J as (i & N); apply (ID _ _ N)). clear ID. induction (ag s) as [|k l IH]; cbn; [reflexivity|]. rewrite (Q k) by (left; reflexivity). cbn. apply IH. intros x J. apply Q. right. assumption. }
    rewrite P. cbn. rewrite !app_nil_r. reflexivity.
  - intros [i|t| | |i|]; cbn; rewrite ?U; try reflexivity.
    + destruct (nth_error (ag s) i) as [k|] eqn:N; [rewrite (ID _ _ N)|]; reflexivity.
    + destruct (nth_error (ag s) i) as [k|] eqn:N; [rewrite (ID _ _ N)|]; reflexivity.
Qed.
(** After the user's last reference is gone, the threads stop after a bounded number of steps and the
    runner is then destroyed. *)
Theorem C82_freed : forall l s l' s', run init l = Some s -> usr s = false -> run s l' = Some s' -> length l' <= size s /\ ((forall i, exec s' (Step i) = None) -> fre s' = true).
Proof.
  intros l s l' s' H U R. pose proof (reach_inv _ _ H) as I.
  assert (ST : forall x y, run s x = Some y -> steps x /\ usr y = false).
  { induction x as [|a x IH] using rev_ind; intros y Q; [cbn in Q; injection Q as <-; split; [intros a []|assumption]|]. apply run_snoc in Q. destruct Q as (s1 & Q & E). destruct (IH _ Q) as [S1 U1].
    assert (AI : exists i, a = Step i).
    { destruct a as [i|t| | |i|]; cbn in E; rewrite ?U1 in E; try discriminate; [eauto|]. destruct (nth_error (ag s1) i) as [[|[] k]|] eqn:N; try discriminate. assert (IV : Inv s1) by (eapply run_inv; eauto). pose proof (ct_ge _ _ _ uf N) as W. cbn in W. rewrite (v_uf _ IV) in U1 by lia. discriminate. }
    destruct AI as (i & ->). assert (S2 : steps (x ++ [Step i])) by (intros b J; apply in_app_or in J; destruct J as [J|[<-|[]]]; eauto). split; [assumption|].
    rewrite (usr_stays (x ++ [Step i]) s y S2); [assumption|]. apply run_snoc. eauto. }
  destruct (ST _ _ R) as [S U'].
  assert (P : forall y, Inv y -> usr y = false -> ct pp y = 0).
  { intros y J V. destruct (Nat.eq_dec (ct uf y) 0) as [Z|Z]; [|rewrite (v_uf _ J) in V by lia; discriminate]. assert (ct pp y <= ct uf y); [|lia]. unfold ct. clear. induction (ag y) as [|k l IH]; cbn; [lia|]. assert (suml pp k <= suml uf k) by (clear; induction k as [|f k IH]; cbn; [lia|]; destruct f; cbn; lia). lia. }
  destruct (run_size _ _ _ S (P _ I U) R) as [A _]. split; [lia|]. intros B. assert (I' : Inv s') by (eapply run_inv; eauto).
  assert (RD : D s'). { apply (reach_D (l ++ l')). clear -H R. revert H. generalize init. induction l as [|a l IH]; intros s0 H; cbn in *; [injection H as <-; assumption|]. destruct (exec s0 a); [auto|discriminate]. }
  assert (E : forall i k, nth_error (ag s') i = Some k -> k = []).
  { intros i [|f k] N; [reflexivity|]. exfalso. specialize (B i). cbn [exec] in B. rewrite N in B. destruct f; cbn [step] in B; cbv zeta in B; repeat match goal with H : context [match ?x with _ => _ end] |- _ => destruct x eqn:?; try discriminate end; try discriminate.
    pose proof (ct_ge _ _ _ uf N) as W. cbn in W. rewrite (v_uf _ I') in U' by lia. discriminate. }
  pose proof (d_live _ RD U' (idle_ct _ isw E)) as F. rewrite (idle_ct _ dt E) in F. destruct (fre s'); [reflexivity|discriminate].
Qed.

Print Assumptions C59_serial.
Print Assumptions C59_order.
Print Assumptions C59_full.
Print Assumptions C59_pop_partial.
Print Assumptions C59_pop_refuted.
Print Assumptions C60_partial.
Print Assumptions C60_refuted.
Print Assumptions C60_dead.
Print Assumptions C60_drains.
Print Assumptions C81_partial.
Print Assumptions C81_refuted.
Print Assumptions C81_fail_refuted.
Print Assumptions C82_final.
Print Assumptions C82_freed.

(** * Examples *)
Definition to (i n : nat) : list act := map Step (repeat i n).
Definition ex1 : list act := [Post 7] ++ to 0 5 ++ to 1 4 ++ [Post 8; Post 9] ++ to 2 3 ++ to 3 2 ++ to 2 2 ++ to 3 5 ++ to 1 5.
(** Three tasks posted by three threads while the first runs; 8 is running, 9 waits. *)
Example C59_case : match run init ex1 with Some s => accs (log s) = [7; 8; 9] /\ starts (log s) = [7; 8] /\ ends (log s) = [7] /\ q s = [9] | None => False end.
Proof. vm_compute. auto. Qed.
(** The hypotheses of C60_partial and C60_drains; the workers finish in eleven more steps. *)
Example C60_case : match run init ex1 with Some s => usr s = true /\ q s <> [] /\ match run s (to 1 11) with Some s' => ends (log s') = [7; 8; 9] /\ ag s' = [[]; []; []; []] | None => False end | None => False end.
Proof. vm_compute. split; [reflexivity|]. split; [discriminate|]. auto. Qed.
(** Join waits for the tasks. *)
Example C81_case : match run init (ex1 ++ [Join] ++ to 4 1 ++ to 1 15 ++ to 4 1) with Some s => exists l1, log s = l1 ++ [EJoin] /\ accs l1 = [7; 8; 9] /\ ends l1 = [7; 8; 9] | None => False end.
Proof. vm_compute. exists [EAcc 7; EStart 7; EAcc 8; EAcc 9; EEnd 7; EStart 8; EEnd 8; EStart 9; EEnd 9]. auto. Qed.
(** The user releases the runner while 8 runs: 9 is cancelled and the runner destroyed. *)
Example C82_case : match run init (ex1 ++ [Drop] ++ to 1 14) with Some s => fre s = true /\ ends (log s) = [7; 8] /\ takes (log s) = [7; 8; 9] | None => False end.
Proof. vm_compute. auto. Qed.
