(** The counts and wake-ups of the model of ThreadTaskRunnerProxyImpl (ProxyModel.v) when tasks dispatch no messages. *)
From Coq Require Import Lia List ZArith Bool Arith.
From Verif Require Import Slots SlotsProofs Threads ThreadModel ThreadProofs ProxyModel ProxyProofs.
Import ListNotations.
Local Open Scope Z_scope.
Local Opaque CW W32.

Definition clean (l : list event) : Prop := ~ In ENest l /\ ~ In EFull l /\ ~ In (ECln true) l.
Lemma clean_app : forall l m, clean (l ++ m) -> clean l.
Proof. intros l m (A & B & C). unfold clean. rewrite in_app_iff in *. tauto. Qed.
Lemma clean_r : forall l m, clean (l ++ m) -> clean m.
Proof. intros l m (A & B & C). unfold clean. rewrite in_app_iff in *. tauto. Qed.

Definition hold (a : agent) : nat := match a with P2 _ | P3 _ => 1 | _ => 0 end.
Definition inadd (a : agent) : nat := match a with P3 _ => 1 | _ => 0 end.
Definition npush (a : agent) : nat := if pushing a then 1 else 0.
Definition p3 (a : agent) : list nat := match a with P3 t => [t] | _ => [] end.
Definition ncan (l : list event) : Z := Z.of_nat (length (filter (fun e => match e with ECan _ => true | _ => false end) l)).
Lemma ncan_app : forall l m, ncan (l ++ m) = ncan l + ncan m.
Proof. intros. unfold ncan. rewrite filter_app, app_length. lia. Qed.
(** A wake-up is on its way. *)
Definition wk (n : nat) (l : list agent) : Prop :=
  (0 < n)%nat \/ (exists i, nth_error l i = Some P5) \/ (exists i, nth_error l i = Some P6) \/ (exists i m, nth_error l i = Some (P4 m) /\ m < 32).
Definition rn (k : list frame) : Z := Z.of_nat (length (tasks k)).
Definition know (s : st) : Prop :=
  match rs s with
  | [] => re s = 0 /\ pd s = 0 /\ pn s = 0 /\ ncan (log s) = 0
  | [Pr E0] | [Pr H2] | [Pr X0] => re s = 0 /\ pd s = 0 /\ pn s = 0 /\ ncan (log s) = 0
  | [Pr W0] | [Pr W1] | [Pr D0] | [Pr D1] | [Pr D2] | [Run _; Pr D3] => re s = 1 /\ 0 <= pd s /\ 1 <= pn s /\ pn s + pd s <= cn (fl s) /\ ncan (log s) = 0
  | [Pr D3] => re s = 1 /\ 0 <= pd s /\ 0 <= pn s /\ pn s + pd s <= cn (fl s) /\ ncan (log s) = 0
  | [Pr F0] => re s = 1 /\ 0 <= pd s <= cn (fl s) /\ (pn s = 0 \/ us s = 0%nat \/ it (fl s) = true) /\ ncan (log s) = 0
  | [Pr H0] => re s = 0 /\ pd s = 0 /\ (pn s = 0 \/ us s = 0%nat \/ it (fl s) = true) /\ ncan (log s) = 0
  | [Pr H1] => re s = 0 /\ pd s = 0 /\ (pn s = 0 \/ it (fl s) = true) /\ ncan (log s) = 0
  | [Pr C0] | [Pr C1] => re s = 0 /\ pd s = 0
  | _ => False
  end.
Definition ex (s : st) : Prop := us s = 0%nat \/ In EStop (log s).
Definition wake (s : st) : Prop :=
  match rs s with
  | [Pr E0] | [Pr W0] | [Pr W1] => True
  | [Pr D0] | [Pr D1] | [Pr D2] | [Pr D3] | [Pr F0] | [Run _; Pr D3] => ex s \/ (0 < mq s)%nat
  | [Pr C0] | [Pr C1] => ex s
  | _ => ex s \/ cn (fl s) = 0 \/ wk (mq s) (ag s)
  end.
Record A (s : st) : Prop := {
  a_cn : 0 <= cn (fl s) <= CW - 4;
  a_bg : bg (fl s) = false;
  a_lk : Z.of_nat (suml hold (ag s)) = bit (lk (fl s));
  a_c : cn (fl s) + Z.of_nat (suml inadd (ag s)) = Z.of_nat (length (q s)) + rn (rs s) + pd s + ncan (log s);
  a_k : know s;
  a_s : sp (fl s) = true \/ it (fl s) = true -> In EStop (log s);
  a_n : ~ In ENull (log s) }.
Record B (s : st) : Prop := {
  b_f : fl s = term;
  b_q : q s = [];
  b_p : suml npush (ag s) = 0%nat;
  b_d : pd s = 0;
  b_k : match rs s with
        | [] | [Pr E0] | [Pr H0] | [Pr H1] | [Pr C0] | [Pr C1] | [Pr X0] => re s = 0
        | [Pr W0] | [Pr D0] | [Pr D1] | [Pr F0] => re s = 1
        | _ => False end }.
Definition was (s : st) : Prop := In (ECln false) (log s).
Record Inv (s : st) : Prop := {
  v_2 : w2 s = 0;
  v_ph : (~ was s /\ A s) \/ (was s /\ B s);
  v_a : pushed (log s) = accepted (log s) ++ flat_map p3 (ag s) }.
Lemma CWv : CW = 268435456. Proof. reflexivity. Qed.
Lemma W32v : W32 = 4294967296. Proof. reflexivity. Qed.
Lemma Inv_init : Inv init.
Proof.
  constructor; cbn; auto. left. split; [tauto|]. constructor; cbn; auto; rewrite ?CWv; try lia; try reflexivity.
Qed.

(** Lists of agents. *)
Lemma p3_none : forall l, suml inadd l = 0%nat -> flat_map p3 l = [].
Proof. induction l as [|a l IH]; cbn; intros H; auto. destruct a; cbn in *; try (apply IH; lia). discriminate. Qed.
Lemma in_hold : forall l, (suml inadd l <= suml hold l)%nat.
Proof. induction l as [|[] l IH]; cbn; lia. Qed.
Lemma hold_push : forall l, (suml hold l <= suml npush l)%nat.
Proof. induction l as [|[] l IH]; cbn; lia. Qed.
Lemma npush_ex : forall l, existsb pushing l = false -> suml npush l = 0%nat.
Proof. induction l as [|a l IH]; cbn; intros H; auto. apply orb_false_iff in H. destruct H as (X & Y). unfold npush at 1. rewrite X, IH; auto. Qed.
Lemma nbusy_push : forall l, (suml npush l <= suml nbusy l)%nat.
Proof. induction l as [|[] l IH]; cbn; lia. Qed.
Lemma p3_set : forall l i a y, nth_error l i = Some a -> p3 a = p3 y -> flat_map p3 (set l i y) = flat_map p3 l.
Proof.
  induction l as [|b l IH]; intros [|i] a y G E; cbn in *; try discriminate.
  - injection G as ->. rewrite E. reflexivity.
  - f_equal. exact (IH _ _ _ G E).
Qed.
Lemma p3_add : forall l i a t, nth_error l i = Some a -> suml inadd l = 0%nat -> flat_map p3 (set l i (P3 t)) = [t].
Proof.
  induction l as [|b l IH]; intros [|i] a t G E; cbn in *; try discriminate.
  - rewrite p3_none; [reflexivity|lia].
  - destruct b; cbn in *; try (apply (IH _ _ _ G); lia); discriminate.
Qed.
Lemma p3_one : forall l i t, nth_error l i = Some (P3 t) -> suml inadd l = 1%nat -> flat_map p3 l = [t].
Proof.
  induction l as [|b l IH]; intros [|i] t G E; cbn in *; try discriminate.
  - injection G as ->. cbn in *. rewrite p3_none; [reflexivity|lia].
  - pose proof (suml_ge _ inadd _ _ _ G) as X. cbn in X. destruct b; cbn in *; try (apply (IH _ _ G); lia); lia.
Qed.
Lemma wk_app : forall n l a, wk n l -> wk n (l ++ [a]).
Proof.
  intros n l a [H|[(i & H)|[(i & H)|(i & m & H & L)]]]; [left; assumption|right; left|right; right; left|right; right; right].
  - exists i. rewrite nth_error_app1; [assumption|]. apply nth_error_Some; congruence.
  - exists i. rewrite nth_error_app1; [assumption|]. apply nth_error_Some; congruence.
  - exists i, m. rewrite nth_error_app1; [auto|]. apply nth_error_Some; congruence.
Qed.
Lemma nth_same : forall (l : list agent) i x y, nth_error l i = Some x -> nth_error (set l i y) i = Some y.
Proof. intros l i x y H. apply nth_set_eq. apply nth_error_Some. congruence. Qed.
Lemma wk_set : forall n l i a y, nth_error l i = Some a -> wk n l ->
  (a = P5 -> y = P6) -> (a <> P6) -> (forall m, a = P4 m -> m < 32 -> y = P5) -> wk n (set l i y).
Proof.
  intros n l i a y G [H|[(j & H)|[(j & H)|(j & m & H & L)]]] N5 N6 N4; [left; assumption| | |].
  - destruct (Nat.eq_dec i j) as [->|N].
    + right; right; left. exists j. rewrite (nth_same _ _ _ _ G). rewrite N5; congruence.
    + right; left. exists j. rewrite nth_set_neq; auto.
  - destruct (Nat.eq_dec i j) as [->|N]; [congruence|]. right; right; left. exists j. rewrite nth_set_neq; auto.
  - destruct (Nat.eq_dec i j) as [->|N].
    + right; left. exists j. rewrite (nth_same _ _ _ _ G). rewrite (N4 m); congruence.
    + right; right; right. exists j, m. rewrite nth_set_neq; auto.
Qed.
(** The steps of the runner's thread. *)
Lemma A_same : forall s s', A s -> fl s' = fl s -> ag s' = ag s -> q s' = q s -> log s' = log s -> rn (rs s') = rn (rs s) -> pd s' = pd s -> know s' -> A s'.
Proof. intros s s' [a1 a2 a3 a4 a5 a6 a7] E1 E2 E3 E4 E5 E6 K. constructor; rewrite ?E1, ?E2, ?E3, ?E4, ?E5, ?E6; auto. Qed.
Lemma Inv_A : forall s s', Inv s -> A s' -> ~ was s' -> w2 s' = w2 s -> pushed (log s') = accepted (log s') ++ flat_map p3 (ag s') -> Inv s'.
Proof. intros s s' I A' N E P. constructor; [rewrite E; apply (v_2 _ I)|left; auto|exact P]. Qed.
Lemma Inv_As : forall s s', Inv s -> A s' -> ~ was s -> w2 s' = w2 s -> log s' = log s -> ag s' = ag s -> Inv s'.
Proof. intros s s' I A' N E L G. apply (Inv_A s); auto; unfold was; rewrite ?L, ?G; auto. apply (v_a _ I). Qed.
Lemma was_app : forall (l m : list event), ~ In (ECln false) l -> ~ In (ECln false) m -> ~ In (ECln false) (l ++ m).
Proof. intros l m X Y H. apply in_app_or in H. tauto. Qed.
Lemma sub_dec : forall f d, 0 <= d <= cn f -> cn f < CW -> dec ((enc f - 16 * d) mod W32) = FL (lk f) (sp f) (it f) (bg f) (cn f - d).
Proof.
  intros [a b c e n] d D N. cbn [lk sp it bg cn] in *. rewrite <- (dec_enc (FL a b c e (n - d))). f_equal.
  unfold enc. cbn [lk sp it bg cn]. rewrite CWv in N. rewrite Z.mod_small; rewrite ?W32v; destruct a, b, c, e; cbn [bit]; lia.
Qed.
Ltac ks := unfold know, rn in *; cbn [rs log fl us pn pd re w_rs w_pn w_re w_mq w_q w_pd w_fl say tasks length cn it] in *.
Lemma move_A : forall s s', move s = Some s' -> F s -> Inv s -> ~ was s -> A s -> clean (log s') -> Inv s'.
Proof.
  intros s s' M Fs I N HA C. pose proof HA as [a1 a2 a3 a4 a5 a6 a7]. pose proof CWv as cwv. pose proof W32v as w32v.
  unfold move in M. destruct (rs s) as [|[x|t] k] eqn:R; try discriminate.
  assert (k = []) as ->. { unfold know in a5. rewrite R in a5. destruct x; destruct k; tauto. }
  unfold know in a5. rewrite R in a5. destruct x; cbv zeta in M; try contradiction.
  - destruct a5 as (k1 & k2 & k3 & k4). rewrite k1, k2, k3 in M. change (0 =? 0) with true in M. cbv iota in M.
    replace (0 + (cn (fl s) - 0 - 0)) with (cn (fl s)) in M by lia. rewrite Z.mod_small in M by (rewrite w32v; lia).
    destruct (Z.eqb_spec (cn (fl s)) 0) as [e|e]; injection M as <-; (eapply Inv_As; [exact I| |exact N|reflexivity|reflexivity|reflexivity]); (eapply A_same; [exact HA|reflexivity|reflexivity|reflexivity|reflexivity|rewrite R; reflexivity|reflexivity|ks]).
    + repeat split; auto; lia.
    + rewrite Z.mod_small by (rewrite w32v; lia). repeat split; auto; lia.
  - injection M as <-. (eapply Inv_As; [exact I| |exact N|reflexivity|reflexivity|reflexivity]); (eapply A_same; [exact HA|reflexivity|reflexivity|reflexivity|reflexivity|rewrite R; reflexivity|reflexivity|ks]).
    destruct (sp (fl s)); tauto.
  - injection M as <-. (eapply Inv_As; [exact I| |exact N|reflexivity|reflexivity|reflexivity]); (eapply A_same; [exact HA|reflexivity|reflexivity|reflexivity|reflexivity|rewrite R; reflexivity|reflexivity|ks]); tauto.
  - injection M as <-. (eapply Inv_As; [exact I| |exact N|reflexivity|reflexivity|reflexivity]); (eapply A_same; [exact HA|reflexivity|reflexivity|reflexivity|reflexivity|rewrite R; reflexivity|reflexivity|ks]).
    unfold shared, refs. rewrite R. cbn [procs]. destruct (Nat.ltb_spec 1 (us s + 1)); [tauto|]. repeat split; try tauto; try lia.
  - injection M as <-. (eapply Inv_As; [exact I| |exact N|reflexivity|reflexivity|reflexivity]); (eapply A_same; [exact HA|reflexivity|reflexivity|reflexivity|reflexivity|rewrite R; reflexivity|reflexivity|ks]).
    destruct (it (fl s)); [|tauto]. repeat split; try tauto; lia.
  - destruct a5 as (k1 & k2 & k3 & k4 & k5). unfold rn in a4. rewrite ?R in a4. cbn [tasks length] in a4.
    destruct (q s) as [|t r] eqn:Q; [exfalso; cbn [length] in a4; lia|]. injection M as <-.
    apply (Inv_A s); auto; cbn.
    + constructor; cbn; auto; ks; rewrite ?ncan_app; cbn [length] in *; try lia.
      * change (ncan [EStart t]) with 0. lia.
      * change (ncan [EStart t]) with 0. lia.
      * intros X. apply in_or_app. auto.
      * intros X. apply in_app_or in X. destruct X as [X|[X|[]]]; [auto|discriminate].
    + unfold was. cbn. apply was_app; auto. intros [X|[]]; discriminate.
    + rewrite pushed_app, accepted_app. cbn. rewrite !app_nil_r. apply (v_a _ I).
  - destruct a5 as (k1 & k2 & k3 & k4 & k5). injection M as <-. (eapply Inv_As; [exact I| |exact N|reflexivity|reflexivity|reflexivity]); (eapply A_same; [exact HA|reflexivity|reflexivity|reflexivity|reflexivity|rewrite R; reflexivity|reflexivity|ks]).
    rewrite k1. change (1 - 1) with 0. rewrite Z.mod_small by (rewrite w32v; lia). destruct (Z.eqb_spec (pn s) 0); repeat split; auto; lia.
  - destruct a5 as (k1 & k2 & k3 & k4). rewrite sub_dec in M by lia. rewrite k1 in M. change (1 - 1) with 0 in M. change (0 mod W32) with 0 in M.
    unfold rn in a4. rewrite ?R in a4. cbn [tasks length] in a4.
    destruct (Z.eqb_spec (pd s) 0) as [e|e]; injection M as <-.
    + (eapply Inv_As; [exact I| |exact N|reflexivity|reflexivity|reflexivity]); (eapply A_same; [exact HA|reflexivity|reflexivity|reflexivity|reflexivity|rewrite R; reflexivity|reflexivity|ks]); tauto.
    + eapply Inv_As; [exact I| |exact N|reflexivity|reflexivity|reflexivity].
      constructor; cbn; auto; ks; try lia; tauto.
  - injection M as <-. (eapply Inv_As; [exact I| |exact N|reflexivity|reflexivity|reflexivity]); (eapply A_same; [exact HA|reflexivity|reflexivity|reflexivity|reflexivity|rewrite R; reflexivity|reflexivity|ks]).
    unfold shared, refs. rewrite R. cbn [procs]. destruct (Nat.ltb_spec 1 (us s + 1)); [|tauto]. destruct a5 as (k1 & k2 & [k3|[k3|k3]] & k4); repeat split; auto. lia.
  - injection M as <-. (eapply Inv_As; [exact I| |exact N|reflexivity|reflexivity|reflexivity]); (eapply A_same; [exact HA|reflexivity|reflexivity|reflexivity|reflexivity|rewrite R; reflexivity|reflexivity|ks]).
    destruct (it (fl s)); [tauto|]. destruct a5 as (k1 & k2 & [k3|k3] & k4); repeat split; auto; discriminate.
  - injection M as <-. (eapply Inv_As; [exact I| |exact N|reflexivity|reflexivity|reflexivity]); (eapply A_same; [exact HA|reflexivity|reflexivity|reflexivity|reflexivity|rewrite R; reflexivity|reflexivity|ks]).
    destruct (_ && _); tauto.
  - destruct (q s) as [|t r] eqn:Q; injection M as <-.
    + (eapply Inv_As; [exact I| |exact N|reflexivity|reflexivity|reflexivity]); (eapply A_same; [exact HA|reflexivity|reflexivity|cbn; congruence|reflexivity|rewrite R; reflexivity|reflexivity|ks]); tauto.
    + apply (Inv_A s); auto; cbn.
      * constructor; cbn; auto; ks; rewrite ?ncan_app; rewrite ?R in *; cbn [length tasks] in *; auto; try lia.
        -- change (ncan [ECan t]) with 1. lia.
        -- intros X. apply in_or_app. auto.
        -- intros X. apply in_app_or in X. destruct X as [X|[X|[]]]; [auto|discriminate].
      * unfold was. cbn. apply was_app; auto. intros [X|[]]; discriminate.
      * rewrite pushed_app, accepted_app. cbn. rewrite !app_nil_r. apply (v_a _ I).
  - injection M as <-. destruct (existsb pushing (ag s) || negb (match q s with [] => true | _ => false end)) eqn:X.
    + exfalso. destruct C as (_ & _ & C). apply C. cbn. apply in_or_app. right. left. reflexivity.
    + apply orb_false_iff in X. destruct X as (X1 & X2). destruct a5 as (k1 & k2).
      constructor; cbn; [apply (v_2 _ I)| |].
      * right. split; [unfold was; cbn; apply in_or_app; right; left; reflexivity|]. constructor; cbn; auto.
        -- destruct (q s); [reflexivity|discriminate].
        -- apply npush_ex. assumption.
      * rewrite pushed_app, accepted_app. cbn. rewrite !app_nil_r. apply (v_a _ I).
  - destruct a5 as (k1 & k2 & k3 & k4). injection M as <-.
    destruct (gone_eq (w_rs s [])) as [(G & ->)|(G & ->)].
    + (eapply Inv_As; [exact I| |exact N|reflexivity|reflexivity|reflexivity]); (eapply A_same; [exact HA|reflexivity|reflexivity|reflexivity|reflexivity|rewrite R; reflexivity|reflexivity|ks]); tauto.
    + unfold refs in G. cbn in G. assert (U : us s = 0%nat) by lia. destruct (f_u _ Fs U) as (u1 & _). pose proof (nbusy_push (ag s)).
      destruct (cans (q s)) as (c1 & c2 & c3 & c4).
      constructor; cbn; [apply (v_2 _ I)| |].
      * right. split; [unfold was; cbn; apply in_or_app; right; apply in_or_app; right; left; reflexivity|]. constructor; cbn; auto. lia.
      * rewrite !pushed_app, !accepted_app, c1, c2. cbn. rewrite !app_nil_r. apply (v_a _ I).
Qed.
Lemma Inv_Bs : forall s s', Inv s -> B s' -> was s -> w2 s' = w2 s -> log s' = log s -> ag s' = ag s -> Inv s'.
Proof. intros s s' I B' N E L G. constructor; [rewrite E; apply (v_2 _ I)|right; split; [unfold was; rewrite L; exact N|exact B']|rewrite L, G; apply (v_a _ I)]. Qed.
Lemma move_B : forall s s', move s = Some s' -> Inv s -> was s -> B s -> Inv s'.
Proof.
  intros s s' M I N [b1 b2 b3 b4 b5]. pose proof W32v as w32v.
  unfold move in M. destruct (rs s) as [|[x|t] k] eqn:R; try discriminate.
  assert (k = []) as -> by (destruct x; destruct k; tauto).
  destruct x; cbv zeta in M; try contradiction; rewrite ?b1, ?b2 in M; cbn [sp it term cn] in M.
  all: try (injection M as <-; eapply Inv_Bs; [exact I| |exact N|reflexivity|reflexivity|reflexivity]; constructor; cbn; auto; fail).
  - rewrite b5, b4 in M. change (0 - 0 - 0) with 0 in M. destruct (Z.eqb_spec (pn s) 0) as [e|e].
    + rewrite e in M. change ((0 + 0) mod W32) with 0 in M. cbn [Z.eqb] in M. injection M as <-. eapply Inv_Bs; [exact I| |exact N|reflexivity|reflexivity|reflexivity]; constructor; cbn; auto.
    + destruct (Z.eqb_spec (pn s) 0); [contradiction|]. injection M as <-. eapply Inv_Bs; [exact I| |exact N|reflexivity|reflexivity|reflexivity]; constructor; cbn; auto.
  - injection M as <-. eapply Inv_Bs; [exact I| |exact N|reflexivity|reflexivity|reflexivity]; constructor; cbn; auto. destruct (refs s) as [|[|]]; assumption.
  - rewrite b4, b5 in M. cbn [Z.eqb] in M. injection M as <-. eapply Inv_Bs; [exact I| |exact N|reflexivity|reflexivity|reflexivity]; constructor; cbn; auto.
  - injection M as <-. eapply Inv_Bs; [exact I| |exact N|reflexivity|reflexivity|reflexivity]; constructor; cbn; auto. destruct (refs s) as [|[|]]; assumption.
  - injection M as <-. constructor; cbn; [apply (v_2 _ I)| |].
    + right. split; [unfold was; cbn; apply in_or_app; auto|]. constructor; cbn; auto.
    + rewrite pushed_app, accepted_app. cbn. rewrite !app_nil_r. apply (v_a _ I).
  - injection M as <-. destruct (gone_eq (w_rs s [])) as [(G & ->)|(G & ->)].
    + eapply Inv_Bs; [exact I| |exact N|reflexivity|reflexivity|reflexivity]; constructor; cbn; auto.
    + cbn. rewrite b2. constructor; cbn; [apply (v_2 _ I)| |].
      * right. split; [unfold was; cbn; apply in_or_app; auto|]. constructor; cbn; auto.
      * rewrite pushed_app, accepted_app. cbn. rewrite !app_nil_r. apply (v_a _ I).
Qed.
(** The steps of the other threads. *)
Lemma know_fl : forall s s', rs s' = rs s -> re s' = re s -> pd s' = pd s -> pn s' = pn s -> ncan (log s') = ncan (log s) -> us s' = us s ->
  cn (fl s) <= cn (fl s') -> (it (fl s) = true -> it (fl s') = true) -> know s -> know s'.
Proof.
  intros s s' E1 E2 E3 E4 E5 E6 L T K. unfold know in *. rewrite E1, E2, E3, E4, E5, E6.
  destruct (rs s) as [|[x|t] [|[y|] [|]]]; try exact K; destruct x || destruct y; try exact K; intuition lia.
Qed.
Ltac tri SF := try reflexivity; auto; try (intros [X|[]]; discriminate); try (intros [X|[X|[]]]; discriminate);
  try (intros _; apply in_or_app; right; left; reflexivity); try apply SF.
Lemma step_A : forall s i s', step s i = Some s' -> Inv s -> ~ was s -> A s -> clean (log s') -> Inv s'.
Proof.
  intros s i s' E I N HA C. pose proof HA as [a1 a2 a3 a4 a5 a6 a7]. pose proof CWv as cwv. pose proof W32v as w32v.
  unfold step in E. destruct (nth_error (ag s) i) as [a|] eqn:G; [|discriminate].
  assert (H1 : forall y, Z.of_nat (suml hold (set (ag s) i y)) = Z.of_nat (suml hold (ag s)) + Z.of_nat (hold y) - Z.of_nat (hold a)).
  { intros y. pose proof (suml_set _ hold _ _ _ y G). lia. }
  assert (H2 : forall y, Z.of_nat (suml inadd (set (ag s) i y)) = Z.of_nat (suml inadd (ag s)) + Z.of_nat (inadd y) - Z.of_nat (inadd a)).
  { intros y. pose proof (suml_set _ inadd _ _ _ y G). lia. }
  pose proof (suml_ge _ hold _ _ _ G) as G1. pose proof (suml_ge _ inadd _ _ _ G) as G2. pose proof (in_hold (ag s)) as G3.
  pose proof (v_a _ I) as VA.
  assert (TR : forall y e f m, p3 a = p3 y -> hold y = hold a -> inadd y = inadd a -> ncan e = 0 -> pushed e = [] -> accepted e = [] -> ~ In (ECln false) e -> ~ In ENull e ->
    cn f = cn (fl s) -> bg f = bg (fl s) -> lk f = lk (fl s) -> (it (fl s) = true -> it f = true) -> (sp f = true \/ it f = true -> In EStop (log s ++ e)) ->
    Inv (say (put (w_mq (w_fl s f) m) i y) e)).
  { intros y e f m P Hy Iy E1 E2 E3 E4 E5 E6 E7 E8 E9 E10. apply (Inv_A s); auto; cbn.
    - constructor; cbn; auto; rewrite ?E6, ?E7, ?E8, ?H1, ?H2, ?Hy, ?Iy, ?ncan_app; try lia; auto.
      + eapply (know_fl s); cbn; auto; rewrite ?ncan_app; lia.
      + intros X. apply in_app_or in X. tauto.
    - unfold was. cbn. apply was_app; auto.
    - rewrite pushed_app, accepted_app, E2, E3, !app_nil_r, (p3_set _ _ _ _ G P). exact VA. }
  assert (SF : forall e, sp (fl s) = true \/ it (fl s) = true -> In EStop (log s ++ e)) by (intros e X; apply in_or_app; auto).
  assert (T0 : forall y m, p3 a = p3 y -> hold y = hold a -> inadd y = inadd a -> Inv (put (w_mq s m) i y)).
  { intros y m P Hy Iy. apply (Inv_A s); auto; cbn.
    - constructor; cbn; auto; rewrite ?H1, ?H2, ?Hy, ?Iy; try lia.
    - rewrite (p3_set _ _ _ _ G P). exact VA. }
  destruct a; try discriminate; cbv zeta in E.
  - destruct (sp (fl s)) eqn:Sp; injection E as <-.
    + eapply (TR Idle [ERej t] (fl s) (mq s)); rewrite ?Sp; tri SF.
    + apply (T0 (P1 t) (mq s)); reflexivity.
  - destruct (lk (fl s)) eqn:L; injection E as <-; [exact I|].
    apply (Inv_A s); auto; cbn.
    + constructor; cbn; auto; rewrite ?H1, ?H2; cbn; try lia; auto. cbn in a3. lia.
    + rewrite (p3_set _ _ _ _ G); auto.
  - injection E as <-. assert (Lb : lk (fl s) = true) by (destruct (lk (fl s)); [reflexivity|cbn in *; lia]). rewrite Lb in a3. cbn [bit hold inadd] in *.
    assert (S0 : suml inadd (ag s) = 0%nat).
    { clear - a3 G. assert (suml hold (ag s) = 1%nat) as Hh by lia. clear a3. revert i G Hh. induction (ag s) as [|b l IH]; intros [|i] G Hh; cbn in *; try discriminate.
      - injection G as ->. cbn in *. pose proof (in_hold l). lia.
      - pose proof (suml_ge _ hold _ _ _ G) as X. cbn in X. destruct b; cbn in *; try lia; apply (IH _ G); lia. }
    apply (Inv_A s); auto; cbn.
    + constructor; cbn; auto; rewrite ?H1, ?H2, ?ncan_app, ?app_length; cbn; try lia; auto.
      * rewrite Lb. cbn [bit]. lia.
      * eapply (know_fl s); cbn; auto; try lia. rewrite ncan_app. change (ncan [EPush t]) with 0. lia.
      * intros X. apply in_app_or in X. destruct X as [X|[X|[]]]; [auto|discriminate].
    + unfold was. cbn. apply was_app; auto. intros [X|[]]; discriminate.
    + rewrite pushed_app, accepted_app. cbn. rewrite app_nil_r, (p3_add _ _ _ _ G S0), VA, (p3_none _ S0), app_nil_r. reflexivity.
  - assert (Lb : lk (fl s) = true) by (destruct (lk (fl s)); [reflexivity|cbn in *; lia]). pose proof a3 as a3'. rewrite Lb in a3'. cbn [bit hold inadd] in *.
    assert (S1 : suml inadd (ag s) = 1%nat) by lia.
    injection E as <-. destruct (Z.leb_spec (CW - 4) (cn (fl s))) as [Z|Z].
    { exfalso. destruct C as (_ & C & _). apply C. cbn. apply in_or_app. right. right. left. reflexivity. }
    apply (Inv_A s); auto; cbn [w2 say put w_ag w_fl log ag].
    + constructor; cbn [fl log ag rs us q re pn pd mq say put w_ag w_fl]; rewrite ?unlock_locked by (auto; lia); cbn [cn bg lk sp it]; rewrite ?H1, ?H2, ?ncan_app; cbn [hold inadd];
        rewrite ?(Z.mod_small (cn (fl s) + 1)) by lia; try lia; auto.
      * cbn [bit]. lia.
      * change (ncan [EAcc t]) with 0. lia.
      * eapply (know_fl s); cbn [fl log ag rs us q re pn pd mq say put w_ag w_fl]; auto; rewrite ?unlock_locked by (auto; lia); cbn [cn it]; rewrite ?ncan_app, ?(Z.mod_small (cn (fl s) + 1)) by lia; try lia; auto.
        change (ncan [EAcc t]) with 0. lia.
      * intros X. apply in_app_or in X. destruct X as [X|[X|[]]]; [auto|discriminate].
    + unfold was. cbn. apply was_app; auto. intros [X|[]]; discriminate.
    + rewrite pushed_app, accepted_app. cbn [pushed accepted flat_map app]. rewrite app_nil_r, VA, (p3_one _ _ _ G S1).
      rewrite p3_none; [rewrite app_nil_r; reflexivity|]. pose proof (H2 (P4 (enc (unlock (fl s))))) as X. cbn [inadd] in X. lia.
  - injection E as <-. destruct (n <? _); [apply (T0 P5 (mq s))|apply (T0 Idle (mq s))]; reflexivity.
  - injection E as <-. destruct (sp (fl s)); [apply (T0 Idle (mq s))|apply (T0 P6 (mq s))]; reflexivity.
  - injection E as <-. apply (T0 Idle (S (mq s))); reflexivity.
  - destruct (enc (fl s) <? 16); injection E as <-.
    + replace (say (put (say (w_fl s (w_sp (fl s))) [EStop]) i Idle) [EJoin]) with (say (put (w_mq (w_fl s (w_sp (fl s))) (mq s)) i Idle) [EStop; EJoin]) by (unfold say, put; cbn; rewrite <- app_assoc; reflexivity).
      eapply TR; tri SF.
    + change (put (say (w_fl s (w_sp (fl s))) [EStop]) i J1) with (say (put (w_mq (w_fl s (w_sp (fl s))) (mq s)) i J1) [EStop]).
      eapply TR; tri SF.
  - destruct (enc (fl s) =? 6); [|discriminate]. injection E as <-.
    change (say (put s i Idle) [EJoin]) with (say (put (w_mq (w_fl s (fl s)) (mq s)) i Idle) [EJoin]).
    eapply TR; tri SF.
Qed.
Lemma step_B : forall s i s', step s i = Some s' -> Inv s -> was s -> B s -> Inv s'.
Proof.
  intros s i s' E I N HB. pose proof HB as [b1 b2 b3 b4 b5]. pose proof (v_a _ I) as VA.
  unfold step in E. destruct (nth_error (ag s) i) as [a|] eqn:G; [|discriminate].
  pose proof (suml_ge _ npush _ _ _ G) as G1.
  assert (H1 : forall y, Z.of_nat (suml npush (set (ag s) i y)) = Z.of_nat (suml npush (ag s)) + Z.of_nat (npush y) - Z.of_nat (npush a)).
  { intros y. pose proof (suml_set _ npush _ _ _ y G). lia. }
  assert (T : forall y m e, p3 a = p3 y -> npush y = 0%nat -> pushed e = [] -> accepted e = [] -> Inv (say (put (w_mq s m) i y) e)).
  { intros y m e P Ny E1 E2. constructor; cbn; [apply (v_2 _ I)| |].
    - right. split; [unfold was; cbn; apply in_or_app; auto|]. constructor; cbn; auto. pose proof (H1 y). lia.
    - rewrite pushed_app, accepted_app, E1, E2, !app_nil_r, (p3_set _ _ _ _ G P). exact VA. }
  assert (T0 : forall y m, p3 a = p3 y -> npush y = 0%nat -> Inv (put (w_mq s m) i y)).
  { intros y m P Ny. constructor; cbn; [apply (v_2 _ I)| |].
    - right. split; [exact N|]. constructor; cbn; auto. pose proof (H1 y). lia.
    - rewrite (p3_set _ _ _ _ G P). exact VA. }
  assert (WF : w_fl s term = s) by (destruct s; cbn in *; rewrite b1; reflexivity).
  destruct a; try discriminate; cbv zeta in E; try (cbn in G1; exfalso; lia).
  - rewrite b1 in E. cbn [sp term] in E. injection E as <-. apply (T Idle (mq s) [ERej t]); reflexivity.
  - injection E as <-. destruct (n <? _); [apply (T0 P5 (mq s))|apply (T0 Idle (mq s))]; reflexivity.
  - injection E as <-. destruct (sp (fl s)); [apply (T0 Idle (mq s))|apply (T0 P6 (mq s))]; reflexivity.
  - injection E as <-. apply (T0 Idle (S (mq s))); reflexivity.
  - rewrite b1 in E. change (w_sp term) with term in E. rewrite WF in E. destruct (enc term <? 16); injection E as <-.
    + replace (say (put (say s [EStop]) i Idle) [EJoin]) with (say (put (w_mq s (mq s)) i Idle) [EStop; EJoin]) by (unfold say, put; cbn; rewrite <- app_assoc; reflexivity).
      apply T; reflexivity.
    + apply (T J1 (mq s) [EStop]); reflexivity.
  - destruct (enc (fl s) =? 6); [|discriminate]. injection E as <-. apply (T Idle (mq s) [EJoin]); reflexivity.
Qed.
Lemma suml_one : forall (f : agent -> nat) l a, f a = 0%nat -> suml f (l ++ [a]) = suml f l.
Proof. intros f l a H. rewrite suml_app. cbn. lia. Qed.
Lemma Inv_ag : forall s a, Inv s -> hold a = 0%nat -> npush a = 0%nat -> inadd a = 0%nat -> p3 a = [] -> Inv (w_ag s (ag s ++ [a])).
Proof.
  intros s a I h1 h2 h3 h4. constructor; cbn; [apply (v_2 _ I)| |].
  - destruct (v_ph _ I) as [(N & [a1 a2 a3 a4 a5 a6 a7])|(N & [b1 b2 b3 b4 b5])]; [left|right]; (split; [exact N|]); constructor; cbn; rewrite ?suml_one; auto.
  - rewrite flat_map_app. cbn. rewrite h4, !app_nil_r. apply (v_a _ I).
Qed.
Lemma know_us : forall s n, us s <> 0%nat -> know s -> know (w_us s n).
Proof.
  intros s n U K. unfold know in *. cbn in *.
  destruct (rs s) as [|[x|t] [|[y|] [|]]]; try exact K; destruct x || destruct y; try exact K; intuition lia.
Qed.
Lemma exec_Inv : forall a s s', exec s a = Some s' -> F s -> Inv s -> clean (log s') -> Inv s'.
Proof.
  intros a s s' E Fs I C. pose proof W32v as w32v. pose proof CWv as cwv.
  destruct a; cbn in E.
  - destruct (v_ph _ I) as [(N & HA)|(N & HB)]; [exact (move_A _ _ E Fs I N HA C)|exact (move_B _ _ E I N HB)].
  - unfold ret in E. destruct (rs s) as [|[x|t] k] eqn:R; try discriminate. injection E as <-.
    destruct (v_ph _ I) as [(N & [a1 a2 a3 a4 a5 a6 a7])|(N & [b1 b2 b3 b4 b5])].
    + unfold know in a5. rewrite R in a5. destruct k as [|[[]|] [|]]; try contradiction. destruct a5 as (k1 & k2 & k3 & k4 & k5).
      unfold rn in a4. rewrite R in a4. cbn [tasks length] in a4.
      apply (Inv_A s); auto; cbn.
      * constructor; cbn; auto; ks; rewrite ?ncan_app; change (ncan [EEnd t]) with 0; rewrite ?(Z.mod_small (pd s + 1)), ?(Z.mod_small (pn s - 1)) by (rewrite w32v; lia); try lia.
        -- intros X. apply in_or_app. auto.
        -- intros X. apply in_app_or in X. destruct X as [X|[X|[]]]; [auto|discriminate].
      * unfold was. cbn. apply was_app; auto. intros [X|[]]; discriminate.
      * rewrite pushed_app, accepted_app. cbn. rewrite !app_nil_r. apply (v_a _ I).
    + rewrite R in b5. contradiction.
  - unfold dispatch in E. destruct (mq s) as [|n] eqn:Mq; [discriminate|]. cbv zeta in E.
    assert (IM : Inv (w_mq s n)).
    { constructor; cbn; [apply (v_2 _ I)| |apply (v_a _ I)].
      destruct (v_ph _ I) as [(N & [a1 a2 a3 a4 a5 a6 a7])|(N & [b1 b2 b3 b4 b5])]; [left|right]; (split; [exact N|]); constructor; cbn; auto. }
    destruct (rs s) as [|[x|t] k] eqn:R; try discriminate; injection E as <-.
    + destruct (dd s) eqn:D; [exact IM|]. constructor; cbn; rewrite ?app_nil_r; [apply (v_2 _ I)| |apply (v_a _ I)].
      destruct (v_ph _ I) as [(N & [a1 a2 a3 a4 a5 a6 a7])|(N & [b1 b2 b3 b4 b5])]; [left|right]; (split; [unfold was; cbn; rewrite ?app_nil_r; exact N|]); constructor; cbn; rewrite ?app_nil_r; auto.
      * unfold rn in *. rewrite R in a4. exact a4.
      * ks. rewrite ?app_nil_r. rewrite R in a5. exact a5.
      * rewrite R in b5. exact b5.
    + destruct (dd s); [exact IM|]. exfalso. destruct C as (C & _). apply C. cbn. apply in_or_app. right. left. reflexivity.
  - destruct (v_ph _ I) as [(N & HA)|(N & HB)]; [exact (step_A _ _ _ E I N HA C)|exact (step_B _ _ _ E I N HB)].
  - destruct (Nat.eqb (us s) 0); [discriminate|]. injection E as <-. apply Inv_ag; auto.
  - destruct (Nat.eqb (us s) 0); [discriminate|]. injection E as <-. apply Inv_ag; auto.
  - destruct (Nat.eqb (us s) 0); [discriminate|]. injection E as <-. constructor; cbn; [apply (v_2 _ I)| |].
    + destruct (v_ph _ I) as [(N & [a1 a2 a3 a4 a5 a6 a7])|(N & [b1 b2 b3 b4 b5])]; [left|right].
      * split; [unfold was; cbn; apply was_app; auto; intros [X|[]]; discriminate|]. constructor; cbn; auto; rewrite ?ncan_app; change (ncan [EStop]) with 0; try lia.
        -- eapply (know_fl s); cbn; auto; try lia. rewrite ncan_app. change (ncan [EStop]) with 0. lia.
        -- intros _. apply in_or_app. right. left. reflexivity.
        -- intros X. apply in_app_or in X. destruct X as [X|[X|[]]]; [auto|discriminate].
      * split; [unfold was; cbn; apply in_or_app; auto|]. constructor; cbn; auto. rewrite b1. reflexivity.
    + rewrite pushed_app, accepted_app. cbn. rewrite !app_nil_r. apply (v_a _ I).
  - destruct (Nat.eqb_spec (us s) 0) as [|U]; [discriminate|]. cbn in E. destruct (existsb busy (ag s)) eqn:Bz; [discriminate|]. injection E as <-.
    assert (NP : suml npush (ag s) = 0%nat).
    { apply npush_ex. clear - Bz. induction (ag s) as [|a l IH]; auto. cbn in *. apply orb_false_iff in Bz. destruct Bz as (B1 & B2). rewrite (IH B2). destruct a; auto; discriminate. }
    destruct (gone_eq (w_us s (us s - 1)%nat)) as [(G & ->)|(G & ->)].
    + constructor; cbn; [apply (v_2 _ I)| |apply (v_a _ I)].
      destruct (v_ph _ I) as [(N & [a1 a2 a3 a4 a5 a6 a7])|(N & [b1 b2 b3 b4 b5])]; [left|right]; (split; [exact N|]); constructor; cbn; auto. apply know_us; auto.
    + destruct (cans (q s)) as (c1 & c2 & c3 & c4). unfold refs in G. cbn in G.
      assert (R : rs s = []) by (apply procs0; [apply (f_w _ Fs)|lia]).
      constructor; cbn; [apply (v_2 _ I)| |].
      * right. split; [unfold was; cbn; apply in_or_app; right; apply in_or_app; right; left; reflexivity|]. rewrite ?R.
        destruct (v_ph _ I) as [(N & [a1 a2 a3 a4 a5 a6 a7])|(N & [b1 b2 b3 b4 b5])]; constructor; cbn; rewrite ?R; auto.
        -- unfold know in a5. rewrite R in a5. tauto.
        -- unfold know in a5. rewrite R in a5. tauto.
        -- rewrite R in b5. exact b5.
      * rewrite !pushed_app, !accepted_app, c1, c2. cbn. rewrite !app_nil_r. apply (v_a _ I).
Qed.
Lemma run_Inv : forall l s s', run s l = Some s' -> F s -> Inv s -> clean (log s') -> Inv s'.
Proof.
  induction l as [|a l IH]; intros s s' R Fs I C; cbn in R; [injection R as <-; assumption|].
  destruct (exec s a) as [s1|] eqn:E; [|discriminate]. destruct (run_ext _ _ _ R) as (m & L).
  assert (C1 : clean (log s1)) by (rewrite L in C; apply (clean_app _ _ C)).
  exact (IH _ _ R (exec_F _ _ _ E Fs) (exec_Inv _ _ _ E Fs I C1) C).
Qed.

(** Wake-ups are not lost. *)
Definition event_dec : forall a b : event, {a = b} + {a <> b}.
Proof. decide equality; try apply Nat.eq_dec; apply bool_dec. Defined.
Definition Wk (s : st) : Prop := (was s -> ex s) /\ wake s.
Lemma ex_dec : forall s, ex s \/ ~ ex s.
Proof. intros s. unfold ex. destruct (Nat.eq_dec (us s) 0); [auto|]. destruct (in_dec event_dec EStop (log s)); tauto. Qed.
Lemma ex_W : forall s, ex s -> Wk s.
Proof.
  intros s X. split; [auto|]. unfold wake. destruct (rs s) as [|[x|t] [|[y|] [|]]]; auto; destruct x || destruct y; auto.
Qed.
Lemma gone_us : forall s, us (gone s) = us s.
Proof. intros s. destruct (gone_eq s) as [(_ & ->)|(_ & ->)]; reflexivity. Qed.
Lemma exec_us : forall a s s', exec s a = Some s' -> (us s' <= us s)%nat.
Proof.
  intros a s s' E. destruct a; cbn in E.
  - unfold move in E. destruct (rs s) as [|[x|t] k]; try discriminate. destruct x; cbv zeta in E.
    all: repeat match type of E with (if ?c then _ else _) = _ => destruct c | match ?c with _ => _ end = _ => destruct c end; try discriminate; injection E as <-; cbn; try lia.
    + destruct (pd s =? 0); cbn; lia.
    + rewrite gone_us. cbn. lia.
  - unfold ret in E. destruct (rs s) as [|[x|t] k]; try discriminate. injection E as <-. cbn. lia.
  - unfold dispatch in E. destruct (mq s); [discriminate|]. cbv zeta in E. destruct (rs s) as [|[x|t] k]; try discriminate; injection E as <-; destruct (dd s); cbn; lia.
  - unfold step in E. destruct (nth_error (ag s) i) as [[t|t|t|t|n| | | | | ]|]; try discriminate.
    all: cbv zeta in E; repeat match type of E with (if ?c then _ else _) = _ => destruct c end; try discriminate; injection E as <-; cbn; lia.
  - destruct (Nat.eqb (us s) 0); [discriminate|]. injection E as <-. cbn. lia.
  - destruct (Nat.eqb (us s) 0); [discriminate|]. injection E as <-. cbn. lia.
  - destruct (Nat.eqb (us s) 0); [discriminate|]. injection E as <-. cbn. lia.
  - destruct (_ || _); [discriminate|]. injection E as <-. rewrite gone_us. cbn. lia.
Qed.
Lemma exec_ex : forall a s s', exec s a = Some s' -> ex s -> ex s'.
Proof.
  intros a s s' E [X|X]; [left|right].
  - pose proof (exec_us _ _ _ E). lia.
  - destruct (exec_ext _ _ _ E) as (m & ->). apply in_or_app. auto.
Qed.
Ltac wx R := unfold wake in *; rewrite ?R in *; cbn [rs mq fl ag us log w_rs w_pn w_re w_mq w_q w_pd w_fl say put w_ag w_us] in *.
Lemma move_wake : forall s s', move s = Some s' -> A s -> ~ ex s -> wake s -> wake s'.
Proof.
  intros s s' M [a1 a2 a3 a4 a5 a6 a7] X W. pose proof W32v as w32v. pose proof CWv as cwv.
  assert (SP : sp (fl s) = false) by (destruct (sp (fl s)) eqn:e; auto; exfalso; apply X; right; apply a6; auto).
  assert (IT : it (fl s) = false) by (destruct (it (fl s)) eqn:e; auto; exfalso; apply X; right; apply a6; auto).
  assert (U : (1 <= us s)%nat) by (destruct (us s) eqn:e; [exfalso; apply X; left; assumption|lia]).
  unfold move in M. destruct (rs s) as [|[x|t] k] eqn:R; try discriminate.
  assert (k = []) as ->. { unfold know in a5. rewrite R in a5. destruct x; destruct k; tauto. }
  assert (SH : shared s = true) by (unfold shared, refs; rewrite R; cbn [procs]; apply Nat.ltb_lt; lia).
  unfold know in a5. rewrite R in a5. destruct x; cbv zeta in M; try contradiction; rewrite ?SP, ?IT, ?SH in M; cbn [andb] in M.
  - destruct a5 as (k1 & k2 & k3 & k4). rewrite k1, k2, k3 in M. change (0 =? 0) with true in M. cbv iota in M.
    replace (0 + (cn (fl s) - 0 - 0)) with (cn (fl s)) in M by lia. rewrite Z.mod_small in M by (rewrite w32v; lia).
    destruct (Z.eqb_spec (cn (fl s)) 0) as [e|e]; injection M as <-; wx R; auto.
  - injection M as <-. wx R. exact Logic.I.
  - injection M as <-. wx R. right. lia.
  - injection M as <-. wx R. exact W.
  - injection M as <-. wx R. exact W.
  - destruct (q s); injection M as <-; wx R; (destruct W as [W|W]; [contradiction|right; assumption]).
  - injection M as <-. wx R. destruct (_ =? _); exact W.
  - injection M as <-. wx R. destruct W as [W|W]; [contradiction|]. right. right. left. destruct (pd s =? 0); exact W.
  - injection M as <-. wx R. exact W.
  - injection M as <-. wx R. exact W.
  - injection M as <-. wx R. exact W.
  - wx R. contradiction.
  - wx R. contradiction.
  - injection M as <-. destruct (gone_eq (w_rs s [])) as [(G & ->)|(G & ->)].
    + wx R. exact W.
    + unfold refs in G. cbn in G. lia.
Qed.
(** What a step of another thread leaves of a wake condition. *)
Lemma wake_ag : forall s s', ~ ex s -> rs s' = rs s -> (mq s <= mq s')%nat ->
  (cn (fl s) = 0 \/ wk (mq s) (ag s) -> cn (fl s') = 0 \/ wk (mq s') (ag s')) -> wake s -> wake s'.
Proof.
  intros s s' X R M K W. unfold wake in *. rewrite R. destruct (rs s) as [|[x|t] [|[y|] [|]]]; try (destruct W as [W|W]; [contradiction|right; tauto]); destruct x || destruct y;
    first [exact Logic.I|contradiction|destruct W as [W|W]; [contradiction|right; tauto || lia]].
Qed.
Lemma wk_mono : forall n m l, (n <= m)%nat -> wk n l -> wk m l.
Proof. intros n m l L [H|H]; [left; lia|right; exact H]. Qed.
Lemma step_wake : forall s i s', step s i = Some s' -> A s -> ~ ex s -> wake s -> clean (log s') -> ex s' \/ wake s'.
Proof.
  intros s i s' E [a1 a2 a3 a4 a5 a6 a7] X W C. pose proof W32v as w32v. pose proof CWv as cwv.
  assert (SP : sp (fl s) = false) by (destruct (sp (fl s)) eqn:e; auto; exfalso; apply X; right; apply a6; auto).
  assert (IT : it (fl s) = false) by (destruct (it (fl s)) eqn:e; auto; exfalso; apply X; right; apply a6; auto).
  assert (RE : 0 <= re s <= 1).
  { unfold know in a5. destruct (rs s) as [|[x|t] [|[y|] [|]]]; try contradiction; try lia; destruct x || destruct y; try contradiction; lia. }
  unfold step in E. destruct (nth_error (ag s) i) as [a|] eqn:G; [|discriminate].
  pose proof (suml_ge _ hold _ _ _ G) as G1.
  assert (T : forall f y, cn f = cn (fl s) -> (a = P5 -> y = P6) -> a <> P6 -> (forall m, a = P4 m -> m < 32 -> y = P5) -> cn (fl s) = 0 \/ wk (mq s) (ag s) -> cn f = 0 \/ wk (mq s) (set (ag s) i y)).
  { intros f y e n5 n6 n4 [H|H]; [left; congruence|right; apply (wk_set _ _ _ _ _ G H); auto]. }
  destruct a; try discriminate; cbv zeta in E; rewrite ?SP in E.
  - injection E as <-. right. apply (wake_ag s); cbn [rs mq fl ag say put w_ag w_fl w_q]; auto. apply T; auto; discriminate.
  - destruct (lk (fl s)); injection E as <-; [auto|]. right. apply (wake_ag s); cbn [rs mq fl ag say put w_ag w_fl w_q]; auto. apply T; auto; discriminate.
  - injection E as <-. right. apply (wake_ag s); cbn [rs mq fl ag say put w_ag w_fl w_q]; auto. apply T; auto; discriminate.
  - assert (Lb : lk (fl s) = true) by (destruct (lk (fl s)); [reflexivity|cbn in *; lia]).
    injection E as <-. right. destruct (Z.leb_spec (CW - 4) (cn (fl s))) as [Z|Z].
    { exfalso. destruct C as (_ & C & _). apply C. cbn. apply in_or_app. right. right. left. reflexivity. }
    apply (wake_ag s); cbn [rs mq fl ag say put w_ag w_fl w_q]; auto. intros [H|H]; right.
    + right. right. right. exists i, (enc (unlock (fl s))). rewrite (nth_same _ _ _ _ G). split; [reflexivity|].
      rewrite unlock_locked by (auto; lia). unfold enc. cbn [lk sp it bg cn]. rewrite SP, IT, a2, H. cbn [bit]. rewrite Z.mod_small by lia. lia.
    + apply (wk_set _ _ _ _ _ G H); auto; discriminate.
  - remember ((16 * (2 + re s)) mod W32) as th eqn:TH. injection E as <-. right. apply (wake_ag s); cbn [rs mq fl ag say put w_ag w_fl w_q]; auto. apply T; auto; try discriminate.
    intros m e L. injection e as ->. destruct (Z.ltb_spec m th) as [l|l]; [reflexivity|]. rewrite TH, Z.mod_small in l by lia. lia.
  - injection E as <-. right. apply (wake_ag s); cbn [rs mq fl ag say put w_ag w_fl w_q]; auto. apply T; auto; discriminate.
  - injection E as <-. right. apply (wake_ag s); cbn [rs mq fl ag say put w_ag w_fl w_q w_mq]; auto. intros _. right. left. lia.
  - left. right. destruct (enc (fl s) <? 16); injection E as <-; cbn; apply in_or_app; [left; apply in_or_app|]; right; left; reflexivity.
  - destruct (enc (fl s) =? 6); [|discriminate]. injection E as <-. right. apply (wake_ag s); cbn [rs mq fl ag say put w_ag w_fl w_q]; auto. apply T; auto; discriminate.
Qed.
Lemma was_ex : forall a s s', exec s a = Some s' -> F s -> A s -> ~ was s -> wake s -> was s' -> ex s'.
Proof.
  intros a s s' E Fs [a1 a2 a3 a4 a5 a6 a7] N W H. destruct (ex_dec s) as [X|X]; [exact (exec_ex _ _ _ E X)|]. destruct (ex_dec s') as [Z|Z]; [exact Z|exfalso].
  assert (U : (1 <= us s)%nat) by (destruct (us s) eqn:e; [exfalso; apply X; left; assumption|lia]).
  assert (K : forall m, log s' = log s ++ m -> ~ In (ECln false) m -> False).
  { intros m L Nm. unfold was in H. rewrite L in H. apply in_app_or in H. tauto. }
  destruct a; cbn in E.
  - unfold move in E. destruct (rs s) as [|[x|t] k] eqn:R; try discriminate.
    assert (k = []) as ->. { unfold know in a5. rewrite R in a5. destruct x; destruct k; tauto. }
    destruct x; cbv zeta in E.
    all: try (wx R; contradiction).
    all: repeat match type of E with (if ?c then _ else _) = _ => destruct c | match ?c with _ => _ end = _ => destruct c end; try discriminate; injection E as <-.
    all: try (apply (N H)).
    all: try (eapply K; [cbn; reflexivity|intros [Y|[]]; discriminate]).
    + destruct (pd s =? 0); apply (N H).
    + destruct (gone_eq (w_rs s [])) as [(G & e)|(G & e)]; [rewrite e in H; apply (N H)|]. unfold refs in G. cbn in G. lia.
  - unfold ret in E. destruct (rs s) as [|[x|t] k]; try discriminate. injection E as <-. eapply K; [cbn; reflexivity|intros [Y|[]]; discriminate].
  - unfold dispatch in E. destruct (mq s); [discriminate|]. cbv zeta in E. destruct (rs s) as [|[x|t] k]; try discriminate; injection E as <-; destruct (dd s); try apply (N H).
    + eapply K; [cbn; reflexivity|intros []].
    + eapply K; [cbn; reflexivity|intros [Y|[]]; discriminate].
  - unfold step in E. destruct (nth_error (ag s) i) as [[t|t|t|t|n| | | | | ]|]; try discriminate.
    all: cbv zeta in E; repeat match type of E with (if ?c then _ else _) = _ => destruct c end; try discriminate; injection E as <-; try apply (N H).
    all: eapply K; [cbn; rewrite <- ?app_assoc; reflexivity|]; cbn; try tauto; intros Y; repeat (destruct Y as [Y|Y]; try discriminate); try contradiction.
    destruct (_ <=? _); destruct Y as [Y|[]] || destruct Y; discriminate.
  - destruct (Nat.eqb (us s) 0); [discriminate|]. injection E as <-. apply (N H).
  - destruct (Nat.eqb (us s) 0); [discriminate|]. injection E as <-. apply (N H).
  - destruct (Nat.eqb (us s) 0); [discriminate|]. injection E as <-. eapply K; [cbn; reflexivity|intros [Y|[]]; discriminate].
  - destruct (_ || _); [discriminate|]. injection E as <-.
    destruct (gone_eq (w_us s (us s - 1)%nat)) as [(G & e)|(G & e)]; [rewrite e in H; apply (N H)|]. unfold refs in G. cbn in G.
    apply Z. left. rewrite gone_us. cbn. lia.
Qed.
Lemma exec_W : forall a s s', exec s a = Some s' -> F s -> Inv s -> clean (log s') -> Wk s -> Wk s'.
Proof.
  intros a s s' E Fs I C (W1 & W). destruct (ex_dec s) as [X|X]; [apply ex_W; exact (exec_ex _ _ _ E X)|].
  destruct (v_ph _ I) as [(N & HA)|(N & _)]; [|exfalso; auto].
  split; [exact (was_ex _ _ _ E Fs HA N W)|].
  assert (U : (1 <= us s)%nat) by (destruct (us s) eqn:e; [exfalso; apply X; left; assumption|lia]).
  destruct a; cbn in E.
  - exact (move_wake _ _ E HA X W).
  - unfold ret in E. destruct (rs s) as [|[x|t] k] eqn:R; try discriminate. injection E as <-.
    pose proof (a_k _ HA) as a5. unfold know in a5. rewrite R in a5. destruct k as [|[[]|] [|]]; try contradiction. wx R.
    destruct W as [W|W]; [contradiction|right; exact W].
  - unfold dispatch in E. destruct (mq s) as [|n] eqn:Mq; [discriminate|]. cbv zeta in E.
    assert (D : dd s = false) by (destruct (dd s) eqn:D; auto; destruct (f_d _ Fs D) as (_ & _ & Y & _); lia).
    destruct (rs s) as [|[x|t] k] eqn:R; try discriminate; injection E as <-; rewrite D in *.
    + wx R. exact Logic.I.
    + exfalso. destruct C as (C & _). apply C. cbn. apply in_or_app. right. left. reflexivity.
  - destruct (step_wake _ _ _ E HA X W C) as [Y|Y]; [apply ex_W; exact Y|exact Y].
  - destruct (Nat.eqb (us s) 0); [discriminate|]. injection E as <-. apply (wake_ag s); cbn; auto. intros [H|H]; [auto|right; apply wk_app; exact H].
  - destruct (Nat.eqb (us s) 0); [discriminate|]. injection E as <-. apply (wake_ag s); cbn; auto. intros [H|H]; [auto|right; apply wk_app; exact H].
  - destruct (Nat.eqb (us s) 0); [discriminate|]. injection E as <-. apply ex_W. right. cbn. apply in_or_app. right. left. reflexivity.
  - destruct (_ || _); [discriminate|]. injection E as <-.
    destruct (gone_eq (w_us s (us s - 1)%nat)) as [(G & ->)|(G & e)].
    + apply (wake_ag s); cbn; auto.
    + apply ex_W. left. rewrite gone_us. unfold refs in G. cbn in *. lia.
Qed.
Lemma run_W : forall l s s', run s l = Some s' -> F s -> Inv s -> Wk s -> clean (log s') -> Wk s'.
Proof.
  induction l as [|a l IH]; intros s s' R Fs I W C; cbn in R; [injection R as <-; assumption|].
  destruct (exec s a) as [s1|] eqn:E; [|discriminate]. destruct (run_ext _ _ _ R) as (m & L).
  assert (C1 : clean (log s1)) by (rewrite L in C; apply (clean_app _ _ C)).
  exact (IH _ _ R (exec_F _ _ _ E Fs) (exec_Inv _ _ _ E Fs I C1) (exec_W _ _ _ E Fs I C1 W) C).
Qed.
