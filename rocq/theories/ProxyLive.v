(** Progress, Join and lost wake-ups in the model of ThreadTaskRunnerProxyImpl (ProxyModel.v). *)
From Coq Require Import Lia List ZArith Bool Arith.
From Verif Require Import Slots SlotsProofs Threads ThreadModel ThreadProofs ProxyModel ProxyProofs ProxyInv.
Import ListNotations.
Local Open Scope Z_scope.
Local Opaque CW W32.

Definition started (l : list event) : list nat := flat_map (fun e => match e with EStart t => [t] | _ => [] end) l.
Lemma started_app : forall l m, started (l ++ m) = started l ++ started m. Proof. intros; apply flat_map_app. Qed.
Lemma idle_sum : forall l, existsb busy l = false -> suml nbusy l = 0%nat.
Proof. induction l as [|a l IH]; cbn; intros H; auto. apply orb_false_iff in H. destruct H as (X & Y). unfold nbusy at 1. rewrite X, IH; auto. Qed.
Lemma idle_nth : forall l i a, suml nbusy l = 0%nat -> nth_error l i = Some a -> a = Idle.
Proof. intros l i a H G. pose proof (suml_ge _ nbusy _ _ _ G) as X. destruct a; cbn in X; try lia. reflexivity. Qed.
Lemma no_can : forall l, ncan l = 0 -> taken l = started l /\ forall t, ~ In (ECan t) l.
Proof.
  induction l as [|e l IH]; intros H; [cbn; auto|].
  destruct e; try (destruct (IH H) as (X & Y); cbn; unfold taken, started in X; rewrite ?X; split; [reflexivity|intros u [Z|Z]; [discriminate|exact (Y _ Z)]]).
  exfalso. unfold ncan in H. cbn in H. discriminate.
Qed.
(** Nothing is left to do: no message, no call of TaskRunnerProc, no thread in PostTask or Join. *)
Definition quiet (s : st) : Prop := rs s = [] /\ mq s = 0%nat /\ existsb busy (ag s) = false.
Lemma quiet_done : forall l s, run init l = Some s -> clean (log s) -> ~ In EStop (log s) -> us s <> 0%nat -> quiet s ->
  accepted (log s) = started (log s) /\ nest [] (log s) = Some [] /\ forall t, ~ In (ECan t) (log s).
Proof.
  intros l s R C N U (Q1 & Q2 & Q3).
  pose proof (run_F _ _ _ R F_init) as Fs. pose proof (run_Inv _ _ _ R F_init Inv_init C) as I.
  assert (W0 : Wk init) by (split; [intros []|right; left; reflexivity]).
  destruct (run_W _ _ _ R F_init Inv_init W0 C) as (W1 & W).
  assert (NX : ~ ex s) by (intros [X|X]; auto).
  destruct (v_ph _ I) as [(NW & HA)|(NW & _)]; [|exfalso; auto].
  pose proof (idle_sum _ Q3) as S. destruct HA as [a1 a2 a3 a4 a5 a6 a7].
  unfold wake in W. rewrite Q1, Q2 in W. destruct W as [W|[W|W]]; [contradiction| |].
  - unfold know in a5. rewrite Q1 in a5. destruct a5 as (_ & k2 & _ & k4).
    unfold rn in a4. rewrite ?Q1 in a4. cbn [tasks length] in a4. pose proof (in_hold (ag s)). pose proof (hold_push (ag s)). pose proof (nbusy_push (ag s)).
    assert (q s = []) as Qe by (destruct (q s); [reflexivity|cbn [length] in a4; lia]).
    destruct (no_can _ k4) as (X & Y). split; [|split; [|exact Y]].
    + pose proof (f_q _ Fs) as P1. pose proof (v_a _ I) as P2. rewrite Qe, app_nil_r, X in P1. rewrite p3_none, app_nil_r in P2 by lia. congruence.
    + rewrite (f_n _ Fs), Q1. reflexivity.
  - exfalso. destruct W as [W|[(j & W)|[(j & W)|(j & m & W & _)]]]; [lia| | |]; pose proof (idle_nth _ _ _ S W); discriminate.
Qed.

(** The runner's thread alone comes to rest. *)
Definition wt (k : list frame) : Z :=
  match k with
  | [] => 0
  | Run _ :: _ => 7
  | Pr x :: _ => match x with E0 => 5 | W0 => 4 | W1 => 3 | D0 => -4 | D1 => -5 | D2 => -6 | D3 => 6 | F0 => 5 | H0 => 4 | H1 => 3 | H2 => 2 | X0 => 1 | C0 => 3 | C1 => 2 end
  end.
Definition mu (s : st) : Z := 14 * Z.of_nat (length (q s)) + 6 * Z.of_nat (mq s) + wt (rs s).
Definition own (a : act) : bool := match a with Move | Ret | Dispatch => true | _ => false end.
Lemma mu_pos : forall s, A s -> 0 <= mu s.
Proof.
  intros s [a1 a2 a3 a4 a5 a6 a7]. unfold mu. unfold know, rn in *.
  destruct (rs s) as [|[x|t] [|[y|] [|]]]; cbn [wt tasks length] in *; try lia; try contradiction; try (destruct x; lia); destruct y; lia.
Qed.
Lemma own_mu : forall a s s', exec s a = Some s' -> own a = true -> F s -> Inv s -> Wk s -> clean (log s') -> ~ In EStop (log s) -> us s <> 0%nat -> A s ->
  mu s' < mu s /\ us s' = us s /\ ~ In EStop (log s') /\ ag s' = ag s.
Proof.
  intros a s s' E O Fs I (W1 & W) C N U [a1 a2 a3 a4 a5 a6 a7]. pose proof W32v as w32v. pose proof CWv as cwv.
  assert (SP : sp (fl s) = false) by (destruct (sp (fl s)) eqn:e; auto; exfalso; apply N; apply a6; auto).
  assert (IT : it (fl s) = false) by (destruct (it (fl s)) eqn:e; auto; exfalso; apply N; apply a6; auto).
  assert (NX : ~ ex s) by (intros [X|X]; auto).
  assert (NS : forall e, ~ In EStop e -> ~ In EStop (log s ++ e)) by (intros e H X; apply in_app_or in X; tauto).
  destruct a; try discriminate; cbn in E.
  - unfold move in E. destruct (rs s) as [|[x|t] k] eqn:R; try discriminate.
    assert (k = []) as ->. { unfold know in a5. rewrite R in a5. destruct x; destruct k; tauto. }
    assert (SH : shared s = true) by (unfold shared, refs; rewrite R; cbn [procs]; apply Nat.ltb_lt; lia).
    unfold know in a5. rewrite R in a5. unfold wake in W. rewrite R in W. destruct x; cbv zeta in E; try contradiction; rewrite ?SP, ?IT, ?SH in E; cbn [andb] in E.
    + remember (if pn s =? re s then (pn s + (cn (fl s) - pd s - re s)) mod W32 else pn s) as p. destruct (p =? re s); injection E as <-; unfold mu; cbn [q mq rs us log w_rs w_pn w_re ag]; rewrite R; cbn [wt]; repeat split; auto; lia.
    + injection E as <-. unfold mu; cbn [q mq rs us log w_rs ag]; rewrite R; cbn [wt]; repeat split; auto; lia.
    + injection E as <-. unfold mu; cbn [q mq rs us log w_rs w_mq ag]; rewrite R; cbn [wt]; repeat split; auto; lia.
    + injection E as <-. unfold mu; cbn [q mq rs us log w_rs ag]; rewrite R; cbn [wt]; repeat split; auto; lia.
    + injection E as <-. unfold mu; cbn [q mq rs us log w_rs ag]; rewrite R; cbn [wt]; repeat split; auto; lia.
    + unfold rn in a4. rewrite ?R in a4. cbn [tasks length] in a4. destruct (q s) as [|t r] eqn:Q; [exfalso; cbn [length] in a4; lia|].
      injection E as <-. unfold mu; cbn [q mq rs us log w_rs say w_q ag]; rewrite R, Q; cbn [wt length]; repeat split; auto; try lia. apply NS. intros [X|[]]; discriminate.
    + remember (pn s =? (re s - 1) mod W32) as b. injection E as <-. unfold mu; cbn [q mq rs us log w_rs ag]; rewrite R; destruct b; cbn [wt]; repeat split; auto; lia.
    + injection E as <-. unfold mu; destruct (pd s =? 0); cbn [q mq rs us log w_rs w_re w_pd w_fl ag]; rewrite R; cbn [wt]; repeat split; auto; lia.
    + injection E as <-. unfold mu; cbn [q mq rs us log w_rs ag]; rewrite R; cbn [wt]; repeat split; auto; lia.
    + injection E as <-. unfold mu; cbn [q mq rs us log w_rs ag]; rewrite R; cbn [wt]; repeat split; auto; lia.
    + injection E as <-. unfold mu; cbn [q mq rs us log w_rs ag]; rewrite R; cbn [wt]; repeat split; auto; lia.
    + injection E as <-. destruct (gone_eq (w_rs s [])) as [(G & ->)|(G & ->)]; [|unfold refs in G; cbn in G; lia].
      unfold mu; cbn [q mq rs us log w_rs ag]; rewrite R; cbn [wt]; repeat split; auto; lia.
  - unfold ret in E. destruct (rs s) as [|[x|t] k] eqn:R; try discriminate. injection E as <-.
    unfold know in a5. rewrite R in a5. destruct k as [|[[]|] [|]]; try contradiction.
    unfold mu; cbn [q mq rs us log w_rs w_pn w_pd say ag]; rewrite R; cbn [wt]; repeat split; auto; try lia. apply NS. intros [X|[]]; discriminate.
  - unfold dispatch in E. destruct (mq s) as [|n] eqn:Mq; [discriminate|]. cbv zeta in E.
    assert (D : dd s = false) by (destruct (dd s) eqn:D; auto; destruct (f_d _ Fs D) as (_ & _ & Y & _); lia).
    destruct (rs s) as [|[x|t] k] eqn:R; try discriminate; injection E as <-; rewrite D in *.
    + unfold mu; cbn [q mq rs us log w_rs w_mq say ag]; rewrite R, Mq; cbn [wt]; repeat split; auto; try lia; apply NS; intros [].
    + exfalso. destruct C as (C & _). apply C. cbn. apply in_or_app. right. left. reflexivity.
Qed.
Lemma own_run : forall k s s', run s k = Some s' -> forallb own k = true -> F s -> Inv s -> Wk s -> clean (log s') -> ~ In EStop (log s) -> us s <> 0%nat ->
  Z.of_nat (length k) <= mu s /\ us s' = us s /\ ~ In EStop (log s') /\ ag s' = ag s /\ accepted (log s') = accepted (log s).
Proof.
  induction k as [|a k IH]; intros s s' R O Fs I W C N U; cbn in R.
  - injection R as <-. repeat split; auto. destruct (v_ph _ I) as [(NW & HA)|(NW & _)]; [exact (mu_pos _ HA)|]. exfalso. destruct W as (W & _). destruct (W NW); auto.
  - cbn in O. apply andb_true_iff in O. destruct O as (O1 & O2). destruct (exec s a) as [s1|] eqn:E; [|discriminate].
    destruct (run_ext _ _ _ R) as (m & L). assert (C1 : clean (log s1)) by (rewrite L in C; apply (clean_app _ _ C)).
    destruct (v_ph _ I) as [(NW & HA)|(NW & _)]; [|exfalso; destruct W as (W & _); destruct (W NW); auto].
    destruct (own_mu _ _ _ E O1 Fs I W C1 N U HA) as (m1 & m2 & m3 & m4). rewrite <- m2 in U.
    pose proof (exec_Inv _ _ _ E Fs I C1) as I1.
    destruct (IH _ _ R O2 (exec_F _ _ _ E Fs) I1 (exec_W _ _ _ E Fs I C1 W) C m3 U) as (n1 & n2 & n3 & n4 & n5).
    cbn [length]. repeat split; try congruence; try lia. rewrite n5.
    clear - E O1. destruct a; try discriminate; cbn in E.
    + unfold move in E. destruct (rs s) as [|[x|t] k]; try discriminate. destruct x; cbv zeta in E.
      all: repeat match type of E with (if ?c then _ else _) = _ => destruct c | match ?c with _ => _ end = _ => destruct c end; try discriminate; injection E as <-; cbn; rewrite ?accepted_app; cbn; rewrite ?app_nil_r; auto.
      * destruct (pd s =? 0); reflexivity.
      * destruct (gone_eq (w_rs s k)) as [(G & ->)|(G & ->)]; [reflexivity|]. cbn. rewrite !accepted_app. destruct (cans (q s)) as (_ & -> & _). cbn. rewrite app_nil_r. reflexivity.
    + unfold ret in E. destruct (rs s) as [|[x|t] k]; try discriminate. injection E as <-. cbn. rewrite accepted_app. cbn. apply app_nil_r.
    + unfold dispatch in E. destruct (mq s); [discriminate|]. cbv zeta in E. destruct (rs s) as [|[x|t] k]; try discriminate; injection E as <-; destruct (dd s); cbn; rewrite ?accepted_app; cbn; rewrite ?app_nil_r; auto.
Qed.
(** It can go on as long as there is something to do. *)
Lemma own_live : forall s, rs s <> [] \/ mq s <> 0%nat -> exists a s', own a = true /\ exec s a = Some s' /\ (rs s = [] \/ a <> Dispatch).
Proof.
  intros s H. destruct (rs s) as [|[x|t] k] eqn:R.
  - destruct H as [H|H]; [contradiction|]. exists Dispatch. cbn. unfold dispatch. rewrite R. destruct (mq s); [contradiction|]. cbv zeta. eexists. repeat split; auto.
  - exists Move. cbn. unfold move. rewrite R. destruct x; cbv zeta.
    all: repeat match goal with |- context [if ?c then Some _ else _] => destruct c end.
    all: try (eexists; repeat split; auto; right; discriminate).
    + destruct (q s); eexists; repeat split; auto; right; discriminate.
    + destruct (q s); eexists; repeat split; auto; right; discriminate.
  - exists Ret. cbn. unfold ret. rewrite R. eexists. repeat split; auto. right. discriminate.
Qed.

(** Join. *)
Definition joined (l : list event) : Prop := forall l1 l2, l = l1 ++ EJoin :: l2 -> nest [] l1 = Some [] /\ exists m, taken l1 = accepted l1 ++ m.
Lemma split_in : forall (e : event) l1 l m l2, l ++ m = l1 ++ e :: l2 -> ~ In e m -> exists l3, l = l1 ++ e :: l3.
Proof.
  induction l1 as [|a l1 IH]; intros [|x l] m l2 E N; cbn in *.
  - exfalso. apply N. rewrite E. left. reflexivity.
  - injection E as -> _. eexists. reflexivity.
  - exfalso. apply N. rewrite E. right. apply in_or_app. right. left. reflexivity.
  - injection E as -> E. destruct (IH _ _ _ E N) as (l3 & ->). exists l3. reflexivity.
Qed.
Lemma joined_no : forall l m, joined l -> ~ In EJoin m -> joined (l ++ m).
Proof. intros l m J N l1 l2 E. destruct (split_in _ _ _ _ _ E N) as (l3 & ->). exact (J _ _ eq_refl). Qed.
Lemma joined_yes : forall l, joined l -> nest [] l = Some [] -> (exists m, taken l = accepted l ++ m) -> joined (l ++ [EJoin]).
Proof.
  intros l J P1 P2 l1 l2 E. destruct l2 as [|x l2] using rev_ind.
  - apply app_inj_tail in E. destruct E as (<- & _). auto.
  - rewrite app_comm_cons, app_assoc in E. apply app_inj_tail in E. destruct E as (-> & _). exact (J _ _ eq_refl).
Qed.
Lemma low16 : forall f, 0 <= cn f < CW -> enc f < 16 -> cn f = 0.
Proof. intros [a b c e n] H L. unfold enc in L. cbn [lk sp it bg cn] in *. destruct a, b, c, e; cbn [bit] in L; lia. Qed.
Lemma calm : forall s, A s -> F s -> Inv s -> cn (fl s) = 0 -> nest [] (log s) = Some [] /\ exists m, taken (log s) = accepted (log s) ++ m.
Proof.
  intros s [a1 a2 a3 a4 a5 a6 a7] Fs I Z. unfold know in a5.
  assert (R : rn (rs s) = 0 /\ 0 <= pd s).
  { unfold rn. destruct (rs s) as [|[x|t] [|[y|] [|]]]; cbn; try lia; try contradiction; try (destruct x; lia); destruct y; lia. }
  destruct R as (R & Pd). split.
  - rewrite (f_n _ Fs). unfold rn in R. destruct (tasks (rs s)); [reflexivity|cbn in R; lia].
  - pose proof (f_q _ Fs) as P1. pose proof (v_a _ I) as P2.
    assert (ncan (log s) >= 0) by (unfold ncan; lia).
    destruct (q s) as [|t r]; [rewrite app_nil_r in P1; rewrite <- P1, P2; eexists; reflexivity|].
    assert (r = []) as -> by (destruct r; [reflexivity|]; pose proof (in_hold (ag s)); destruct (lk (fl s)); cbn [bit length] in *; lia).
    pose proof (in_hold (ag s)). assert (S1 : suml inadd (ag s) = 1%nat) by (destruct (lk (fl s)); cbn [bit length] in *; lia).
    assert (exists u, flat_map p3 (ag s) = [u]) as (u & Pu).
    { clear - S1. induction (ag s) as [|b l IH]; cbn in *; [discriminate|]. destruct b; cbn in *; try (apply IH; lia). exists t. rewrite p3_none; [reflexivity|lia]. }
    rewrite P1, Pu in P2. apply app_inj_tail in P2. destruct P2 as (-> & _). exists []. rewrite app_nil_r. reflexivity.
Qed.
Lemma calmB : forall s, B s -> F s -> Inv s -> nest [] (log s) = Some [] /\ exists m, taken (log s) = accepted (log s) ++ m.
Proof.
  intros s [b1 b2 b3 b4 b5] Fs I. split.
  - rewrite (f_n _ Fs). destruct (rs s) as [|[x|t] [|]]; cbn; try contradiction; auto. destruct x; contradiction.
  - pose proof (f_q _ Fs) as P1. pose proof (v_a _ I) as P2. rewrite b2, app_nil_r in P1. rewrite <- P1, P2. eexists. reflexivity.
Qed.
Lemma calm_log : forall s e, nest [] (log s) = Some [] /\ (exists m, taken (log s) = accepted (log s) ++ m) ->
  nest [] e = Some [] -> taken e = [] -> accepted e = [] -> nest [] (log s ++ e) = Some [] /\ exists m, taken (log s ++ e) = accepted (log s ++ e) ++ m.
Proof.
  intros s e (H1 & m & H2) E1 E2 E3. rewrite nest_app, H1, taken_app, accepted_app, E2, E3, !app_nil_r. split; [exact E1|exists m; exact H2].
Qed.
Lemma exec_joined : forall a s s', exec s a = Some s' -> F s -> Inv s -> joined (log s) -> joined (log s').
Proof.
  intros a s s' E Fs I J. pose proof CWv as cwv.
  destruct a; cbn in E.
  - unfold move in E. destruct (rs s) as [|[x|t] k] eqn:R; try discriminate. destruct x; cbv zeta in E.
    all: repeat match type of E with (if ?c then _ else _) = _ => destruct c | match ?c with _ => _ end = _ => destruct c end; try discriminate; injection E as <-.
    all: try exact J. all: try (apply joined_no; [exact J|intros [X|[]]; discriminate]).
    + destruct (pd s =? 0); exact J.
    + destruct (gone_eq (w_rs s k)) as [(_ & ->)|(_ & ->)]; [exact J|]. apply joined_no; [exact J|]. intros X. apply in_app_or in X. destruct X as [X|[X|[X|[]]]]; try discriminate.
      apply in_map_iff in X. destruct X as (y & X & _). discriminate.
  - unfold ret in E. destruct (rs s) as [|[x|t] k]; try discriminate. injection E as <-. apply joined_no; [exact J|intros [X|[]]; discriminate].
  - unfold dispatch in E. destruct (mq s); [discriminate|]. cbv zeta in E. destruct (rs s) as [|[x|t] k]; try discriminate; injection E as <-; destruct (dd s); try exact J; apply joined_no; try exact J; intros X; repeat destruct X as [X|X]; try discriminate; contradiction.
  - unfold step in E. destruct (nth_error (ag s) i) as [[t|t|t|t|n| | | | | ]|]; try discriminate.
    all: cbv zeta in E; try (repeat match type of E with (if ?c then _ else _) = _ => destruct c end; try discriminate; injection E as <-; first [exact J|apply joined_no; [exact J|intros [X|[]]; discriminate]]; fail).
    + injection E as <-. apply joined_no; [exact J|]. intros [X|X]; [discriminate|]. destruct (_ <=? _); [destruct X as [X|[]]; discriminate|destruct X].
    + destruct (Z.ltb_spec (enc (fl s)) 16) as [L|L]; injection E as <-.
      * cbn. assert (JS : joined (log s ++ [EStop])) by (apply joined_no; [exact J|intros [X|[]]; discriminate]).
        assert (CL : nest [] (log s) = Some [] /\ exists m, taken (log s) = accepted (log s) ++ m).
        { destruct (v_ph _ I) as [(N & HA)|(N & HB)]; [|exact (calmB _ HB Fs I)]. apply calm; auto. apply low16; [pose proof (a_cn _ HA); lia|exact L]. }
        destruct (calm_log s [EStop] CL eq_refl eq_refl eq_refl) as (X & Y). apply joined_yes; auto.
      * apply joined_no; [exact J|intros [X|[]]; discriminate].
    + destruct (Z.eqb_spec (enc (fl s)) 6) as [L|L]; [|discriminate]. injection E as <-. cbn.
      assert (CL : nest [] (log s) = Some [] /\ exists m, taken (log s) = accepted (log s) ++ m).
      { destruct (v_ph _ I) as [(N & HA)|(N & HB)]; [|exact (calmB _ HB Fs I)]. apply calm; auto. apply low16; [pose proof (a_cn _ HA); lia|lia]. }
      destruct CL as (X & Y). apply joined_yes; auto.
  - destruct (Nat.eqb (us s) 0); [discriminate|]. injection E as <-. exact J.
  - destruct (Nat.eqb (us s) 0); [discriminate|]. injection E as <-. exact J.
  - destruct (Nat.eqb (us s) 0); [discriminate|]. injection E as <-. apply joined_no; [exact J|intros [X|[]]; discriminate].
  - destruct (_ || _); [discriminate|]. injection E as <-.
    destruct (gone_eq (w_us s (us s - 1)%nat)) as [(_ & ->)|(_ & ->)]; [exact J|]. apply joined_no; [exact J|]. intros X. apply in_app_or in X. destruct X as [X|[X|[X|[]]]]; try discriminate.
    apply in_map_iff in X. destruct X as (y & X & _). discriminate.
Qed.
Lemma run_joined : forall l s s', run s l = Some s' -> F s -> Inv s -> clean (log s') -> joined (log s) -> joined (log s').
Proof.
  induction l as [|a l IH]; intros s s' R Fs I C J; cbn in R; [injection R as <-; assumption|].
  destruct (exec s a) as [s1|] eqn:E; [|discriminate]. destruct (run_ext _ _ _ R) as (m & L).
  assert (C1 : clean (log s1)) by (rewrite L in C; apply (clean_app _ _ C)).
  exact (IH _ _ R (exec_F _ _ _ E Fs) (exec_Inv _ _ _ E Fs I C1) C (exec_joined _ _ _ E Fs I J)).
Qed.

(** After the cleanup. *)
Lemma closed : forall k s s', run s k = Some s' -> F s -> Inv s -> clean (log s') -> was s -> accepted (log s') = accepted (log s) /\ taken (log s') = taken (log s) /\ pushed (log s') = pushed (log s).
Proof.
  intros k s s' R Fs I C N.
  assert (K : forall z, F z -> Inv z -> was z -> pushed (log z) = accepted (log z) /\ taken (log z) = accepted (log z)).
  { intros z Fz Iz Nz. destruct (v_ph _ Iz) as [(X & _)|(_ & [b1 b2 b3 b4 b5])]; [contradiction|].
    pose proof (f_q _ Fz) as P1. pose proof (v_a _ Iz) as P2. rewrite b2, app_nil_r in P1.
    pose proof (in_hold (ag z)). pose proof (hold_push (ag z)). rewrite p3_none, app_nil_r in P2 by lia. split; congruence. }
  revert s s' R Fs I C N. induction k as [|a k IH]; intros s s' R Fs I C N; cbn in R; [injection R as <-; auto|].
  destruct (exec s a) as [s1|] eqn:E; [|discriminate]. destruct (run_ext _ _ _ R) as (m & L).
  assert (C1 : clean (log s1)) by (rewrite L in C; apply (clean_app _ _ C)).
  pose proof (exec_Inv _ _ _ E Fs I C1) as I1. pose proof (exec_F _ _ _ E Fs) as F1.
  assert (N1 : was s1) by (unfold was; destruct (exec_ext _ _ _ E) as (m' & ->); apply in_or_app; auto).
  destruct (IH _ _ R F1 I1 C N1) as (X & Y & Z). destruct (K _ F1 I1 N1) as (K1 & K2). destruct (K _ Fs I N) as (K3 & K4).
  assert (accepted (log s1) = accepted (log s)) as A1; [|repeat split; congruence].
  assert (NP : suml npush (ag s) = 0%nat) by (destruct (v_ph _ I) as [(W & _)|(_ & W)]; [contradiction|apply (b_p _ W)]).
  clear - E NP. destruct a; cbn in E.
  - unfold move in E. destruct (rs s) as [|[x|t] k]; try discriminate. destruct x; cbv zeta in E.
    all: repeat match type of E with (if ?c then _ else _) = _ => destruct c | match ?c with _ => _ end = _ => destruct c end; try discriminate; injection E as <-; cbn; rewrite ?accepted_app; cbn; rewrite ?app_nil_r; auto.
    + destruct (pd s =? 0); reflexivity.
    + destruct (gone_eq (w_rs s k)) as [(G & ->)|(G & ->)]; [reflexivity|]. cbn. rewrite !accepted_app. destruct (cans (q s)) as (_ & -> & _). cbn. rewrite app_nil_r. reflexivity.
  - unfold ret in E. destruct (rs s) as [|[x|t] k]; try discriminate. injection E as <-. cbn. rewrite accepted_app. cbn. apply app_nil_r.
  - unfold dispatch in E. destruct (mq s); [discriminate|]. cbv zeta in E. destruct (rs s) as [|[x|t] k]; try discriminate; injection E as <-; destruct (dd s); cbn; rewrite ?accepted_app; cbn; rewrite ?app_nil_r; auto.
  - unfold step in E. destruct (nth_error (ag s) i) as [a|] eqn:G; [|discriminate]. pose proof (suml_ge _ npush _ _ _ G) as G1.
    destruct a; try discriminate; cbv zeta in E; try (cbn in G1; exfalso; lia).
    all: repeat match type of E with (if ?c then _ else _) = _ => destruct c end; try discriminate; injection E as <-; cbn; rewrite ?accepted_app; cbn; rewrite ?app_nil_r; auto.
  - destruct (Nat.eqb (us s) 0); [discriminate|]. injection E as <-. reflexivity.
  - destruct (Nat.eqb (us s) 0); [discriminate|]. injection E as <-. reflexivity.
  - destruct (Nat.eqb (us s) 0); [discriminate|]. injection E as <-. cbn. rewrite accepted_app. cbn. apply app_nil_r.
  - destruct (_ || _); [discriminate|]. injection E as <-.
    destruct (gone_eq (w_us s (us s - 1)%nat)) as [(G & ->)|(G & ->)]; [reflexivity|]. cbn. rewrite !accepted_app. destruct (cans (q s)) as (_ & -> & _). cbn. rewrite app_nil_r. reflexivity.
Qed.

(** A runner that has lost a wake-up: nothing starts and no Join returns any more. *)
Definition late (a : agent) : Prop := match a with P5 | P6 => False | P4 n => 32 <= n | _ => True end.
Record Stuck (s : st) : Prop := {
  k_r : rs s = []; k_m : mq s = 0%nat; k_e : re s = 0;
  k_c : 1 <= cn (fl s) <= CW - 4; k_b : bg (fl s) = false;
  k_l : Z.of_nat (suml hold (ag s)) = bit (lk (fl s));
  k_a : forall i a, nth_error (ag s) i = Some a -> late a }.
Lemma late_set : forall l i x y, (forall j a, nth_error l j = Some a -> late a) -> nth_error l i = Some x -> late y -> forall j a, nth_error (set l i y) j = Some a -> late a.
Proof.
  intros l i x y H G L j a E. destruct (Nat.eq_dec i j) as [->|N].
  - rewrite (nth_same _ _ _ _ G) in E. injection E as <-. exact L.
  - rewrite nth_set_neq in E by auto. exact (H _ _ E).
Qed.
Lemma late_app : forall l x, (forall j a, nth_error l j = Some a -> late a) -> late x -> forall j a, nth_error (l ++ [x]) j = Some a -> late a.
Proof.
  intros l x H L j a E. destruct (lt_dec j (length l)) as [N|N].
  - rewrite nth_error_app1 in E by exact N. exact (H _ _ E).
  - rewrite nth_error_app2 in E by lia. destruct (j - length l)%nat as [|n]; cbn in E; [injection E as <-; exact L|]. destruct n; discriminate.
Qed.
Lemma exec_Stuck : forall a s s', exec s a = Some s' -> F s -> Stuck s -> ~ In EFull (log s') ->
  (Stuck s' \/ dd s' = true) /\ started (log s') = started (log s) /\ (In EJoin (log s') -> In EJoin (log s)).
Proof.
  intros a s s' E Fs [k1 k2 k3 k4 k5 k6 k7] NF. pose proof CWv as cwv. pose proof W32v as w32v.
  assert (NJ : forall e, ~ In EJoin e -> In EJoin (log s ++ e) -> In EJoin (log s)) by (intros e H X; apply in_app_or in X; tauto).
  destruct a; cbn in E.
  - unfold move in E. rewrite k1 in E. discriminate.
  - unfold ret in E. rewrite k1 in E. discriminate.
  - unfold dispatch in E. rewrite k2 in E. discriminate.
  - unfold step in E. destruct (nth_error (ag s) i) as [a|] eqn:G; [|discriminate].
    assert (H1 : forall y, Z.of_nat (suml hold (set (ag s) i y)) = Z.of_nat (suml hold (ag s)) + Z.of_nat (hold y) - Z.of_nat (hold a)).
    { intros y. pose proof (suml_set _ hold _ _ _ y G). lia. }
    pose proof (suml_ge _ hold _ _ _ G) as G1. pose proof (k7 _ _ G) as La.
    destruct a; try discriminate; cbv zeta in E; try contradiction.
    + destruct (sp (fl s)) eqn:Sp; injection E as <-; cbn; rewrite ?started_app; cbn; rewrite ?app_nil_r.
      * split; [left; constructor; cbn; auto; rewrite ?H1; cbn; try lia; eapply late_set; eauto; exact Logic.I|]. split; [reflexivity|]. apply NJ. intros [X|[]]; discriminate.
      * split; [left; constructor; cbn; auto; rewrite ?H1; cbn; try lia; eapply late_set; eauto; exact Logic.I|]. auto.
    + destruct (lk (fl s)) eqn:Lk; injection E as <-; [split; [left; constructor; auto; rewrite Lk; auto|auto]|].
      split; [|auto]. left; constructor; cbn; auto; rewrite ?H1; cbn; try (cbn in k6; lia). eapply late_set; eauto; exact Logic.I.
    + injection E as <-. cbn; rewrite ?started_app; cbn; rewrite ?app_nil_r. split; [left; constructor; cbn; auto; rewrite ?H1; cbn; try lia; eapply late_set; eauto; exact Logic.I|]. split; [reflexivity|]. apply NJ. intros [X|[]]; discriminate.
    + assert (Lb : lk (fl s) = true) by (destruct (lk (fl s)); [reflexivity|cbn in *; lia]). pose proof k6 as k6'. rewrite Lb in k6'. cbn [bit hold] in *.
      injection E as <-. destruct (Z.leb_spec (CW - 4) (cn (fl s))) as [Z|Z].
      { exfalso. apply NF. cbn. apply in_or_app. right. right. left. reflexivity. }
      split; [left; constructor; cbn [fl log ag rs us q re pn pd mq say put w_ag w_fl]; auto; rewrite ?unlock_locked by (auto; lia); cbn [cn bg lk]; rewrite ?H1; cbn [hold bit]; rewrite ?(Z.mod_small (cn (fl s) + 1)) by lia; try lia; auto|].
      * eapply late_set; [exact k7|exact G|]. cbn [late]. unfold enc. cbn [lk sp it bg cn]. destruct (sp (fl s)), (it (fl s)), (bg (fl s)); cbn [bit]; lia.
      * cbn [log say put w_ag w_fl]. rewrite started_app. cbn. rewrite app_nil_r. split; [reflexivity|]. apply NJ. intros [X|[]]; discriminate.
    + rewrite k3 in E. change (16 * (2 + 0)) with 32 in E. rewrite Z.mod_small in E by lia. cbn [late] in La. destruct (Z.ltb_spec n 32) as [L|L]; [lia|]. injection E as <-. cbn.
      split; [left; constructor; cbn; auto; rewrite ?H1; cbn; try lia; eapply late_set; eauto; exact Logic.I|auto].
    + destruct (Z.ltb_spec (enc (fl s)) 16) as [L|L]; injection E as <-.
      { exfalso. unfold enc in L. destruct (lk (fl s)), (sp (fl s)), (it (fl s)), (bg (fl s)); cbn [bit] in L; lia. }
      cbn; rewrite ?started_app; cbn; rewrite ?app_nil_r. split; [left; constructor; cbn; auto; rewrite ?H1; cbn; try lia; eapply late_set; eauto; exact Logic.I|]. split; [reflexivity|]. apply NJ. intros [X|[]]; discriminate.
    + destruct (Z.eqb_spec (enc (fl s)) 6) as [L|L]; [|discriminate].
      exfalso. unfold enc in L. destruct (lk (fl s)), (sp (fl s)), (it (fl s)), (bg (fl s)); cbn [bit] in L; lia.
  - destruct (Nat.eqb (us s) 0); [discriminate|]. injection E as <-. split; [|auto]. left. constructor; cbn; auto; rewrite ?suml_one; auto. apply late_app; auto. exact Logic.I.
  - destruct (Nat.eqb (us s) 0); [discriminate|]. injection E as <-. split; [|auto]. left. constructor; cbn; auto; rewrite ?suml_one; auto. apply late_app; auto. exact Logic.I.
  - destruct (Nat.eqb (us s) 0); [discriminate|]. injection E as <-. cbn. rewrite started_app. cbn. rewrite app_nil_r. split; [left; constructor; cbn; auto|]. split; [reflexivity|]. apply NJ. intros [X|[]]; discriminate.
  - destruct (_ || _); [discriminate|]. injection E as <-.
    destruct (gone_eq (w_us s (us s - 1)%nat)) as [(G & ->)|(G & ->)].
    + split; [|auto]. left. constructor; cbn; auto.
    + split; [right; reflexivity|]. cbn. rewrite !started_app. split.
      * replace (started (map ECan (q s))) with (@nil nat) by (induction (q s); auto). cbn. apply app_nil_r.
      * apply NJ. intros X. apply in_app_or in X. destruct X as [X|[X|[X|[]]]]; try discriminate. apply in_map_iff in X. destruct X as (y & X & _). discriminate.
Qed.
(** A destroyed runner stays so. *)
Lemma exec_dead : forall a s s', exec s a = Some s' -> F s -> dd s = true -> dd s' = true /\ log s' = log s.
Proof.
  intros a s s' E Fs D. destruct (f_d _ Fs D) as (d1 & d2 & d3 & d4). destruct (f_u _ Fs d3) as (u1 & _). destruct a; cbn in E; rewrite ?d3 in E; try discriminate.
  - unfold move in E. rewrite d2 in E. discriminate.
  - unfold ret in E. rewrite d2 in E. discriminate.
  - unfold dispatch in E. rewrite d2, D in E. destruct (mq s); [discriminate|]. injection E as <-. auto.
  - unfold step in E. destruct (nth_error (ag s) i) as [a|] eqn:G; [|discriminate]. rewrite (idle_nth _ _ _ u1 G) in E. discriminate.
Qed.
Lemma run_dead : forall k s s', run s k = Some s' -> F s -> dd s = true -> dd s' = true /\ log s' = log s.
Proof.
  induction k as [|a k IH]; intros s s' R Fs D; cbn in R; [injection R as <-; auto|].
  destruct (exec s a) as [s1|] eqn:E; [|discriminate]. destruct (exec_dead _ _ _ E Fs D) as (D1 & L1).
  destruct (IH _ _ R (exec_F _ _ _ E Fs) D1) as (X & Y). split; congruence.
Qed.
Lemma run_Stuck : forall k s s', run s k = Some s' -> F s -> Stuck s -> ~ In EFull (log s') ->
  started (log s') = started (log s) /\ (In EJoin (log s') -> In EJoin (log s)).
Proof.
  induction k as [|a k IH]; intros s s' R Fs K NF; cbn in R; [injection R as <-; auto|].
  destruct (exec s a) as [s1|] eqn:E; [|discriminate].
  assert (NF1 : ~ In EFull (log s1)) by (exact (run_in _ _ _ _ R NF)).
  destruct (exec_Stuck _ _ _ E Fs K NF1) as ([K1|D1] & X & Y).
  - destruct (IH _ _ R (exec_F _ _ _ E Fs) K1 NF) as (X1 & Y1). split; [congruence|auto].
  - destruct (run_dead _ _ _ R (exec_F _ _ _ E Fs) D1) as (_ & L). rewrite L. auto.
Qed.
