(** The counts of the model of ThreadTaskRunnerImpl (ThreadModel.v) and its wake-ups. *)
From Coq Require Import Lia List ZArith Bool Arith.
From Verif Require Import Slots SlotsProofs Threads ThreadModel ThreadProofs.
Import ListNotations.
Local Open Scope Z_scope.
Local Opaque CW W32.

Definition clean (l : list event) : Prop := ~ In ENest l /\ ~ In EEat l /\ ~ In EFull l /\ ~ In ECln l.
Lemma clean_app : forall l m, clean (l ++ m) -> clean l.
Proof. intros l m (A & B & C & D). unfold clean. rewrite in_app_iff in *. tauto. Qed.

Fixpoint runs (k : list frame) : Z := match k with [] => 0 | Run _ :: r => 1 + runs r | _ :: r => runs r end.
Fixpoint lps (k : list frame) : Z := match k with [] => 0 | Lp _ _ :: r => 1 + lps r | _ :: r => lps r end.
(** Which frame can be above which when loops are entered only by tasks of the queue. *)
Definition over (f : frame) (k : list frame) : Prop :=
  match f with
  | Run _ => match k with Lp b x :: _ => x = (if b then Q0 else K0) | _ => False end
  | Cb true => match k with Lp _ T0 :: _ => True | _ => False end
  | Cb false => match k with Lp _ M0 :: _ | Lp true N0 :: _ => True | _ => False end
  | _ => match k with [] | Run _ :: _ => True | _ => False end
  end.
Fixpoint wfk (k : list frame) : Prop := match k with [] => True | f :: r => over f r /\ wfk r end.
Lemma runs_nn : forall k, 0 <= runs k. Proof. induction k as [|[] k IH]; cbn [runs]; lia. Qed.
Lemma wf_lps : forall k, wfk k -> lps k = runs k + match k with Lp _ _ :: _ | Cb _ :: _ => 1 | _ => 0 end.
Proof.
  induction k as [|f k IH]; intros H; [reflexivity|]. destruct H as (O & W). specialize (IH W).
  destruct f as [b x|t|[]| | | | | | ]; cbn [over] in O; destruct k as [|[b' x'| | | | | | | | ] k]; try contradiction; cbn [runs lps] in *; lia.
Qed.

Definition inadd (a : agent) : nat := match a with P3 _ => 1 | _ => 0 end.
Definition ncan (l : list event) : Z := Z.of_nat (length (filter (fun e => match e with ECan _ => true | _ => false end) l)).
Lemma ncan_app : forall l m, ncan (l ++ m) = ncan l + ncan m.
Proof. intros. unfold ncan. rewrite filter_app, app_length. lia. Qed.
Definition wake_in (n : nat) (l : list agent) (r : Z) : Prop :=
  (0 < n)%nat \/ (exists i, nth_error l i = Some P5) \/ (exists i m, nth_error l i = Some (P4 m) /\ m < 16 * (r + 2)).
(** What a loop knows at each of its lines; r: tasks running, c: the count, w: a wake-up is on its way. *)
Definition know (b : bool) (x : pc) (r pn pd c : Z) (w : Prop) : Prop :=
  match x with
  | M0 | MI | M1 | N0 => True
  | K0 | K1 => (b = true -> pn <> r) /\ (pd = 0 -> pn = r -> c = r \/ w)
  | Q0 => pd = 0 -> pn = r -> c = r \/ w
  | S0 => pn = r /\ (pd = 0 -> c = r \/ w)
  | T0 => pn = r /\ (b = false -> pd = 0) /\ (pd = 0 -> c = r \/ w)
  | Z0 => pn = r /\ pd = 0 /\ (c = r \/ w)
  | G0 => pn <> r
  end.
Definition cur (k : list frame) : option (bool * pc) :=
  match k with Lp b x :: _ => Some (b, x) | Cb _ :: Lp b x :: _ => Some (b, x) | _ => None end.
Definition kn (s : st) (w : Prop) : Prop :=
  match cur (rs s) with Some (b, x) => know b x (runs (rs s)) (pn s) (pd s) (cn (fl s)) w | None => True end.
Definition clr (k : list frame) : Prop := match k with C0 :: _ | C1 :: _ => True | _ => False end.

Lemma cur_lps : forall k bx, wfk k -> cur k = Some bx -> lps k = runs k + 1.
Proof. intros k bx W C. rewrite (wf_lps _ W). destruct k as [|[]]; try discriminate C; reflexivity. Qed.

Record Inv (s : st) : Prop := {
  i_cn : 0 <= cn (fl s) <= CW - 4;
  i_lk : Z.of_nat (suml hold (ag s)) = bit (lk (fl s));
  i_wf : wfk (rs s);
  i_id : rs s <> [] -> id s = Alive;
  i_re : re s = lps (rs s);
  i_c : cn (fl s) + Z.of_nat (suml inadd (ag s)) = Z.of_nat (length (q s)) + runs (rs s) + pd s + ncan (log s);
  i_b : runs (rs s) <= pn s /\ pn s + pd s <= cn (fl s) /\ 0 <= pd s;
  i_k : ncan (log s) = 0 \/ clr (rs s);
  i_e : kn s (wake_in (mq s) (ag s) (runs (rs s)));
  i_n : ~ In ENull (log s) }.
Lemma CWv : CW = 268435456. Proof. reflexivity. Qed.
Lemma W32v : W32 = 4294967296. Proof. reflexivity. Qed.
Lemma Inv_init : forall p b, Inv (init p b).
Proof. intros p b. constructor; cbn; try tauto; rewrite ?CWv; try lia; try reflexivity. Qed.
Lemma know_mono : forall b x r pn pd c (w w' : Prop), (w -> w') -> know b x r pn pd c w -> know b x r pn pd c w'.
Proof. intros b x r pn pd c w w' I K. destruct x; cbn in *; tauto. Qed.

(** Lists of agents. *)
Lemma nth_same : forall A (l : list A) i x y, nth_error l i = Some x -> nth_error (set l i y) i = Some y.
Proof. intros A l i x y H. apply nth_set_eq. apply nth_error_Some. congruence. Qed.
Lemma wake_set : forall n l r i a y, nth_error l i = Some a ->
  (a <> P5) -> (forall m, a = P4 m -> m < 16 * (r + 2) -> y = P5) -> wake_in n l r -> wake_in n (set l i y) r.
Proof.
  intros n l r i a y G N5 N4 [H|[(j & H)|(j & m & H & B)]].
  - left; assumption.
  - right; left. exists j. destruct (Nat.eq_dec i j) as [->|N]; [congruence|]. rewrite nth_set_neq; assumption.
  - right. destruct (Nat.eq_dec i j) as [->|N].
    + left. exists j. rewrite G in H. injection H as ->. rewrite (N4 m eq_refl B). eapply nth_same; eassumption.
    + right. exists j, m. rewrite nth_set_neq by assumption. auto.
Qed.
Lemma wake_app : forall n l r a, wake_in n l r -> wake_in n (l ++ [a]) r.
Proof.
  assert (X : forall (l : list agent) i x a, nth_error l i = Some x -> nth_error (l ++ [a]) i = Some x).
  { intros l i x a H. rewrite nth_error_app1; [assumption|]. apply nth_error_Some. congruence. }
  intros n l r a [H|[(j & H)|(j & m & H & B)]]; [left; assumption|right; left; exists j; auto|right; right; exists j, m; auto].
Qed.
Lemma wake_mq : forall n l r, wake_in n l r -> wake_in (S n) l r.
Proof. intros n l r _. left. lia. Qed.

(** Steps of the other threads. *)
Lemma sum_inadd_le : forall l, (suml inadd l <= suml hold l)%nat.
Proof. induction l as [|a l IH]; cbn; [lia|]. destruct a; cbn; lia. Qed.
Lemma kn_frame : forall s s' (w w' : Prop), rs s' = rs s -> pn s' = pn s -> pd s' = pd s -> cn (fl s') = cn (fl s) -> (w -> w') -> kn s w -> kn s' w'.
Proof.
  intros s s' w w' A B C D E K. unfold kn in *. rewrite A, B, C, D. destruct (cur (rs s)) as [[b x]|]; [|exact I]. eapply know_mono; eassumption.
Qed.
Lemma ncan0 : forall e, (match e with ECan _ => true | _ => false end) = false -> ncan [e] = 0.
Proof. intros e H. unfold ncan. cbn. rewrite H. reflexivity. Qed.
Lemma ag_inv : forall s s' i a y e f m, Inv s -> nth_error (ag s) i = Some a ->
  s' = w_mq (say (put (w_fl s f) i y) e) m -> 
  cn f = cn (fl s) -> lk f = lk (fl s) -> hold y = hold a -> inadd y = inadd a -> ncan e = 0 -> ~ In ENull e ->
  (wake_in (mq s) (ag s) (runs (rs s)) -> wake_in m (set (ag s) i y) (runs (rs s))) -> Inv s'.
Proof.
  intros s s' i a y e f m [A B C D E G H K L N] X -> CF LF HO IA NC NN W.
  constructor; cbn.
  - rewrite CF. assumption.
  - rewrite LF. pose proof (suml_set _ hold _ _ _ y X). lia.
  - assumption.
  - assumption.
  - assumption.
  - rewrite CF, ncan_app, NC. pose proof (suml_set _ inadd _ _ _ y X). lia.
  - rewrite CF. assumption.
  - rewrite ncan_app, NC. destruct K; [left; lia|right; assumption].
  - eapply kn_frame; [| | | | |exact L]; auto.
  - rewrite in_app_iff. tauto.
Qed.
Lemma same_mq : forall s, w_mq s (mq s) = s. Proof. intros []; reflexivity. Qed.
Lemma same_fl : forall s, w_fl s (fl s) = s. Proof. intros []; reflexivity. Qed.
Lemma say_nil : forall s, say s [] = s. Proof. intros []; unfold say; cbn. rewrite app_nil_r. reflexivity. Qed.
Lemma step_inv : forall s i s', step s i = Some s' -> clean (log s') -> Inv s -> Inv s'.
Proof.
  intros s i s' E CL I. unfold step in E. destruct (nth_error (ag s) i) as [a|] eqn:X; [|discriminate].
  assert (keep : forall y, a <> P5 -> (forall m, a <> P4 m) -> wake_in (mq s) (ag s) (runs (rs s)) -> wake_in (mq s) (set (ag s) i y) (runs (rs s))).
  { intros y N5 N4. eapply wake_set; eauto. intros m e. destruct (N4 m e). }
  destruct a as [t|t|t|t|n| | | | ]; try discriminate.
  - destruct (sp (fl s)); injection E as <-.
    + eapply (ag_inv s _ i _ Idle [ERej t] (fl s) (mq s) I X); try reflexivity; [intros [e|[]]; discriminate|apply keep; discriminate].
    + eapply (ag_inv s _ i _ (P1 t) [] (fl s) (mq s) I X); try reflexivity; [rewrite same_fl, say_nil; reflexivity|intros []|apply keep; discriminate].
  - destruct (lk (fl s)) eqn:L; injection E as <-; [assumption|].
    destruct I as [A B C D E G H K M N]. constructor; cbn; auto.
    + pose proof (suml_set _ hold _ _ _ (P2 t) X) as U. cbn in U. rewrite L in B. cbn in B. lia.
    + pose proof (suml_set _ inadd _ _ _ (P2 t) X) as U. cbn in U. lia.
    + eapply kn_frame; [| | | | |exact M]; auto. apply keep; discriminate.
  - injection E as <-. destruct I as [A B C D E G H K M N]. constructor; cbn; auto.
    + pose proof (suml_set _ hold _ _ _ (P3 t) X) as U. cbn in U. lia.
    + pose proof (suml_set _ inadd _ _ _ (P3 t) X) as U. cbn in U. rewrite app_length, ncan_app. cbn. lia.
    + rewrite ncan_app. change (ncan [EPush t]) with 0. destruct K; [left; lia|auto].
    + eapply kn_frame; [| | | | |exact M]; auto. apply keep; discriminate.
    + rewrite in_app_iff. cbn. intros [?|[?|[]]]; [tauto|discriminate].
  - cbv zeta in E. injection E as <-. destruct I as [A B C D E G H K M N].
    assert (FU : (CW - 4 <=? cn (fl s)) = false).
    { destruct (CW - 4 <=? cn (fl s)) eqn:Q; [|reflexivity]. exfalso. destruct CL as (_ & _ & F & _). apply F. cbn [log say put w_ag w_fl]. apply in_or_app. right. right. left. reflexivity. }
    rewrite FU. apply Z.leb_gt in FU.
    assert (L : lk (fl s) = true).
    { pose proof (suml_ge _ hold _ _ _ X) as Y. cbn in Y. destruct (lk (fl s)); [reflexivity|]. cbn in B. lia. }
    assert (UL : unlock (fl s) = FL false (sp (fl s)) (it (fl s)) (bg (fl s)) (cn (fl s) + 1)).
    { rewrite unlock_locked by (auto; rewrite CWv in *; lia). rewrite Z.mod_small by (rewrite CWv in *; lia). reflexivity. }
    rewrite L in B. cbn in B.
    pose proof (suml_set _ hold _ _ _ (P4 (enc (unlock (fl s)))) X) as U1. cbn in U1.
    pose proof (suml_set _ inadd _ _ _ (P4 (enc (unlock (fl s)))) X) as U2. cbn in U2.
    pose proof (enc_bound (unlock (fl s))) as EB. rewrite UL in U1, U2, EB |- *. specialize (EB eq_refl). cbn [cn] in EB.
    constructor; cbn [fl ag say put w_ag w_fl cn lk bit rs q pn pd log id re mq]; auto; try lia.
    + rewrite ncan_app. change (ncan [EAcc t]) with 0. lia.
    + rewrite ncan_app. change (ncan [EAcc t]) with 0. destruct K; [left; lia|auto].
    + unfold kn in *. cbn [rs pn pd cn fl say put w_ag w_fl]. destruct (cur (rs s)) as [[b x]|] eqn:CU; [|exact I].
      assert (T : forall c, c = cn (fl s) -> (c = runs (rs s) \/ wake_in (mq s) (ag s) (runs (rs s))) -> (c + 1 = runs (rs s) \/ wake_in (mq s) (set (ag s) i (P4 (enc (FL false (sp (fl s)) (it (fl s)) (bg (fl s)) (cn (fl s) + 1))))) (runs (rs s)))).
      { intros c -> [Q|Q]; right.
        - right; right. exists i, (enc (FL false (sp (fl s)) (it (fl s)) (bg (fl s)) (cn (fl s) + 1))). split; [eapply nth_same; eassumption|]. rewrite <- Q. lia.
        - apply keep; auto; discriminate. }
      specialize (T _ eq_refl). destruct x; cbn in M |- *; try tauto.
    + rewrite in_app_iff. cbn. intros [?|[?|[]]]; [tauto|discriminate].
  - destruct (n <? _) eqn:LT; injection E as <-.
    + eapply (ag_inv s _ i _ P5 [] (fl s) (mq s) I X); try reflexivity; [rewrite same_fl, say_nil; reflexivity|intros []|].
      intros W. eapply wake_set; eauto. discriminate.
    + destruct (cur (rs s)) as [bx|] eqn:CU.
      * eapply (ag_inv s _ i _ Idle [] (fl s) (mq s) I X); try reflexivity; [rewrite same_fl, say_nil; reflexivity|intros []|].
        intros W. eapply wake_set; eauto; [discriminate|]. intros m e B. exfalso. injection e as <-.
        apply Z.ltb_ge in LT. destruct I as [A _ C _ E _ H _ _ _]. rewrite E, (cur_lps _ _ C CU) in LT.
        pose proof (runs_nn (rs s)). rewrite Z.mod_small in LT; rewrite ?W32v, ?CWv in *; lia.
      * destruct I as [A B C D E G H K M N]. constructor; cbn; auto.
        -- pose proof (suml_set _ hold _ _ _ Idle X) as U. cbn in U. lia.
        -- pose proof (suml_set _ inadd _ _ _ Idle X) as U. cbn in U. lia.
        -- unfold kn. cbn. rewrite CU. exact Logic.I.
  - destruct (rs s) as [|f k] eqn:R.
    + injection E as <-. destruct I as [A B C D E G H K M N]. rewrite R in *.
      pose proof (suml_set _ hold _ _ _ Idle X) as U1. cbn in U1. pose proof (suml_set _ inadd _ _ _ Idle X) as U2. cbn in U2.
      unfold kn in *; destruct (id s); (constructor; cbn [fl ag put w_ag w_mq rs q pn pd log id re mq]; rewrite ?R; auto; try lia; try congruence; try (unfold kn; cbn [rs put w_ag w_mq]; rewrite R; exact Logic.I)).
    + rewrite (i_id _ I) in E by (rewrite R; discriminate). injection E as <-. rewrite <- R in *.
      eapply (ag_inv s _ i _ Idle [] (fl s) (S (mq s)) I X); try reflexivity; [rewrite same_fl, say_nil; reflexivity|intros []|].
      intros _. left. lia.
  - destruct (enc (fl s) <? 16); injection E as <-.
    + eapply (ag_inv s _ i _ Idle [EJoin] (w_sp (fl s)) (mq s) I X); try reflexivity; [intros [e|[]]; discriminate|apply keep; discriminate].
    + eapply (ag_inv s _ i _ J1 [] (w_sp (fl s)) (mq s) I X); try reflexivity; [rewrite say_nil; reflexivity|intros []|apply keep; discriminate].
  - destruct (enc (fl s) =? 6); [|discriminate]. injection E as <-.
    eapply (ag_inv s _ i _ Idle [EJoin] (fl s) (mq s) I X); try reflexivity; [intros [e|[]]; discriminate|apply keep; discriminate].
Qed.
(** Steps of the runner's thread. *)
Lemma rs_inv : forall s s' b x k b' x' k' (e : list event), Inv s -> rs s = Lp b x :: k -> rs s' = k' -> cur k' = Some (b', x') ->
  runs k' = runs k -> lps k' = lps (Lp b x :: k) -> wfk k' ->
  fl s' = fl s -> q s' = q s -> id s' = id s -> re s' = re s -> pd s' = pd s -> ag s' = ag s -> log s' = log s ++ e ->
  ncan e = 0 -> ~ In ENull e -> runs k <= pn s' -> pn s' + pd s <= cn (fl s) ->
  know b' x' (runs k) (pn s') (pd s) (cn (fl s)) (wake_in (mq s') (ag s) (runs k)) -> Inv s'.
Proof.
  intros s s' b x k b' x' k' e [A B C D E G H K L N] R R' CU RK LK WF F1 F2 F3 F4 F5 F6 F7 NC NN P1 P2 KN.
  rewrite R in *. constructor; rewrite ?R', ?F1, ?F2, ?F3, ?F4, ?F5, ?F6, ?F7, ?ncan_app, ?NC, ?RK; auto.
  - intros _. apply D. discriminate.
  - rewrite E. symmetry. assumption.
  - cbn [runs] in G. lia.
  - cbn [runs] in H. lia.
  - destruct K as [K|[]]. left; lia.
  - unfold kn. rewrite R', CU, RK, F1, F5. assumption.
  - rewrite in_app_iff. tauto.
Qed.
Lemma off_inv : forall s s' f k e, Inv s -> cur (f :: k) = None -> rs s' = f :: k -> runs (f :: k) = runs (rs s) -> lps (f :: k) = re s' ->
  wfk (f :: k) -> fl s' = fl s -> q s' = q s -> id s' = id s -> id s = Alive -> pn s' = pn s -> pd s' = pd s -> ag s' = ag s -> log s' = log s ++ e ->
  ncan e = 0 -> ~ In ENull e -> (clr (rs s) -> clr (f :: k)) -> Inv s'.
Proof.
  intros s s' f k e [A B C D E G H K L N] CU R' RK LK WF F1 F2 F3 F3' F4 F5 F6 F7 NC NN CC.
  constructor; rewrite ?R', ?F1, ?F2, ?F3, ?F4, ?F5, ?F6, ?F7, ?ncan_app, ?NC, ?RK; auto.
  - lia.
  - destruct K as [K|K]; [left; lia|auto].
  - unfold kn. rewrite R', CU. exact I.
  - rewrite in_app_iff. tauto.
Qed.
Lemma leave_inv : forall s b x k m, Inv s -> rs s = Lp b x :: k -> Inv (leave (w_qt s m) k).
Proof.
  intros s b x k m I R. pose proof (i_wf _ I) as W. pose proof (i_re _ I) as E. pose proof (i_b _ I) as H. pose proof (i_cn _ I) as A.
  rewrite R in W, E, H. pose proof (cur_lps _ (b, x) W eq_refl) as CL. cbn [runs lps] in *. pose proof (runs_nn k).
  apply (off_inv s _ L0 k [] I); cbn [rs fl q id pn pd ag log re leave w_rs w_re w_qt]; auto.
  - rewrite R. reflexivity.
  - cbn [lps]. rewrite E, Z.mod_small by (rewrite W32v, CWv in *; lia). lia.
  - apply (i_id _ I). rewrite R. discriminate.
  - rewrite app_nil_r. reflexivity.
  - rewrite R. intros [].
Qed.
Lemma back_inv : forall s f k, Inv s -> rs s = f :: k -> match f with L2 | L3 => True | _ => False end -> Inv (back s k).
Proof.
  intros s f k [A B C D E G H K L N] R FF.
  assert (X : runs k = runs (rs s) /\ lps k = lps (rs s) /\ over f k) by (rewrite R in *; destruct f; try contradiction; cbn [runs lps] in *; repeat split; apply C).
  destruct X as (X1 & X2 & X3).
  destruct (back_eq s k) as (Q1 & Q2 & Q3 & Q4 & Q5 & Q6 & Q7 & Q8 & Q9 & Q10).
  constructor; rewrite ?Q1, ?Q2, ?Q3, ?Q4, ?Q5, ?Q6, ?Q7, ?Q8, ?X1, ?X2; auto.
  - rewrite R in C. apply C.
  - intros Z. rewrite (Q10 Z). apply D. rewrite R. discriminate.
  - left. destruct K as [K|K]; [assumption|]. rewrite R in K. destruct f; contradiction.
  - unfold kn. rewrite Q4. replace (cur k) with (@None (bool * pc)); [exact I|].
    destruct f; try contradiction; destruct k as [|[]]; try contradiction; reflexivity.
Qed.
Lemma wf_top : forall b x b' x' k, wfk (Lp b x :: k) -> wfk (Lp b' x' :: k).
Proof. intros b x b' x' k H. exact H. Qed.
Lemma move_inv : forall s s', move s = Some s' -> clean (log s') -> Inv s -> Inv s'.
Proof.
  intros s s' M CL I. unfold move in M. destruct (rs s) as [|f k] eqn:R; [discriminate|].
  pose proof (i_wf _ I) as W. pose proof (i_re _ I) as E. pose proof (i_b _ I) as H. pose proof (i_cn _ I) as A. pose proof (i_e _ I) as KN.
  pose proof (i_c _ I) as CC. pose proof (i_k _ I) as K.
  rewrite R in W, E, H, CC, K. unfold kn in KN. rewrite R in KN.
  destruct f as [b x|t|tm| | | | | | ]; try discriminate.
  - pose proof (cur_lps _ (b, x) W eq_refl) as LL. cbn [cur runs lps] in *. pose proof (runs_nn k) as RN.
    assert (RR : re s = runs k + 1) by lia. clear E LL.
    assert (go : forall s' b' x' k' n, s' = w_rs (w_mq (w_pn s n) (mq s')) k' -> cur k' = Some (b', x') -> runs k' = runs k -> lps k' = 1 + lps k -> wfk k' ->
      runs k <= n -> n + pd s <= cn (fl s) -> know b' x' (runs k) n (pd s) (cn (fl s)) (wake_in (mq s') (ag s) (runs k)) -> Inv s').
    { intros s0 b' x' k' n -> C1 C2 C3 C4 C5 C6 C7. eapply (rs_inv s _ b x k b' x' k' [] I R); try reflexivity; auto. cbn. rewrite app_nil_r. reflexivity. }
    assert (lv : Inv (leave s k)) by (pose proof (leave_inv s b x k (qt s) I R) as Z; destruct s; exact Z).
    assert (same : forall b' x', know b' x' (runs k) (pn s) (pd s) (cn (fl s)) (wake_in (mq s) (ag s) (runs k)) -> Inv (w_rs s (Lp b' x' :: k))).
    { intros b' x' Z. eapply (go _ b' x' _ (pn s)); try reflexivity; [exact W|lia|lia|exact Z]. }
    destruct x; cbv beta iota zeta in M.
    + destruct (shared s); injection M as <-; [|exact lv]. destruct b; apply same; exact Logic.I.
    + destruct (it (fl s)); injection M as <-; [exact lv|]. apply same; exact Logic.I.
    + destruct (mq s) as [|n] eqn:MQ; [destruct (qt s); injection M as <-; [apply leave_inv with (b := b) (x := M1); assumption|apply same; exact Logic.I]|].
      injection M as <-. eapply (go _ b M0 (Cb false :: Lp b M0 :: k) (pn s)); try reflexivity; [split; [destruct b; exact Logic.I|exact W]|lia|lia].
    + injection M as <-. assert (V : (cn (fl s) - pd s) mod W32 = cn (fl s) - pd s) by (apply Z.mod_small; rewrite W32v, CWv in *; lia).
      rewrite V. eapply (go _ b (if b then Q0 else K0) (Lp b (if b then Q0 else K0) :: k) (cn (fl s) - pd s)); try reflexivity; [exact W|lia|lia|].
      destruct b; cbn; [|split; [discriminate|]]; intros; left; lia.
    + destruct (shared s); injection M as <-; [|exact lv]. apply same; exact KN.
    + destruct (it (fl s)); injection M as <-; [exact lv|]. destruct b; apply same; cbn in *; tauto.
    + replace ((re s - 1) mod W32) with (runs k) in M by (symmetry; rewrite Z.mod_small; rewrite ?W32v, ?CWv in *; lia).
      destruct (Z.eqb_spec (pn s) (runs k)) as [Q|Q]; injection M as <-; destruct b; apply same; cbn in *; try tauto.
      all: repeat split; auto; try tauto; try (intros; discriminate).
    + destruct (Z.eqb_spec (pd s) 0) as [Q|Q].
      * injection M as <-. destruct b; apply same; cbn in *; tauto.
      * assert (V : (cn (fl s) - pd s) mod CW = cn (fl s) - pd s) by (apply Z.mod_small; rewrite CWv in *; lia). rewrite V in M.
        set (c := cn (fl s) - pd s) in *.
        assert (fin : forall x', know b x' (runs k) c 0 c (wake_in (mq s) (ag s) (runs k)) -> Inv (w_rs (w_pn (w_pd (w_fl s (w_cn (fl s) c)) 0) c) (Lp b x' :: k))).
        { intros x' Z. destruct I as [A1 A2 A3 A4 A5 A6 A7 A8 A9 A10]. rewrite R in *. cbn [runs] in *.
          constructor; cbn [fl ag rs q pn pd log id re mq w_rs w_pn w_pd w_fl w_cn cn lk runs]; auto; try lia. intros _. apply A4. discriminate. }
        cbn [re w_pn w_pd w_fl w_cn] in M.
        destruct (Z.eqb_spec c 0) as [Q0'|Q0']; [injection M as <-; apply fin; destruct b; cbn; repeat split; intros; try (left; lia); lia|].
        destruct (Z.leb_spec (re s) c); injection M as <-; apply fin; destruct b; cbn; repeat split; intros; try (left; lia); try lia.
    + injection M as <-. destruct b; apply same; cbn in *; tauto.
    + destruct (_ || _); [|discriminate]. injection M as <-. apply same; exact Logic.I.
    + destruct K as [K|[]]. destruct (q s) as [|t r] eqn:QQ.
      * exfalso. cbn in KN, CC. lia.
      * injection M as <-. destruct I as [A1 A2 A3 A4 A5 A6 A7 A8 A9 A10]. rewrite R in *. cbn [runs lps] in *.
        constructor; cbn [fl ag rs q pn pd log id re mq w_rs w_q say runs lps]; auto; try lia.
        -- split; [destruct b; reflexivity|exact A3].
        -- intros _. apply A4. discriminate.
        -- rewrite QQ in A6. rewrite ncan_app. change (ncan [EStart t]) with 0. cbn [length] in A6. lia.
        -- cbn in KN. lia.
        -- left. rewrite ncan_app. change (ncan [EStart t]) with 0. lia.
        -- exact Logic.I.
        -- rewrite in_app_iff. intros [?|[?|[]]]; [tauto|discriminate].
  - injection M as <-. assert (X : forall f, (f = L1 \/ f = C0) -> Inv (w_rs s (f :: k))); [|destruct (shared s); apply X; auto].
    intros f FF. eapply (off_inv s _ f k [] I); try reflexivity; cbn; rewrite ?R, ?app_nil_r; auto; try (apply (i_id _ I); rewrite R; discriminate); destruct FF as [->| ->]; auto; rewrite ?(i_re _ I), ?R; auto; try (intros []).
  - injection M as <-. assert (X : forall f, (f = L2 \/ f = C0) -> Inv (w_rs s (f :: k))); [|destruct (it (fl s)); apply X; auto].
    intros f FF. eapply (off_inv s _ f k [] I); try reflexivity; cbn; rewrite ?R, ?app_nil_r; auto; try (apply (i_id _ I); rewrite R; discriminate); destruct FF as [->| ->]; auto; rewrite ?(i_re _ I), ?R; auto; try (intros []).
  - injection M as <-. destruct (sp (fl s)); [|apply (back_inv s L2 k); auto].
    eapply (off_inv s _ L3 k [] I); try reflexivity; cbn; rewrite ?R, ?app_nil_r; auto; try (apply (i_id _ I); rewrite R; discriminate); rewrite ?(i_re _ I), ?R; auto; try (intros []).
  - injection M as <-. destruct (cn (fl s) =? 0); [|apply (back_inv s L3 k); auto].
    eapply (off_inv s _ C0 k [] I); try reflexivity; cbn; rewrite ?R, ?app_nil_r; auto; try (apply (i_id _ I); rewrite R; discriminate); rewrite ?(i_re _ I), ?R; auto; try (intros []).
  - destruct (q s) as [|t r] eqn:QQ; injection M as <-.
    + eapply (off_inv s _ C1 k [EClr] I); try reflexivity; cbn; rewrite ?R, ?app_nil_r; auto; try (apply (i_id _ I); rewrite R; discriminate); rewrite ?(i_re _ I), ?R; auto; try (intros []). discriminate. contradiction.
    + destruct I as [A1 A2 A3 A4 A5 A6 A7 A8 A9 A10]. rewrite R in *. cbn [runs lps] in *.
      constructor; cbn [fl ag rs q pn pd log id re mq w_rs w_q say runs lps]; rewrite ?R; auto; try lia.
      * rewrite QQ in A6. rewrite ncan_app. change (ncan [ECan t]) with 1. cbn [length runs] in *. lia.
      * rewrite in_app_iff. intros [?|[?|[]]]; [tauto|discriminate].
  - injection M as <-. exfalso. destruct CL as (_ & _ & _ & Z). apply Z. rewrite say_log. apply in_or_app. right. left. reflexivity.
Qed.
Lemma in_last : forall l (e : event), In e (l ++ [e]). Proof. intros. apply in_or_app. right. left. reflexivity. Qed.
Lemma exec_inv : forall a s s', exec s a = Some s' -> clean (log s') -> Inv s -> Inv s'.
Proof.
  intros a s s' X CL I. destruct a; cbn [exec] in X.
  - exact (move_inv _ _ X CL I).
  - unfold ret in X. destruct (rs s) as [|f k] eqn:R; [discriminate|]. destruct I as [A B C D E G H K L N]. unfold kn in L. rewrite R in *.
    destruct f as [b x|t|tm| | | | | | ]; try discriminate; injection X as <-; destruct C as (O & W); cbn [over] in O; cbn [runs lps] in *.
    + destruct k as [|[b x| | | | | | | | ] k]; try contradiction. cbn [runs lps] in *. pose proof (runs_nn k).
      rewrite !Z.mod_small by (rewrite W32v, CWv in *; lia).
      constructor; cbn [fl ag rs q pn pd log id re mq w_rs w_pn w_pd say runs lps]; auto; try lia.
      * intros _. apply D. discriminate.
      * rewrite ncan_app. change (ncan [EEnd t]) with 0. lia.
      * rewrite ncan_app. change (ncan [EEnd t]) with 0. destruct K as [K|[]]. left; lia.
      * unfold kn. cbn. subst x. destruct b; cbn; [|split; [discriminate|]]; intros; exfalso; lia.
      * rewrite in_app_iff. intros [?|[?|[]]]; [tauto|discriminate].
    + assert (CK : cur (Cb tm :: k) = cur k) by (destruct tm; destruct k as [|[b x| | | | | | | | ] k]; try contradiction; reflexivity).
      constructor; cbn [fl ag rs q pn pd log id re mq w_rs]; auto.
      * intros _. apply D. discriminate.
      * destruct K as [K|[]]; auto.
      * unfold kn. cbn [fl rs pn pd w_rs]. rewrite CK in L. exact L.
  - assert (go : forall s0, s0 = w_id s Alive \/ s0 = s -> match rs s with [] | Run _ :: _ => True | _ => False end -> id s0 = Alive ->
      Inv (w_rs (w_re s0 ((re s0 + 1) mod W32)) (Lp (bg (fl s0)) (if bg (fl s0) then N0 else M0) :: rs s0))).
    { intros s0 S0 T ID. destruct I as [A B C D E G H K L N].
      assert (V : (re s + 1) mod W32 = lps (rs s) + 1).
      { rewrite E, (wf_lps _ C). pose proof (runs_nn (rs s)). destruct (rs s) as [|[]]; try contradiction; apply Z.mod_small; rewrite W32v, CWv in *; lia. }
      assert (Z : re s0 = re s /\ rs s0 = rs s /\ fl s0 = fl s /\ ag s0 = ag s /\ q s0 = q s /\ pn s0 = pn s /\ pd s0 = pd s /\ log s0 = log s /\ mq s0 = mq s) by (destruct S0 as [->| ->]; repeat split).
      destruct Z as (Z1 & Z2 & Z3 & Z4 & Z5 & Z6 & Z7 & Z8 & Z9).
      constructor; cbn [fl ag rs q pn pd log id re mq w_rs w_re runs lps]; rewrite ?Z1, ?Z2, ?Z3, ?Z4, ?Z5, ?Z6, ?Z7, ?Z8, ?Z9, ?V; auto; try lia.
      - split; [destruct (rs s) as [|[]]; try contradiction; exact Logic.I|exact C].
      - destruct K as [K|K]; [auto|]. destruct (rs s) as [|[]]; contradiction.
      - unfold kn. cbn. destruct (bg (fl s)); exact Logic.I. }
    unfold enter in X. destruct (rs s) as [|f k] eqn:R.
    + destruct (id s) eqn:ID; [|destruct (Nat.eqb (us s) 0); [discriminate|]|discriminate]; injection X as <-.
      * apply (go (w_id s Alive)); auto.
      * specialize (go s). rewrite R in go. apply go; auto.
    + assert (ID : id s = Alive) by (apply (i_id _ I); rewrite R; discriminate).
      destruct f; try discriminate; injection X as <-; [specialize (go s); rewrite R in go; apply go; auto|].
      exfalso. destruct CL as (Z & _). apply Z. apply in_last.
  - destruct (rs s) as [|[b x| | | | | | | | ] k] eqn:R; try discriminate. destruct x; try discriminate. injection X as <-.
    destruct I as [A B C D E G H K L N]. unfold kn in L. rewrite R in *.
    constructor; cbn [fl ag rs q pn pd log id re mq w_rs runs lps]; rewrite ?R; auto.
    + split; [exact Logic.I|exact C].
    + intros _. apply D. discriminate.
  - destruct (rs s) as [|[b0 x| | | | | | | | ] k] eqn:R; try discriminate. destruct x; try discriminate. cbv zeta in X. injection X as <-.
    destruct I as [A B C D E G H K L N]. unfold kn in L. rewrite R in *.
    destruct K as [K|[]]; destruct b; (constructor; cbn [fl ag rs q pn pd log id re mq w_rs runs lps]; auto; try (intros _; apply D; discriminate)).
    + split; [destruct b0; exact Logic.I|exact C].
    + unfold kn. cbn. destruct b0; exact Logic.I.
    + unfold kn. cbn. destruct b0; exact Logic.I.
  - assert (J : match rs s with Run _ :: _ | Cb false :: _ => True | _ => False end -> forall n, Inv (w_mq s n)).
    { intros T n. destruct I as [A B C D E G H K L N]. constructor; cbn [fl ag rs q pn pd log id re mq w_mq]; auto.
      unfold kn. cbn [rs w_mq]. destruct (rs s) as [|[b x|t|[]| | | | | | ] k]; try contradiction; [exact Logic.I|].
      destruct C as (O & _). cbn in O. destruct k as [|[b x| | | | | | | | ] k]; try contradiction. cbn. destruct x; try (exact Logic.I); destruct b; contradiction. }
    destruct (rs s) as [|f k]; [discriminate|]. destruct f as [| |[] | | | | | | ]; try discriminate; destruct (mq s) as [|n]; try discriminate; injection X as <-.
    + apply J; exact Logic.I.
    + exfalso. destruct CL as (_ & Z & _). apply Z. apply in_last.
    + apply J; exact Logic.I.
  - destruct (id s); try discriminate. injection X as <-. destruct I as [A B C D E G H K L N]. constructor; auto.
    eapply kn_frame; [| | | | |exact L]; auto. apply wake_mq.
  - destruct (id s); try discriminate. injection X as <-. destruct I. constructor; auto.
  - exact (step_inv _ _ _ X CL I).
  - destruct (Nat.eqb (us s) 0); [discriminate|]. injection X as <-. destruct I as [A B C D E G H K L N]. constructor; auto; cbn [ag w_ag fl q rs log pd]; rewrite ?suml_app; cbn [hold inadd]; try lia.
    eapply kn_frame; [| | | | |exact L]; auto. apply wake_app.
  - destruct (Nat.eqb (us s) 0); [discriminate|]. injection X as <-. destruct I as [A B C D E G H K L N]. constructor; auto; cbn [ag w_ag fl q rs log pd]; rewrite ?suml_app; cbn [hold inadd]; try lia.
    eapply kn_frame; [| | | | |exact L]; auto. apply wake_app.
  - destruct (Nat.eqb (us s) 0); [discriminate|]. injection X as <-. destruct I as [A B C D E G H K L N]. constructor; cbn [fl ag rs q pn pd log id re mq w_fl say]; auto.
    + rewrite ncan_app. change (ncan [EInt]) with 0. cbn. lia.
    + rewrite ncan_app. change (ncan [EInt]) with 0. destruct K; [left; lia|auto].
    + rewrite in_app_iff. intros [?|[?|[]]]; [tauto|discriminate].
  - destruct (_ || _); [discriminate|]. injection X as <-. destruct I. constructor; auto.
Qed.
Lemma run_inv : forall l s s', run s l = Some s' -> clean (log s') -> Inv s -> Inv s'.
Proof.
  induction l as [|a l IH]; intros s s' R CL I; cbn in R; [injection R as <-; assumption|].
  destruct (exec s a) as [s1|] eqn:E; [|discriminate]. refine (IH _ _ R CL (exec_inv _ _ _ E _ I)).
  destruct (run_ext _ _ _ R) as (m & X). rewrite X in CL. exact (clean_app _ _ CL).
Qed.

(** Tasks accepted (the post has counted them), started and ended. *)
Definition accs (l : list event) : list nat := flat_map (fun e => match e with EAcc t => [t] | _ => [] end) l.
Definition starts (l : list event) : list nat := flat_map (fun e => match e with EStart t => [t] | _ => [] end) l.
Definition ends (l : list event) : list nat := flat_map (fun e => match e with EEnd t => [t] | _ => [] end) l.
Lemma accs_app : forall l m, accs (l ++ m) = accs l ++ accs m. Proof. intros; apply flat_map_app. Qed.
Lemma starts_app : forall l m, starts (l ++ m) = starts l ++ starts m. Proof. intros; apply flat_map_app. Qed.
Lemma ends_app : forall l m, ends (l ++ m) = ends l ++ ends m. Proof. intros; apply flat_map_app. Qed.
Lemma nest_len : forall l k k', nest k l = Some k' -> (length k + length (starts l) = length k' + length (ends l))%nat.
Proof.
  induction l as [|e l IH]; intros k k' H; cbn in H; [injection H as <-; reflexivity|].
  destruct e; try (apply IH in H; exact H).
  - apply IH in H. unfold starts, ends in *. cbn in *. lia.
  - destruct k as [|u k]; [discriminate|]. destruct (Nat.eqb t u); [|discriminate]. apply IH in H. unfold starts, ends in *. cbn in *. lia.
Qed.
Lemma tasks_len : forall k, Z.of_nat (length (tasks k)) = runs k.
Proof. induction k as [|f k IH]; [reflexivity|]. destruct f; cbn [tasks runs length]; lia. Qed.
Lemma taken_starts : forall l, ncan l = 0 -> taken l = starts l.
Proof.
  induction l as [|e l IH]; intros H; [reflexivity|].
  change (e :: l) with ([e] ++ l) in *. rewrite ncan_app in H. assert (0 <= ncan [e] /\ 0 <= ncan l) by (unfold ncan; lia).
  rewrite taken_app, starts_app, IH by lia. f_equal. destruct e; try reflexivity. change (ncan [ECan t]) with 1 in *. lia.
Qed.
Definition fly (l : list agent) : list nat := flat_map (fun a => match a with P3 t => [t] | _ => [] end) l.
Lemma fly_len : forall l, length (fly l) = suml inadd l.
Proof. induction l as [|a l IH]; [reflexivity|]. destruct a; cbn; auto. Qed.
Lemma fly_set : forall l i a y, nth_error l i = Some a -> inadd a = 0%nat -> inadd y = 0%nat -> fly (set l i y) = fly l.
Proof.
  unfold fly. induction l as [|b l IH]; intros [|i] a y G A Y; try discriminate G; cbn in *.
  - injection G as ->. destruct a; destruct y; try reflexivity; discriminate.
  - rewrite (IH _ _ _ G A Y). reflexivity.
Qed.
Lemma fly_push : forall l i t, nth_error l i = Some (P2 t) -> fly l = [] -> fly (set l i (P3 t)) = [t].
Proof.
  unfold fly. induction l as [|b l IH]; intros [|i] t G Z; try discriminate G; cbn in *.
  - injection G as ->. cbn in Z. rewrite Z. reflexivity.
  - destruct b; try discriminate Z; exact (IH _ _ G Z).
Qed.
Lemma fly_in : forall l i t, nth_error l i = Some (P3 t) -> In t (fly l).
Proof. intros l i t G. unfold fly. apply in_flat_map. exists (P3 t). split; [eapply nth_error_In; eassumption|left; reflexivity]. Qed.
Lemma fly_app : forall l a, inadd a = 0%nat -> fly (l ++ [a]) = fly l.
Proof. intros l a H. unfold fly. rewrite flat_map_app. destruct a; cbn in *; rewrite ?app_nil_r; auto; discriminate. Qed.
Definition Acc (s : st) : Prop := pushed (log s) = accs (log s) ++ fly (ag s).
Definition mute (e : event) : Prop := match e with EPush _ | EAcc _ => False | _ => True end.
Lemma mute_acc : forall l, Forall mute l -> pushed l = [] /\ accs l = [].
Proof. induction 1 as [|e l M _ (A & B)]; [split; reflexivity|]. destruct e; cbn in *; try contradiction; auto. Qed.
Lemma Acc_same : forall s s' e, log s' = log s ++ e -> Forall mute e -> fly (ag s') = fly (ag s) -> Acc s -> Acc s'.
Proof. intros s s' e L M G A. unfold Acc. destruct (mute_acc _ M) as (X & Y). rewrite L, pushed_app, accs_app, X, Y, !app_nil_r, G. exact A. Qed.
Lemma exec_Acc : forall a s s', exec s a = Some s' -> Lk s -> Acc s -> Acc s'.
Proof.
  intros a s s' E LK A.
  assert (S0 : forall s', log s' = log s -> ag s' = ag s -> Acc s').
  { intros s0 X Y. apply (Acc_same s s0 []); [rewrite app_nil_r; assumption|constructor|rewrite Y; reflexivity|assumption]. }
  assert (S1 : forall s' e, log s' = log s ++ [e] -> mute e -> ag s' = ag s -> Acc s').
  { intros s0 e X M Y. apply (Acc_same s s0 [e]); [assumption|constructor; [assumption|constructor]|rewrite Y; reflexivity|assumption]. }
  destruct a; cbn [exec] in E.
  - unfold move in E. destruct (rs s) as [|f k] eqn:R; [discriminate|].
    destruct f as [b x|t|tm| | | | | | ]; try discriminate.
    + destruct x; cbv beta iota zeta in E.
      all: repeat match type of E with (if ?c then _ else _) = _ => destruct c | match ?c with _ => _ end = _ => destruct c end; try discriminate.
      all: injection E as <-; first [apply S0; reflexivity|eapply S1; [reflexivity|exact Logic.I|reflexivity]].
    + injection E as <-. apply S0; reflexivity.
    + injection E as <-. apply S0; reflexivity.
    + injection E as <-. destruct (back_eq s k) as (_ & X & Y & _). destruct (sp (fl s)); apply S0; auto.
    + injection E as <-. destruct (back_eq s k) as (_ & X & Y & _). destruct (cn (fl s) =? 0); apply S0; auto.
    + destruct (q s); injection E as <-; (eapply S1; [reflexivity|exact Logic.I|reflexivity]).
    + injection E as <-. destruct (back_eq (w_fl s (FL false true true false 0)) k) as (_ & X & Y & _).
      apply (S1 _ ECln); [rewrite say_log, Y; reflexivity|exact Logic.I|exact X].
  - unfold ret in E. destruct (rs s) as [|f k]; [discriminate|]. destruct f; try discriminate; injection E as <-; first [apply S0; reflexivity|eapply S1; [reflexivity|exact Logic.I|reflexivity]].
  - unfold enter in E. destruct (rs s) as [|f k]; [destruct (id s); [|destruct (Nat.eqb (us s) 0); [discriminate|]|discriminate]; injection E as <-; apply S0; reflexivity|].
    destruct f; try discriminate; injection E as <-; first [apply S0; reflexivity|eapply S1; [reflexivity|exact Logic.I|reflexivity]].
  - destruct (rs s) as [|[b x| | | | | | | | ] k]; try discriminate. destruct x; try discriminate. injection E as <-. apply S0; reflexivity.
  - destruct (rs s) as [|[b0 x| | | | | | | | ] k]; try discriminate. destruct x; try discriminate. injection E as <-. apply S0; reflexivity.
  - destruct (rs s) as [|f k]; [discriminate|]. destruct f as [| |[] | | | | | | ]; try discriminate; destruct (mq s); try discriminate; injection E as <-; first [apply S0; reflexivity|eapply S1; [reflexivity|exact Logic.I|reflexivity]].
  - destruct (id s); try discriminate. injection E as <-. apply S0; reflexivity.
  - destruct (id s); try discriminate. injection E as <-. apply S0; reflexivity.
  - unfold step in E. destruct (nth_error (ag s) i) as [a|] eqn:G; [|discriminate].
    assert (S2 : forall s' e y, log s' = log s ++ e -> Forall mute e -> ag s' = set (ag s) i y -> inadd a = 0%nat -> inadd y = 0%nat -> Acc s').
    { intros s0 e y X M Y P Q. apply (Acc_same s s0 e X M); [|assumption]. rewrite Y. eapply fly_set; eassumption. }
    destruct a as [t|t|t|t|n| | | | ]; try discriminate.
    + destruct (sp (fl s)); injection E as <-; [apply (S2 _ [ERej t] Idle)|apply (S2 _ [] (P1 t))]; cbn; rewrite ?app_nil_r; auto. constructor; [exact Logic.I|constructor].
    + destruct (lk (fl s)); injection E as <-; [assumption|apply (S2 _ [] (P2 t))]; cbn; rewrite ?app_nil_r; auto.
    + injection E as <-. unfold Acc. cbn [log say put w_ag w_q ag]. rewrite pushed_app, accs_app. change (accs [EPush t]) with (@nil nat). rewrite app_nil_r, A.
      assert (Z : fly (ag s) = []).
      { destruct LK as (_ & LK). pose proof (fly_len (ag s)) as FL. destruct (fly (ag s)) as [|u r] eqn:FE; [reflexivity|]. exfalso.
        destruct (suml_pos _ inadd (ag s)) as (j & x & GJ & P); [cbn in FL; lia|].
        assert (i <> j) by (intros <-; rewrite G in GJ; injection GJ as <-; cbn in P; lia).
        pose proof (suml_two _ hold _ _ _ _ _ H G GJ) as U. destruct x; cbn in P; try lia. cbn in U. destruct (lk (fl s)); cbn in LK; lia. }
      rewrite Z, app_nil_r, (fly_push _ _ _ G Z). reflexivity.
    + cbv zeta in E. injection E as <-. unfold Acc. cbn [log say put w_ag w_fl ag]. rewrite pushed_app, accs_app, A.
      assert (Z : fly (ag s) = [t] /\ fly (set (ag s) i (P4 (enc (unlock (fl s))))) = []).
      { destruct LK as (_ & LK). pose proof (sum_inadd_le (ag s)) as LE. pose proof (fly_len (ag s)) as FL. pose proof (suml_ge _ inadd _ _ _ G) as GE.
        pose proof (suml_set _ inadd _ _ _ (P4 (enc (unlock (fl s)))) G) as SU. pose proof (fly_in _ _ _ G) as IN.
        pose proof (fly_len (set (ag s) i (P4 (enc (unlock (fl s)))))) as FL2. cbn in GE, SU.
        assert (suml hold (ag s) <= 1)%nat by (destruct (lk (fl s)); cbn in LK; lia). split.
        - destruct (fly (ag s)) as [|u [|v r]]; cbn in FL; try lia. destruct IN as [->|[]]. reflexivity.
        - destruct (fly (set _ _ _)) as [|u r]; [reflexivity|]. cbn in FL2. lia. }
      destruct Z as (-> & ->). destruct (_ <=? _); cbn; rewrite !app_nil_r; reflexivity.
    + destruct (n <? _); injection E as <-; [apply (S2 _ [] P5)|apply (S2 _ [] Idle)]; cbn; rewrite ?app_nil_r; auto.
    + injection E as <-. apply (S2 _ [] Idle); destruct (id s); cbn; rewrite ?app_nil_r; auto.
    + destruct (enc (fl s) <? 16); injection E as <-; [apply (S2 _ [EJoin] Idle)|apply (S2 _ [] J1)]; cbn; rewrite ?app_nil_r; auto. constructor; [exact Logic.I|constructor].
    + destruct (enc (fl s) =? 6); [|discriminate]. injection E as <-. apply (S2 _ [EJoin] Idle); cbn; auto. constructor; [exact Logic.I|constructor].
  - destruct (Nat.eqb (us s) 0); [discriminate|]. injection E as <-. apply (Acc_same s _ []); cbn; rewrite ?app_nil_r; auto. apply fly_app; reflexivity.
  - destruct (Nat.eqb (us s) 0); [discriminate|]. injection E as <-. apply (Acc_same s _ []); cbn; rewrite ?app_nil_r; auto. apply fly_app; reflexivity.
  - destruct (Nat.eqb (us s) 0); [discriminate|]. injection E as <-. eapply S1; [reflexivity|exact Logic.I|reflexivity].
  - destruct (_ || _); [discriminate|]. injection E as <-. apply S0; reflexivity.
Qed.
Lemma run_Acc : forall l s s', run s l = Some s' -> ~ In ECln (log s') -> Lk s -> Acc s -> Acc s'.
Proof.
  induction l as [|a l IH]; intros s s' R N L A; cbn in R; [injection R as <-; assumption|].
  destruct (exec s a) as [s1|] eqn:E; [|discriminate].
  exact (IH _ _ R N (exec_Lk _ _ _ E (run_in _ _ _ _ R N) L) (exec_Acc _ _ _ E L A)).
Qed.
