(** Property C120: tasks made on a runner. *)
From Coq Require Import List Bool Arith Lia.
From Verif Require Import MakeTaskModel MakeTaskProofs.
Import ListNotations.

(** * Theorems *)
(** The callback is called at most once, never for a sleep; a settled operation stays as it is. *)
Theorem C120_once : forall k tok l s, run k tok init l = Some s -> calls s <= 1 /\ (k = Sleep -> calls s = 0) /\
  forall l' s', run k tok s l' = Some s' -> sts s <> Started -> sts s' = sts s.
Proof.
  intros k tok l s R. pose proof (run_Inv k tok l _ s (init_Inv k) R) as I. split; [|split].
  - pose proof (ient k s I) as J. destruct (ent s); lia.
  - exact (isleep k s I).
  - clear. induction l' as [|a l' IH] in s |- *; intros s' R N; cbn in R; [injection R as <-; reflexivity|].
    destruct (step k tok s a) as [s1|] eqn:E; [|discriminate]. pose proof (step_sts k tok s a s1 E N) as Q. rewrite <- Q. apply IH; [exact R|congruence].
Qed.
(** A task completes with what the callback returned and fails with what it threw; a sleep completes with S_OK only after
    its time, and with E_UNEXPECTED only if it was never posted. *)
Theorem C120_truth : forall k tok l s, run k tok init l = Some s ->
  (forall v, sts s = Completed v -> k <> Sleep -> said s = Some (Returns v)) /\
  (forall v, sts s = Completed v -> k = Sleep -> (v = S_OK /\ due s = true) \/ (v = E_UNEXPECTED /\ ent s = ENone)) /\
  (forall e, sts s = Failed e -> said s = Some (Throws e)).
Proof.
  intros k tok l s R. pose proof (itrue k s (run_Inv k tok l _ s (init_Inv k) R)) as T. repeat split; intros v E; rewrite E in T; [intros NS|intros SL|]; tauto.
Qed.
(** Full statement (C120): when everything has come to rest the operation is settled.  Missing: entries that the runner
    refused or dropped (below). *)
Theorem C120_settles_partial : forall k tok l s, run k tok init l = Some s -> maker s = MEnd -> ent s <> EQueued -> ent s <> EGone ->
  (forall a, a = Work \/ (exists o, a = Do o) -> step k tok s a = None) -> sts s <> Started.
Proof.
  intros k tok l s R M Q G D. pose proof (run_Inv k tok l _ s (init_Inv k) R) as I. destruct (ent s) as [| |p|] eqn:E; try congruence.
  - exact (inoent k s I M E).
  - pose proof (D Work (or_introl eq_refl)) as W. pose proof (D (Do (Returns 0)) (or_intror (ex_intro _ _ eq_refl))) as C. cbn in W, C. rewrite E in W, C.
    destruct p; cbn in W; try discriminate W; try discriminate C. pose proof (ient k s I) as J. rewrite E in J. exact (proj1 J).
Qed.
(** Nobody looks at the answer of PostTask and PostDelayTask, and nobody settles the operation when its entry is dropped:
    then it stays Started for ever, unless somebody cancels it by hand; who waits for the task waits for ever. *)
Definition dead (s : st) : Prop := sts s = Started /\ maker s = MEnd /\ ent s = EGone.
Lemma dead_stays : forall k tok l s s', dead s -> ~ In Cancel l -> run k tok s l = Some s' -> dead s'.
Proof.
  induction l as [|a l IH]; intros s s' D N R; cbn in R; [injection R as <-; exact D|]. destruct (step k tok s a) as [s1|] eqn:E; [|discriminate].
  apply (IH s1); [|intros X; apply N; right; exact X|exact R]. destruct D as (D1 & D2 & D3).
  destruct a; cbn in E; rewrite ?D2, ?D3 in E; try discriminate E; try (injection E as <-; unfold dead; cbn; auto). exfalso. apply N. left. reflexivity.
Qed.
Theorem C120_settles_refuted : forall k tok, exists l1 l2 s1 s2, run k tok init l1 = Some s1 /\ In (Post false) l1 /\ run k tok init l2 = Some s2 /\ In Discard l2 /\
  forall l s', ~ In Cancel l -> (run k tok s1 l = Some s' \/ run k tok s2 l = Some s') -> sts s' = Started /\ calls s' = 0.
Proof.
  intros k tok. set (c := match k with Sleep => [Make; Current true] | _ => [Make] end).
  assert (A : exists s, run k tok init (c ++ [Post false]) = Some s /\ dead s) by (unfold dead; destruct k, tok; eexists; (split; [reflexivity|]); auto).
  assert (B : exists s, run k tok init (c ++ [Post true; Discard]) = Some s /\ dead s) by (unfold dead; destruct k, tok; eexists; (split; [reflexivity|]); auto).
  destruct A as (s1 & A1 & A2). destruct B as (s2 & B1 & B2). exists (c ++ [Post false]), (c ++ [Post true; Discard]), s1, s2.
  split; [exact A1|]. split; [apply in_or_app; right; cbn; auto|]. split; [exact B1|]. split; [apply in_or_app; right; cbn; auto|].
  intros l s' N [R|R].
  - pose proof (dead_stays k tok l s1 s' A2 N R) as D. split; [exact (proj1 D)|]. pose proof (ient k s' (run_Inv k tok l s1 s' (run_Inv k tok _ _ _ (init_Inv k) A1) R)) as J.
    destruct D as (_ & _ & D). rewrite D in J. exact J.
  - pose proof (dead_stays k tok l s2 s' B2 N R) as D. split; [exact (proj1 D)|]. pose proof (ient k s' (run_Inv k tok l s2 s' (run_Inv k tok _ _ _ (init_Inv k) B1) R)) as J.
    destruct D as (_ & _ & D). rewrite D in J. exact J.
Qed.
(** The token of a delayed task or a sleep wakes nobody: the operation is not settled before the delay has passed. *)
Definition asleep (s : st) : Prop := sts s = Started /\ maker s = MEnd /\ due s = false /\ (ent s = EQueued \/ ent s = EGone).
Theorem C120_prompt_refuted : forall k, k <> Plain -> exists l s, run k true init l = Some s /\ flag s = true /\ ent s = EQueued /\
  forall l' s', ~ In Cancel l' -> ~ In Time l' -> run k true s l' = Some s' -> sts s' = Started.
Proof.
  intros k NP. exists (match k with Sleep => [Make; Current true; Post true; Token] | _ => [Make; Post true; Token] end).
  assert (A : exists s, run k true init (match k with Sleep => [Make; Current true; Post true; Token] | _ => [Make; Post true; Token] end) = Some s /\ flag s = true /\ ent s = EQueued /\ asleep s)
    by (unfold asleep; destruct k; [congruence| |]; eexists; (split; [reflexivity|]); cbn; auto 7).
  destruct A as (s & A1 & A2 & A3 & A4). exists s. split; [exact A1|]. split; [exact A2|]. split; [exact A3|]. clear A1 A2 A3.
  intros l'. revert s A4. induction l' as [|a l' IH]; intros s (D1 & D2 & D3 & D4) s' N T R; cbn in R; [injection R as <-; exact D1|].
  destruct (step k true s a) as [s1|] eqn:E; [|discriminate]. apply (IH s1); [|intros X; apply N; right; exact X|intros X; apply T; right; exact X|exact R].
  destruct a; cbn in E; rewrite ?D2 in E; try discriminate E.
  - injection E as <-. unfold asleep; cbn; auto.
  - exfalso. apply N. left. reflexivity.
  - exfalso. apply T. left. reflexivity.
  - destruct D4 as [D4|D4]; rewrite D4 in E; [|discriminate E]. rewrite D3 in E. destruct k; [congruence|discriminate E..].
  - destruct D4 as [D4|D4]; rewrite D4 in E; [|discriminate E]. injection E as <-. unfold asleep; cbn; auto.
  - destruct D4 as [D4|D4]; rewrite D4 in E; discriminate E.
  - destruct D4 as [D4|D4]; rewrite D4 in E; discriminate E.
Qed.
(** A task that was cancelled, or whose token was, before the runner started it is not called. *)
Definition stopped (tok : bool) (s : st) : Prop := sts s = Canceled \/ (sts s = Started /\ tok && flag s = true).
Definition before (s : st) : Prop := match ent s with ERun p => match p with Chk | Can | End => True | _ => False end | _ => True end.
Theorem C120_not_called : forall k tok l s l' s', run k tok init l = Some s -> k <> Sleep -> stopped tok s -> (forall p, ent s <> ERun p) ->
  run k tok s l' = Some s' -> calls s' = 0.
Proof.
  intros k tok l s l' s' R NS P NE R'. pose proof (run_Inv k tok l _ s (init_Inv k) R) as I.
  assert (B : before s) by (unfold before; destruct (ent s) as [| |p|] eqn:E; auto; exfalso; exact (NE p eq_refl)).
  assert (C : calls s = 0) by (pose proof (ient k s I) as J; destruct (ent s) as [| |p|] eqn:E; auto; exfalso; exact (NE p eq_refl)).
  clear R NE. revert s I P B C R'. induction l' as [|a l' IH]; intros s I P B C R; cbn in R; [injection R as <-; exact C|].
  destruct (step k tok s a) as [s1|] eqn:E; [|discriminate]. pose proof (step_Inv k tok s a s1 I E) as I1. pose proof (imaker k s I) as IM.
  assert (X : stopped tok s1 /\ before s1 /\ calls s1 = 0); [|destruct X as (X1 & X2 & X3); exact (IH s1 I1 X1 X2 X3 R)].
  clear IH R I I1. destruct s as [x f m e d c o]. unfold stopped, before in *. cbn in *. destruct a as [|b|b| | | | | | |w]; cbn in E.
  - destruct m as [| | | |p|]; try discriminate E; try (destruct IM; congruence).
    + injection E as <-; cbn; auto.
    + injection E as <-. unfold settle; cbn. destruct x; cbn in *; intuition congruence.
  - destruct m; try discriminate E. congruence.
  - destruct m; try discriminate E. injection E as <-. destruct b; cbn; auto.
  - injection E as <-; cbn. destruct P as [P|(P1 & P2)]; [auto|]. apply andb_true_iff in P2. destruct P2 as (-> & _). auto.
  - injection E as <-. unfold settle; cbn. destruct x; cbn in *; intuition congruence.
  - injection E as <-; cbn; auto.
  - destruct e; try discriminate E. destruct k; [|destruct d; [|discriminate E]..]; injection E as <-; cbn; auto; congruence.
  - destruct e; try discriminate E. injection E as <-; cbn; auto.
  - destruct e as [| |p|]; try discriminate E. destruct p; try contradiction; cbn in E; try discriminate E; injection E as <-; unfold settle, canceled; cbn.
    + destruct P as [->|(-> & ->)]; cbn; auto.
    + destruct x; cbn in *; intuition congruence.
  - destruct e as [| |p|]; try discriminate E. destruct p; try contradiction; discriminate E.
Qed.

(** A token cancelled before the task is made keeps it from being posted at all, and the operation is cancelled when the
    function returns. *)
Definition stillborn (s : st) : Prop := flag s = true /\ ent s = ENone /\
  match maker s with M0 | MCan => True | MEnd => sts s <> Started | _ => False end /\
  match sts s with Started | Canceled => True | _ => False end.
Theorem C120_unposted : forall k l s l' s', run k true init l = Some s -> maker s = M0 -> flag s = true ->
  run k true s l' = Some s' -> ent s' = ENone /\ calls s' = 0 /\ (maker s' = MEnd -> sts s' = Canceled).
Proof.
  intros k l s l' s' R M F R'. pose proof (run_Inv k true l _ s (init_Inv k) R) as I.
  assert (A : forall l s s', (maker s = M0 -> ent s = ENone /\ (sts s = Started \/ sts s = Canceled)) -> run k true s l = Some s' ->
                maker s' = M0 -> ent s' = ENone /\ (sts s' = Started \/ sts s' = Canceled)).
  { clear. intros l. induction l as [|a l IH]; intros s s' H R M; cbn in R; [injection R as <-; auto|].
    destruct (step k true s a) as [s1|] eqn:E; [|discriminate]. apply (IH s1 s'); [|exact R|exact M]. clear IH R M s'. intros M.
    assert (X : maker s = M0).
    { assert (Q : forall x t, maker (settle x t) = maker t) by (intros x t; unfold settle; destruct (sts t); reflexivity).
      destruct a; cbn in E.
      - destruct (maker s) as [| | | |p|] eqn:Em; try discriminate E; auto; try (injection E as <-; discriminate M).
        destruct p; try discriminate E; try (destruct (inside k true s _) as [[s2 p2]|]; [|discriminate E]); injection E as <-; discriminate M.
      - destruct (maker s); try discriminate E. injection E as <-. destruct b; discriminate M.
      - destruct (maker s); try discriminate E. injection E as <-. discriminate M.
      - injection E as <-. exact M.
      - injection E as <-. rewrite Q in M. exact M.
      - injection E as <-. exact M.
      - destruct (ent s); try discriminate E. destruct (match k with Plain => true | _ => due s end); [|discriminate E]. injection E as <-. exact M.
      - destruct (ent s); try discriminate E. injection E as <-. exact M.
      - destruct (ent s) as [| |p|]; try discriminate E. destruct p; cbn in E; try discriminate E; injection E as <-; cbn in M; rewrite ?Q in M; exact M.
      - destruct (ent s) as [| |p|]; try discriminate E. destruct p; cbn in E; try discriminate E; injection E as <-. exact M. }
    destruct (H X) as (Y1 & Y2). destruct s as [x f m e d c o]. cbn in X, Y1, Y2. subst m e.
    destruct a; cbn in E; try discriminate E; injection E as <-; unfold settle; cbn; cbn in M; auto; destruct Y2 as [->| ->]; cbn; auto. }
  destruct (A l init s (fun _ => conj eq_refl (or_introl eq_refl)) R M) as (E0 & S0). clear A R.
  assert (B : stillborn s) by (unfold stillborn; rewrite M, E0, F; destruct S0 as [->| ->]; auto).
  pose proof (ient k s I) as C. rewrite E0 in C. clear I M F E0 S0. revert s B C R'.
  induction l' as [|a l' IH]; intros s (B1 & B2 & B3 & B4) C R; cbn in R.
  - injection R as <-. split; [exact B2|]. split; [exact C|]. intros M. rewrite M in B3. destruct (sts s); try contradiction; congruence.
  - destruct (step k true s a) as [s1|] eqn:E; [|discriminate]. apply (IH s1); [| |exact R]; clear IH R;
      destruct s as [x f m e d c o]; cbn in B1, B2, B3, B4, C; subst f e c; unfold stillborn;
      destruct a; cbn in E; try discriminate E; destruct m; try contradiction; try discriminate E; injection E as <-; unfold settle; cbn;
      destruct x; try contradiction; cbn; try (repeat split; congruence); auto.
Qed.
(** A token cancelled before the operation is about to complete keeps it from completing, even if the callback has run. *)
Definition past (s : st) : Prop := (exists v, maker s = MRes (RCas v)) \/ (exists v, ent s = ERun (RCas v)).
Theorem C120_late_cancel : forall k l s l' s', run k true init l = Some s -> flag s = true -> ~ past s -> (forall v, sts s <> Completed v) ->
  run k true s l' = Some s' -> forall v, sts s' <> Completed v.
Proof.
  intros k l s l' s' _ F P N R. revert s F P N R. induction l' as [|a l' IH]; intros s F P N R; cbn in R; [injection R as <-; exact N|].
  destruct (step k true s a) as [s1|] eqn:E; [|discriminate].
  assert (X : flag s1 = true /\ ~ past s1 /\ forall v, sts s1 <> Completed v); [|destruct X as (X1 & X2 & X3); exact (IH s1 X1 X2 X3 R)].
  clear IH R. destruct s as [x f m e d c o]. unfold past in *. cbn in F, P, N. subst f.
  assert (Pm : forall v, m <> MRes (RCas v)) by (intros v ->; apply P; left; eauto).
  assert (Pe : forall v, e <> ERun (RCas v)) by (intros v ->; apply P; right; eauto). clear P.
  assert (G : forall t, flag t = true -> (forall v, sts t <> Completed v) -> (forall v, maker t <> MRes (RCas v)) -> (forall v, ent t <> ERun (RCas v)) ->
            flag t = true /\ ~ ((exists v, maker t = MRes (RCas v)) \/ (exists v, ent t = ERun (RCas v))) /\ forall v, sts t <> Completed v).
  { intros t H0 H1 H2 H3. split; [exact H0|]. split; [|exact H1]. intros [(v & H)|(v & H)]; [exact (H2 v H)|exact (H3 v H)]. }
  destruct a as [|b|b| | | | | | |w]; cbn in E.
  - destruct m as [| | | |p|]; try discriminate E; try (destruct p as [| | |v| |v| |v|]); try (exfalso; exact (Pm v eq_refl)); cbn in E; try discriminate E;
      injection E as <-; apply G; unfold settle, canceled; cbn; destruct x as [|w| |w]; try (exfalso; exact (N w eq_refl)); cbn; auto; intros; destruct k; cbn; auto; discriminate.
  - destruct m; try discriminate E. injection E as <-. apply G; cbn; auto. intros v; destruct b; discriminate.
  - destruct m; try discriminate E. injection E as <-. apply G; cbn; auto; intros v; [|destruct b]; discriminate.
  - injection E as <-. apply G; cbn; auto.
  - injection E as <-. apply G; unfold settle; cbn; destruct x; cbn; auto; discriminate.
  - injection E as <-. apply G; cbn; auto.
  - destruct e; try discriminate E. destruct k; [|destruct d; [|discriminate E]..]; injection E as <-; apply G; cbn; auto; discriminate.
  - destruct e; try discriminate E. injection E as <-. apply G; cbn; auto; discriminate.
  - destruct e as [| |p|]; try discriminate E. destruct p as [| | |v| |v| |v|]; try (exfalso; exact (Pe v eq_refl)); cbn in E; try discriminate E;
      injection E as <-; apply G; unfold settle, canceled; cbn; destruct x as [|w| |w]; try (exfalso; exact (N w eq_refl)); cbn; auto; intros; destruct k; cbn; auto; discriminate.
  - destruct e as [| |p|]; try discriminate E. destruct p; try discriminate E. injection E as <-. apply G; cbn; auto. intros v; destruct w; discriminate.
Qed.

(** A task that runs; a delayed one; one whose token is cancelled while the callback runs: it ends as cancelled although
    the callback returned. *)
Example C120_runs : option_map sts (run Plain true init [Make; Post true; Begin; Work; Do (Returns 5); Work; Work]) = Some (Completed 5).
Proof. reflexivity. Qed.
Example C120_throws : option_map sts (run Delay false init [Make; Post true; Time; Begin; Work; Do (Throws 9); Work]) = Some (Failed 9).
Proof. reflexivity. Qed.
Example C120_ran_but_canceled : option_map (fun s => (sts s, calls s)) (run Plain true init [Make; Post true; Begin; Work; Token; Do (Returns 5); Work; Work; Work]) = Some (Canceled, 1).
Proof. reflexivity. Qed.
Example C120_no_runner : option_map sts (run Sleep false init [Make; Current false; Make; Make; Make]) = Some (Completed E_UNEXPECTED).
Proof. reflexivity. Qed.
Example C120_stopped : option_map (fun s => (sts s, calls s)) (run Plain true init [Make; Post true; Token; Begin; Work; Work]) = Some (Canceled, 0).
Proof. reflexivity. Qed.

Example C120_never_posted : option_map (fun s => (sts s, ent s, maker s)) (run Delay true init [Token; Make; Make]) = Some (Canceled, ENone, MEnd).
Proof. reflexivity. Qed.

Print Assumptions C120_once.
Print Assumptions C120_truth.
Print Assumptions C120_settles_partial.
Print Assumptions C120_settles_refuted.
Print Assumptions C120_prompt_refuted.
Print Assumptions C120_not_called.
Print Assumptions C120_unposted.
Print Assumptions C120_late_cancel.
