(** Properties C122 and C123: continuations on a runner. *)
From Coq Require Import List Bool Arith Lia.
From Verif Require Import Slots SlotsProofs Threads RecoverModel RecoverProofs.
Import ListNotations.

(** * C122: what a continuation does *)
Lemma settled_step : forall k tok r s a s', step k tok r s a = Some s' -> sts s <> Started -> sts s' = sts s.
Proof.
  intros k tok r s a s' E N. assert (SE : forall x, sts (settle x s) = sts s) by (intros x; unfold settle; destruct (sts s) eqn:Y; congruence).
  destruct a; cbn in E; try (injection E as <-; auto; fail).
  - destruct (dec (src s)); [discriminate|]; injection E as <-; reflexivity.
  - destruct (dec (src s)); [|discriminate]; destruct (fill (src s)); [discriminate|]; injection E as <-; reflexivity.
  - destruct (fill (src s)); [|discriminate]; destruct (hrw (src s)); [discriminate|]; injection E as <-; reflexivity.
  - destruct (hrw (src s)); [|discriminate]; destruct (reg (src s)); [|discriminate]; injection E as <-; reflexivity.
  - destruct (dec (inn s)); [discriminate|]; injection E as <-; reflexivity.
  - destruct (dec (inn s)); [|discriminate]; destruct (fill (inn s)); [discriminate|]; injection E as <-; reflexivity.
  - destruct (fill (inn s)); [|discriminate]; destruct (hrw (inn s)); [discriminate|]; injection E as <-; reflexivity.
  - destruct (hrw (inn s)); [|discriminate]; destruct (reg (inn s)); [|discriminate]; injection E as <-; reflexivity.
  - destruct (nth_error (ths s) i) as [p|]; [|discriminate]. destruct (inside k tok s p) as [[s1 q]|] eqn:Q; [|discriminate]. injection E as <-. cbn.
    destruct p; cbn in Q; try discriminate Q; repeat match type of Q with
      | Some _ = Some _ => injection Q as <- _; auto
      | context [match dec ?o with _ => _ end] => destruct (dec o) as [[]|]; try discriminate Q
      | context [if hrw ?o then _ else _] => destruct (hrw o); try discriminate Q end.
  - destruct (nth_error (ths s) i) as [p|]; [|discriminate]. destruct p; try discriminate E. destruct (place_of r s x c ok) as [e q]. injection E as <-. destruct e; reflexivity.
  - destruct (nth_error (ths s) i) as [p|]; [|discriminate]. destruct p; try discriminate E. destruct k, o; try discriminate E; injection E as <-; reflexivity.
  - destruct (ent s); try discriminate E. injection E as <-. reflexivity.
  - destruct (ent s); try discriminate E. injection E as <-. reflexivity.
Qed.
(** The callback is called at most once; a settled continuation stays as it is. *)
Theorem C122_once : forall k tok r l s, run k tok r init l = Some s -> calls s <= 1 /\
  forall l' s', run k tok r s l' = Some s' -> sts s <> Started -> sts s' = sts s.
Proof.
  intros k tok r l s R. split.
  - pose proof (i_memo _ _ _ false s (run_Inv k tok r false l _ s (init_Inv k tok r false) ltac:(discriminate) R)) as [M|M]; lia.
  - clear R. intros l'. revert s. induction l' as [|a l' IH]; intros s s' R N; cbn in R; [injection R as <-; reflexivity|].
    destruct (step k tok r s a) as [s1|] eqn:E; [|discriminate]. pose proof (settled_step k tok r s a s1 E N) as Q. rewrite <- Q. apply IH; [exact R|congruence].
Qed.
(** Then calls its callback only with the result of a completed source, ThenError only with the exception that stands for
    the failure or cancellation of the source: also when it attaches while the source is being settled. *)
Theorem C122_argument : forall k tok r l s a, run k tok r init l = Some s -> given s = Some a ->
  match a with
  | AVal v => k = KThen /\ dec (src s) = Some (EVal v)
  | AExn e => k <> KThen /\ ((dec (src s) = Some ECan /\ e = OpCanceled) \/ dec (src s) = Some (EExn e) \/ exists c, dec (src s) = Some (ECode c) /\ e = Code (norm c))
  end.
Proof.
  intros k tok r l s a R G. pose proof (i_memo _ _ _ false s (run_Inv k tok r false l _ s (init_Inv k tok r false) ltac:(discriminate) R)) as [M|M].
  - destruct M as (_ & _ & M & _). congruence.
  - destruct M as (_ & a' & o & pl & _ & M & _ & A & _). assert (a' = a) by congruence. subst a'. destruct a as [v|e]; [exact A|].
    destruct A as (A1 & d & A2 & A3 & A4). split; [exact A1|]. destruct d; cbn in A3, A4; [contradiction|..]; subst e; eauto.
Qed.
Lemma cancel_dec : forall l, In Cancel l \/ ~ In Cancel l.
Proof. induction l as [|a l [IH|IH]]; cbn; auto. destruct a; intuition discriminate. Qed.
(** Whatever a continuation ends with was produced somewhere: a result by the callback, by the task it returned or, in
    ThenError, by the source; an exception by the callback, by the task it returned or, in Then, by the source. *)
Theorem C122_truth : forall k tok r l s, run k tok r init l = Some s ->
  match sts s with
  | Started => True
  | Completed v => said s = Some (Returns v) \/ (said s = Some (Task true) /\ dec (inn s) = Some (EVal v)) \/
      (k <> KThen /\ calls s = 0 /\ dec (src s) = Some (EVal v))
  | Canceled => In Cancel l \/ (tok = true /\ flag s = true)
  | Failed (Some x) c => said s = Some (Throws x) \/ (said s = Some (Task true) /\ dec (inn s) = Some (EExn x)) \/
      (k = KThen /\ calls s = 0 /\ dec (src s) = Some (EExn x))
  | Failed None c => said s = Some (Task false) \/ (said s = Some (Task true) /\ exists d, dec (inn s) = Some d /\ bad d) \/
      (k = KThen /\ calls s = 0 /\ exists d, dec (src s) = Some d /\ (bad d \/ (c = CANCELLED /\ gone s = true)))
  end.
Proof.
  intros k tok r l s R. pose proof (cancel_dec l) as NC.
  pose proof (i_true _ _ _ false s (run_Inv k tok r false l _ s (init_Inv k tok r false) ltac:(discriminate) R)) as T. unfold truth in T.
  destruct (sts s) as [|v| |p c] eqn:Y; auto.
  - unfold val_ok in T. tauto.
  - destruct NC as [NC|NC]; [auto|right]. pose proof (i_true _ _ _ true s (run_Inv k tok r true l _ s (init_Inv k tok r true) (fun _ => NC) R)) as T'. unfold truth in T'. rewrite Y in T'. apply andb_true_iff. exact (T' eq_refl).
  - destruct T as (c0 & -> & [[(A1 & A2 & d & A3 & A4 & A5 & _)|[(x & A1 & A2 & _)|(A1 & d & A3 & A4 & A5 & _)]]|(A1 & [(A2 & A3)|(A0 & A2 & A3 & A4 & A5 & v & A6)])]).
    + destruct p as [x|].
      * right. right. destruct A5 as [A5|(y & -> & A5)]; [discriminate A5|]. injection A5 as <-. auto.
      * right. right. split; [exact A1|]. split; [exact A2|]. exists d. auto.
    + subst p. left. exact A1.
    + destruct p as [x|].
      * right. left. destruct A5 as [A5|(y & -> & A5)]; [discriminate A5|]. injection A5 as <-. auto.
      * right. left. split; [exact A1|]. exists d. auto.
    + subst p. left. exact A3.
    + subst p c0. right. right. split; [exact A2|]. split; [exact A5|]. exists (EVal v). split; [exact A6|]. right. split; [reflexivity|exact A4].
Qed.

(** A continuation whose token is cancelled before it calls its callback never calls it: so the callback of ThenError is
    not called for a source that was cancelled through its token, whatever Task.h 140-143 promises. *)
Definition at_call (s : st) : Prop := exists i a l, nth_error (ths s) i = Some (Call a l).
Lemma step_flag : forall k tok r s a s', step k tok r s a = Some s' -> flag s = true -> flag s' = true.
Proof.
  intros k tok r s a s' E F. assert (SE : forall x, flag (settle x s) = flag s) by (intros x; unfold settle; destruct (sts s); reflexivity).
  destruct a; cbn in E; repeat match type of E with
    | Some _ = Some _ => injection E as <-; cbn; rewrite ?SE; auto
    | None = Some _ => discriminate E
    | context [match dec ?o with _ => _ end] => destruct (dec o)
    | context [if ?b then _ else _] => destruct b
    | context [match ent s with _ => _ end] => destruct (ent s) end.
  - destruct (nth_error (ths s) i) as [p|]; [|discriminate]. destruct (inside k tok s p) as [[s1 q]|] eqn:Q; [|discriminate]. injection E as <-. cbn.
    destruct p; cbn in Q; try discriminate Q; repeat match type of Q with
      | Some _ = Some _ => injection Q as <- _; cbn; rewrite ?SE; auto
      | context [match dec ?o with _ => _ end] => destruct (dec o) as [[]|]; try discriminate Q
      | context [if hrw ?o then _ else _] => destruct (hrw o); try discriminate Q end.
  - destruct (nth_error (ths s) i) as [p|]; [|discriminate]. destruct p; try discriminate E. destruct (place_of r s x c ok) as [e q]. injection E as <-. destruct e; exact F.
  - destruct (nth_error (ths s) i) as [p|]; [|discriminate]. destruct p; try discriminate E. destruct k, o; try discriminate E; injection E as <-; exact F.
Qed.
Lemma not_called_step : forall k r s a s', Inv k true r false s -> step k true r s a = Some s' -> flag s = true -> calls s = 0 -> ~ at_call s -> calls s' = 0 /\ ~ at_call s'.
Proof.
  intros k r s a s' I E F C N.
  assert (OT : forall i q, (forall x y, q <> Call x y) -> forall t, ths t = ths s -> calls t = 0 -> calls (put t i q) = 0 /\ ~ at_call (put t i q)).
  { intros i q Q t T CT. split; [exact CT|]. intros (j & a' & l & H). cbn in H. rewrite T in H. apply nth_set in H. destruct H as [(_ & H)|(_ & H)]; [exact (Q _ _ (eq_sym H))|]. apply N. exists j, a', l. exact H. }
  assert (SE : forall x, calls (settle x s) = 0 /\ ths (settle x s) = ths s) by (intros x; unfold settle; destruct (sts s); auto).
  destruct a; cbn in E.
  - destruct (dec (src s)); [discriminate|]; injection E as <-. auto.
  - destruct (dec (src s)); [|discriminate]; destruct (fill (src s)); [discriminate|]; injection E as <-. auto.
  - destruct (fill (src s)); [|discriminate]; destruct (hrw (src s)); [discriminate|]; injection E as <-. auto.
  - destruct (hrw (src s)); [|discriminate]; destruct (reg (src s)); [|discriminate]; injection E as <-. apply OT; auto; discriminate.
  - destruct (dec (inn s)); [discriminate|]; injection E as <-. auto.
  - destruct (dec (inn s)); [|discriminate]; destruct (fill (inn s)); [discriminate|]; injection E as <-. auto.
  - destruct (fill (inn s)); [|discriminate]; destruct (hrw (inn s)); [discriminate|]; injection E as <-. auto.
  - destruct (hrw (inn s)); [|discriminate]; destruct (reg (inn s)); [|discriminate]; injection E as <-. apply OT; auto; discriminate.
  - destruct (nth_error (ths s) i) as [p|] eqn:NP; [|discriminate]. destruct (inside k true s p) as [[s1 q]|] eqn:Q; [|discriminate]. injection E as <-.
    pose proof (i_pc _ _ _ _ s I i p NP) as P.
    assert (Z : ths s1 = ths s /\ calls s1 = 0 /\ forall x y, q <> Call x y); [|destruct Z as (Z1 & Z2 & Z3); apply OT; auto].
    destruct p; cbn in Q; try discriminate Q; try (injection Q as <- <-; rewrite ?(proj2 (SE _)), ?(proj1 (SE _)); split; [reflexivity|split; [auto|discriminate]]).
    + destruct (dec (src s)); injection Q as <- <-; (split; [reflexivity|split; [auto|discriminate]]).
    + destruct (dec (src s)) as [[]|]; try discriminate Q; injection Q as <- <-; (split; [reflexivity|split; [auto|destruct k; discriminate]]).
    + destruct (hrw (src s)); [|discriminate Q]. destruct (dec (src s)) as [[]|]; try discriminate Q; injection Q as <- <-; (split; [reflexivity|split; [auto|discriminate]]).
    + injection Q as <- <-; (split; [reflexivity|split; [auto|destruct (eptr (src s)); discriminate]]).
    + injection Q as <- <-; (split; [reflexivity|split; [auto|destruct (o_canceled (flag s) (src s)); discriminate]]).
    + injection Q as <- <-; (split; [reflexivity|split; [auto|destruct (o_canceled (flag s) (src s)); discriminate]]).
    + destruct (hrw (src s)); [|discriminate Q]. injection Q as <- <-; (split; [reflexivity|split; [auto|discriminate]]).
    + destruct (dec (src s)) as [[]|]; injection Q as <- <-; (split; [reflexivity|split; [auto|discriminate]]).
    + destruct (hrw (src s)); [|discriminate Q]. destruct (dec (src s)) as [[]|]; try discriminate Q; injection Q as <- <-; (split; [reflexivity|split; [auto|discriminate]]).
    + cbn in P. destruct P as ((_ & P) & _). assert (CN : canceled true s = true) by (unfold canceled; destruct P as [P|P]; rewrite P; cbn; auto). rewrite CN in Q.
      injection Q as <- <-; (split; [reflexivity|split; [auto|discriminate]]).
    + injection Q as <- <-; (split; [reflexivity|split; [auto|destruct (canceled true s), b; discriminate]]).
    + destruct (dec (inn s)); injection Q as <- <-; (split; [reflexivity|split; [auto|discriminate]]).
    + destruct (dec (inn s)) as [[]|]; try discriminate Q; injection Q as <- <-; (split; [reflexivity|split; [auto|discriminate]]).
    + destruct (hrw (inn s)); [|discriminate Q]. destruct (dec (inn s)) as [[]|]; try discriminate Q; injection Q as <- <-; (split; [reflexivity|split; [auto|discriminate]]).
    + injection Q as <- <-; (split; [reflexivity|split; [auto|destruct (canceled true s); discriminate]]).
    + injection Q as <- <-. rewrite (proj2 (SE _)), (proj1 (SE _)). split; [reflexivity|]. split; [reflexivity|]. destruct (sts s); discriminate.
  - destruct (nth_error (ths s) i) as [p|] eqn:NP; [|discriminate]. destruct p; try discriminate E. destruct (place_of r s x c ok) as [e q] eqn:PO. injection E as <-.
    assert (Z : forall x' y, q <> Call x' y).
    { unfold place_of, resume in PO. destruct r; cbn in PO; [destruct (gone s)|]; destruct x, c; injection PO as <- <-; discriminate. }
    destruct e; apply OT; auto.
  - destruct (nth_error (ths s) i) as [p|] eqn:NP; [|discriminate]. destruct p; try discriminate E. exfalso. apply N. exists i, a, l. exact NP.
  - destruct (ent s); try discriminate E. injection E as <-. apply OT; auto. destruct x; discriminate.
  - destruct (ent s); try discriminate E. injection E as <-. auto.
  - injection E as <-. auto.
  - injection E as <-. split; [apply SE|]. intros (i & a & l & H). apply N. exists i, a, l. rewrite (proj2 (SE _)) in H. exact H.
  - injection E as <-. auto.
Qed.
Theorem C122_not_called : forall k r l s l' s', run k true r init l = Some s -> flag s = true -> calls s = 0 -> ~ at_call s -> run k true r s l' = Some s' -> calls s' = 0.
Proof.
  intros k r l s l' s' R. pose proof (run_Inv k true r false l _ s (init_Inv k true r false) ltac:(discriminate) R) as I. clear R. revert s I.
  induction l' as [|a l' IH]; intros s I F C N R; cbn in R; [injection R as <-; exact C|]. destruct (step k true r s a) as [s1|] eqn:E; [|discriminate].
  destruct (not_called_step k r s a s1 I E F C N) as (C1 & N1). apply (IH s1); auto; [|exact (step_flag k true r s a s1 E F)]. apply (step_Inv k true r false s a s1 I); [discriminate|exact E].
Qed.

(** * C123: where and whether it ends *)
(** The steps that happen by themselves. *)
Definition internal (a : act) : Prop := match a with Decide _ | IDecide _ | Discard | Token | Cancel | Expire => False | _ => True end.
Definition quiet (k : kind) (tok r : bool) (s : st) : Prop := forall a, internal a -> step k tok r s a = None.
Lemma quiet_live : forall k tok r nc s, Inv k tok r nc s -> quiet k tok r s -> dec (src s) <> None -> dec (inn s) <> None -> live s = 0.
Proof.
  intros k tok r nc s I Q D1 D2. pose proof (Q Fill Logic.I) as Q1. pose proof (Q WriteHr Logic.I) as Q2. pose proof (Q Take Logic.I) as Q3.
  pose proof (Q IFill Logic.I) as Q4. pose proof (Q IWriteHr Logic.I) as Q5. pose proof (Q ITake Logic.I) as Q6. pose proof (Q Begin Logic.I) as Q7. cbn in *.
  destruct (dec (src s)) as [d1|] eqn:E1; [|congruence]. destruct (dec (inn s)) as [d2|] eqn:E2; [|congruence].
  destruct (fill (src s)); [|discriminate Q1]. destruct (hrw (src s)) eqn:H1; [|discriminate Q2]. destruct (reg (src s)) eqn:R1; [discriminate Q3|].
  destruct (fill (inn s)); [|discriminate Q4]. destruct (hrw (inn s)) eqn:H2; [|discriminate Q5]. destruct (reg (inn s)) eqn:R2; [discriminate Q6|].
  assert (S0 : suml active (ths s) = 0); [|unfold live; rewrite S0, R1, R2; destruct (ent s); auto; discriminate Q7].
  destruct (suml active (ths s)) as [|n] eqn:SM; [reflexivity|exfalso]. destruct (suml_pos _ active (ths s) ltac:(lia)) as (i & p & N & A).
  pose proof (i_pc _ _ _ _ s I i p N) as P. pose proof (Q (Go i) Logic.I) as G. pose proof (Q (Where i CSame true) Logic.I) as G1.
  pose proof (Q (Do i (match k with KTask => Task true | _ => Returns 0 end)) Logic.I) as G2. cbn in G, G1, G2. rewrite N in G, G1, G2.
  destruct p; cbn in A, P, G, G1, G2; try lia; try discriminate G; rewrite ?E1, ?E2, ?H1, ?H2 in G.
  - discriminate G.
  - destruct d1; discriminate G.
  - destruct P as (_ & _ & v & P). rewrite P in E1. injection E1 as <-. discriminate G.
  - discriminate G.
  - destruct d1; discriminate G.
  - destruct (place_of r s x CSame true); discriminate G1.
  - destruct P as (_ & _ & (v & P) & _). rewrite P in E1. injection E1 as <-. discriminate G.
  - destruct k; discriminate G2.
  - discriminate G.
  - destruct d2; discriminate G.
  - destruct P as (_ & _ & v & P). rewrite P in E2. injection E2 as <-. discriminate G.
Qed.
(** Full statement (C123): when the source and the inner task are settled and everything has come to rest, the
    continuation is settled.  Missing: entries that the runner refused or dropped (below). *)
Theorem C123_settles_partial : forall k tok r l s, run k tok r init l = Some s -> quiet k tok r s -> dec (src s) <> None -> dec (inn s) <> None ->
  ent s <> EGone -> sts s <> Started.
Proof.
  intros k tok r l s R Q D1 D2 G. pose proof (run_Inv k tok r false l _ s (init_Inv k tok r false) ltac:(discriminate) R) as I.
  destruct (i_end _ _ _ _ s I (quiet_live k tok r false s I Q D1 D2)) as [E|E]; [contradiction|exact E].
Qed.
(** Then, if nobody cancelled anything and the runner lived, the callback was called: by Then if the source has a result, by
    ThenError if it has none. *)
Theorem C123_called_partial : forall k tok r l s d, run k tok r init l = Some s -> quiet k tok r s -> dec (src s) = Some d -> dec (inn s) <> None ->
  ent s <> EGone -> ~ In Cancel l -> tok && flag s = false -> gone s = false -> (match d with EVal _ => k = KThen | _ => k <> KThen end) -> calls s = 1.
Proof.
  intros k tok r l s d R Q D1 D2 G NC NT NG K. pose proof (C123_settles_partial k tok r l s R Q ltac:(congruence) D2 G) as NS.
  pose proof (C122_truth k tok r l s R) as T. pose proof (i_memo _ _ _ false s (run_Inv k tok r false l _ s (init_Inv k tok r false) ltac:(discriminate) R)) as M.
  destruct M as [(M1 & M2 & _)|(M & _)]; [exfalso|exact M]. rewrite M2 in T. destruct (sts s) as [|v| |[x|] c]; [congruence|..].
  - destruct T as [T|[(T & _)|(T1 & T2 & T3)]]; try discriminate T. rewrite T3 in D1. injection D1 as <-. contradiction.
  - destruct T as [T|(T1 & T2)]; [contradiction|]. rewrite T1, T2 in NT. discriminate NT.
  - destruct T as [T|[(T & _)|(T1 & T2 & T3)]]; try discriminate T. rewrite T3 in D1. injection D1 as <-. contradiction.
  - destruct T as [T|[(T & _)|(T1 & T2 & d' & T3 & [T4|(T4 & T5)])]]; try discriminate T; [|congruence]. rewrite T3 in D1. injection D1 as <-. destruct d'; contradiction.
Qed.
(** Nobody looks at the answer of PostTask (Task.h 507, 552, 597 and 674): a refused or dropped continuation stays Started for ever. *)
Definition dead (s : st) : Prop := sts s = Started /\ live s = 0 /\ length (ths s) = 4 /\ dec (src s) <> None.
Lemma dead_step : forall k tok r s a s', Inv k tok r false s -> dead s -> a <> Cancel -> step k tok r s a = Some s' -> dead s'.
Proof.
  intros k tok r s a s' I (D1 & D2 & D3 & D4) NC E. unfold live in D2.
  assert (R1 : reg (src s) = false) by (destruct (reg (src s)); auto; cbn in D2; lia).
  assert (R2 : reg (inn s) = false) by (destruct (reg (inn s)); auto; cbn in D2; lia).
  assert (S0 : suml active (ths s) = 0) by lia.
  assert (TH : forall i p, nth_error (ths s) i = Some p -> p = Idle) by (intros i p N; pose proof (suml_0 _ active (ths s) S0 i p N) as A; destruct p; auto; discriminate A).
  destruct a; cbn in E; rewrite ?R1, ?R2 in E.
  - destruct (dec (src s)); [discriminate E|congruence].
  - destruct (dec (src s)) eqn:Y; [|congruence]. destruct (fill (src s)); [discriminate E|]. injection E as <-. unfold dead, live; cbn. rewrite R1 || idtac. repeat split; auto; try discriminate; cbn; lia.
  - destruct (fill (src s)); [|discriminate E]. destruct (hrw (src s)); [discriminate E|]. injection E as <-. unfold dead, live; cbn. repeat split; auto; cbn; lia.
  - rewrite andb_false_r in E. discriminate E.
  - destruct (dec (inn s)); [discriminate E|]. injection E as <-. unfold dead, live; cbn. repeat split; auto; cbn; lia.
  - destruct (dec (inn s)) eqn:Y; [|discriminate E]. destruct (fill (inn s)); [discriminate E|]. injection E as <-. unfold dead, live; cbn. repeat split; auto; cbn; lia.
  - destruct (fill (inn s)); [|discriminate E]. destruct (hrw (inn s)); [discriminate E|]. injection E as <-. unfold dead, live; cbn. repeat split; auto; cbn; lia.
  - rewrite andb_false_r in E. discriminate E.
  - destruct (nth_error (ths s) i) as [p|] eqn:N; [|discriminate]. rewrite (TH i p N) in E. discriminate E.
  - destruct (nth_error (ths s) i) as [p|] eqn:N; [|discriminate]. rewrite (TH i p N) in E. discriminate E.
  - destruct (nth_error (ths s) i) as [p|] eqn:N; [|discriminate]. rewrite (TH i p N) in E. discriminate E.
  - destruct (ent s); try discriminate E. cbn in D2. lia.
  - destruct (ent s); try discriminate E. cbn in D2. lia.
  - injection E as <-. unfold dead, live; cbn. repeat split; auto.
  - congruence.
  - injection E as <-. unfold dead, live; cbn. repeat split; auto.
Qed.
Lemma dead_stays : forall k tok r l s s', Inv k tok r false s -> dead s -> ~ In Cancel l -> run k tok r s l = Some s' -> dead s'.
Proof.
  induction l as [|a l IH]; intros s s' I D N R; cbn in R; [injection R as <-; exact D|]. destruct (step k tok r s a) as [s1|] eqn:E; [|discriminate].
  apply (IH s1); [|apply (dead_step k tok r s a s1 I D); [|exact E]|intros X; apply N; right; exact X|exact R].
  - apply (step_Inv k tok r false s a s1 I); [discriminate|exact E].
  - intros ->. apply N. left. reflexivity.
Qed.
Lemma reach : forall k tok r l (P : st -> Prop), match run k tok r init l with Some s => P s | None => False end -> exists s, run k tok r init l = Some s /\ P s.
Proof. intros k tok r l P H. destruct (run k tok r init l) as [s|]; [|contradiction]. exists s. auto. Qed.
(** How Then and ThenError come to post. *)
Definition ending_for (k : kind) : ending := match k with KThen => EVal 7 | _ => EExn (User 1 9) end.
Definition to_post (k : kind) : list act := [Go 0; Decide (ending_for k); Fill; WriteHr; Take; Go 1] ++ match k with KThen => [] | _ => [Go 1] end.
Theorem C123_settles_refuted : forall k tok, exists l1 l2 s1 s2, run k tok true init l1 = Some s1 /\ In (Where 1 CNone false) l1 /\ run k tok true init l2 = Some s2 /\ In Discard l2 /\
  forall l s', ~ In Cancel l -> (run k tok true s1 l = Some s' \/ run k tok true s2 l = Some s') -> sts s' = Started.
Proof.
  intros k tok.
  assert (A : exists s, run k tok true init (to_post k ++ [Where 1 CNone false]) = Some s /\ dead s)
    by (apply reach; unfold dead; destruct k, tok; vm_compute; repeat split; discriminate).
  assert (B : exists s, run k tok true init (to_post k ++ [Where 1 CNone true; Discard]) = Some s /\ dead s)
    by (apply reach; unfold dead; destruct k, tok; vm_compute; repeat split; discriminate).
  destruct A as (s1 & A1 & A2). destruct B as (s2 & B1 & B2). exists (to_post k ++ [Where 1 CNone false]), (to_post k ++ [Where 1 CNone true; Discard]), s1, s2.
  split; [exact A1|]. split; [apply in_or_app; right; cbn; auto|]. split; [exact B1|]. split; [apply in_or_app; right; cbn; auto|].
  intros l s' N [R|R]; [apply (dead_stays k tok true l s1 s')|apply (dead_stays k tok true l s2 s')]; auto.
  - exact (run_Inv k tok true false _ _ _ (init_Inv k tok true false) ltac:(discriminate) A1).
  - exact (run_Inv k tok true false _ _ _ (init_Inv k tok true false) ltac:(discriminate) B1).
Qed.
(** Full statement (C123): a callback made for a runner is called on that runner.  Missing: runners that have expired (below). *)
Theorem C123_place_partial : forall k tok r l s p, run k tok r init l = Some s -> where_ s = Some p ->
  (r = false -> p = Free) /\ (r = true -> gone s = false -> p = OnRunner).
Proof.
  intros k tok r l s p R W. pose proof (i_memo _ _ _ false s (run_Inv k tok r false l _ s (init_Inv k tok r false) ltac:(discriminate) R)) as [M|M].
  - destruct M as (_ & _ & _ & M). congruence.
  - destruct M as (_ & a & o & p' & _ & _ & M & _ & P). assert (p' = p) by congruence. subst p'. destruct p; cbn in P; split; intros; intuition congruence.
Qed.
(** After the runner has expired the callback of ThenError is called by whoever completes the source (Task.h 591 and 668 take a null
    pointer for "no runner"); that of Then too, if that thread has no runner (495 and 540 compare two null pointers). *)
Theorem C123_place_refuted : forall k tok, exists l s, run k tok true init l = Some s /\ where_ s = Some Elsewhere /\ calls s = 1.
Proof.
  intros k tok. exists (Expire :: to_post k ++ [Where 1 CNone true] ++ match k with KThen => [Go 1] | _ => [] end ++ [Go 1; Do 1 (match k with KTask => Task true | _ => Returns 0 end)]).
  apply (reach k tok true _ (fun s => where_ s = Some Elsewhere /\ calls s = 1)). destruct k, tok; vm_compute; auto.
Qed.
(** The code of an inner task that fails while the callback's task is attached is lost: nothing was thrown, the code is neither
    the task's nor E_FAIL. *)
Theorem C123_code_refuted : forall tok x c, norm c <> E_UNEXPECTED -> exists l s, run KTask tok false init l = Some s /\
  dec (inn s) = Some (ECode c) /\ said s = Some (Task true) /\ given s = Some (AExn x) /\ sts s = Failed None E_UNEXPECTED.
Proof.
  intros tok x c _. exists [Go 0; Decide (EExn x); Fill; WriteHr; Take; Go 1; Go 1; Where 1 CNone true; Go 1; Do 1 (Task true); IDecide (ECode c); Go 1; Go 1; Go 1; Go 1; Go 1; Go 1].
  apply (reach KTask tok false _ (fun s => dec (inn s) = Some (ECode c) /\ said s = Some (Task true) /\ given s = Some (AExn x) /\ sts s = Failed None E_UNEXPECTED)).
  destruct tok; vm_compute; auto.
Qed.

(** A continuation on a runner; a recovery; a recovery with a task; an exception seen although its writer is not done; a failure after
    the runner has gone. *)
Example C122_then : option_map (fun s => (sts s, where_ s)) (run KThen true true init (to_post KThen ++ [Where 1 COther true; Begin; Go 2; Go 2; Do 2 (Returns 8); Go 2; Go 2])) = Some (Completed 8, Some OnRunner).
Proof. reflexivity. Qed.
Example C122_recovers : option_map (fun s => (sts s, given s)) (run KVal false false init (to_post KVal ++ [Where 1 CNone true; Go 1; Do 1 (Returns 8); Go 1; Go 1])) = Some (Completed 8, Some (AExn (User 1 9))).
Proof. reflexivity. Qed.
Example C122_inner : option_map sts (run KTask false false init (to_post KTask ++ [Where 1 CNone true; Go 1; Do 1 (Task true); Go 1; Go 1; IDecide (EVal 5); IFill; IWriteHr; ITake; Go 3; Go 3; Go 3; Go 3])) = Some (Completed 5).
Proof. reflexivity. Qed.
Example C122_race : option_map given (run KVal true false init [Decide (EExn (User 1 9)); Go 0; Go 0; Go 0; Go 0; Go 0; Fill; WriteHr; Go 0; Go 0; Where 0 CNone true; Go 0; Do 0 (Throws (User 2 3))]) = Some (Some (AExn (User 1 9))).
Proof. reflexivity. Qed.
Example C122_token : option_map (fun s => (sts s, calls s)) (run KVal true false init [Go 0; Token; Decide ECan; Fill; WriteHr; Take; Go 1; Go 1; Go 1; Where 1 CNone true; Go 1; Go 1]) = Some (Canceled, 0).
Proof. reflexivity. Qed.
Example C123_gone : option_map sts (run KThen false true init (Expire :: to_post KThen ++ [Where 1 COther true; Go 1])) = Some (Failed None CANCELLED).
Proof. reflexivity. Qed.

Print Assumptions C122_once.
Print Assumptions C122_argument.
Print Assumptions C122_truth.
Print Assumptions C122_not_called.
Print Assumptions C123_settles_partial.
Print Assumptions C123_called_partial.
Print Assumptions C123_settles_refuted.
Print Assumptions C123_place_partial.
Print Assumptions C123_place_refuted.
Print Assumptions C123_code_refuted.

(** * C122: the exception itself is passed on *)
(** An operation that ended with an exception and is settled completely. *)
Definition threw (o : op) (x : exn) : Prop := dec o = Some (EExn x) /\ fill o = true /\ hrw o = true.
Definition passed (s : st) (x : exn) : Prop := match sts s with Started | Canceled => True | Failed p c => p = Some x /\ c = norm (code_of x) | Completed _ => False end.
Lemma norm_norm : forall c, norm (norm c) = norm c.
Proof. intros c. unfold norm, E_PENDING, S_OK, E_UNEXPECTED. destruct (Nat.eqb_spec c 2); [reflexivity|]. destruct (Nat.eqb_spec c 0); [reflexivity|]. cbn. apply Nat.eqb_neq in n, n0. rewrite n, n0. reflexivity. Qed.
Definition way (b : bool) (x : exn) (p : pc) : Prop :=
  match p with
  | Idle => True
  | Att | O0 | XP => b = true
  | XC q => b = true /\ q = Some x
  | T1 | B0 | BP => b = false
  | BC q => b = false /\ q = Some x
  | XS q c => q = Some x /\ c = norm (code_of x)
  | _ => False
  end.
(** [b]: the exception is that of the source of a Then; otherwise of the inner operation, while nothing else is under way. *)
Record Pass (b : bool) (x : exn) (s : st) : Prop := {
  p_op : threw (if b then src s else inn s) x;
  p_src : b = false -> reg (src s) = false;
  p_inn : b = true -> reg (inn s) = false;
  p_ent : forall y, ent s <> EQueued y;
  p_pc : forall i p, nth_error (ths s) i = Some p -> way b x p;
  p_sts : passed s x }.
Lemma put_Pass : forall b x s i q, Pass b x s -> way b x q -> Pass b x (put s i q).
Proof.
  intros b x s i q [A B C D P S] W. constructor; auto. cbn. intros j p H. apply nth_set in H. destruct H as [(_ & ->)|(_ & H)]; [exact W|exact (P j p H)].
Qed.
Lemma settle_Pass : forall b x s z, Pass b x s -> (z = Canceled \/ z = Failed (Some x) (norm (code_of x))) -> Pass b x (settle z s).
Proof.
  intros b x s z [A B C D P S] Z. unfold settle. destruct (sts s) eqn:E; [|constructor; auto..]. constructor; cbn; auto. unfold passed. cbn. destruct Z; subst z; auto.
Qed.
Lemma Pass_step : forall b x tok r s a s', Pass b x s -> step (if b then KThen else KTask) tok r s a = Some s' -> Pass b x s'.
Proof.
  intros b x tok r s a s' I E. pose proof I as [A B C D P S]. unfold threw in A. destruct a; cbn in E.
  - destruct (dec (src s)) eqn:DS; [discriminate|]. injection E as <-. destruct b; [destruct A as (A & _); congruence|]. constructor; cbn; auto.
  - destruct (dec (src s)) eqn:DS; [|discriminate]; destruct (fill (src s)) eqn:FS; [discriminate|]; injection E as <-. destruct b; [destruct A as (_ & A & _); congruence|]. constructor; cbn; auto.
  - destruct (fill (src s)); [|discriminate]; destruct (hrw (src s)) eqn:HS; [discriminate|]; injection E as <-. destruct b; [destruct A as (_ & _ & A); congruence|]. constructor; cbn; auto.
  - destruct (hrw (src s)) eqn:HS; [|discriminate]; destruct (reg (src s)) eqn:RS; [|discriminate]; injection E as <-.
    destruct b; [|discriminate (B eq_refl)]. apply put_Pass; [|reflexivity]. constructor; cbn; auto. unfold threw; cbn. tauto.
  - destruct (dec (inn s)) eqn:DS; [discriminate|]. injection E as <-. destruct b; [|destruct A as (A & _); congruence]. constructor; cbn; auto.
  - destruct (dec (inn s)) eqn:DS; [|discriminate]; destruct (fill (inn s)) eqn:FS; [discriminate|]; injection E as <-. destruct b; [|destruct A as (_ & A & _); congruence]. constructor; cbn; auto.
  - destruct (fill (inn s)); [|discriminate]; destruct (hrw (inn s)) eqn:HS; [discriminate|]; injection E as <-. destruct b; [|destruct A as (_ & _ & A); congruence]. constructor; cbn; auto.
  - destruct (hrw (inn s)) eqn:HS; [|discriminate]; destruct (reg (inn s)) eqn:RS; [|discriminate]; injection E as <-.
    destruct b; [discriminate (C eq_refl)|]. apply put_Pass; [|reflexivity]. constructor; cbn; auto. unfold threw; cbn. tauto.
  - destruct (nth_error (ths s) i) as [p|] eqn:NP; [|discriminate]. destruct (inside _ tok s p) as [[s1 q]|] eqn:Q; [|discriminate]. injection E as <-.
    pose proof (P i p NP) as W. destruct A as (A1 & A2 & A3).
    destruct p; cbn in Q, W; try contradiction; try discriminate Q.
    + subst b. rewrite A1 in Q. injection Q as <- <-. apply put_Pass; [exact I|reflexivity].
    + subst b. rewrite A1 in Q. injection Q as <- <-. apply put_Pass; [exact I|reflexivity].
    + subst b. injection Q as <- <-. apply put_Pass; [exact I|]. split; [reflexivity|]. unfold eptr. rewrite A1, A2. reflexivity.
    + destruct W as (-> & ->). injection Q as <- <-. apply put_Pass; [exact I|]. split; [reflexivity|]. unfold hr. rewrite A1, A3. reflexivity.
    + destruct W as (-> & ->). injection Q as <- <-. rewrite norm_norm. apply put_Pass; [|exact Logic.I]. apply settle_Pass; auto.
    + subst b. rewrite A1 in Q. injection Q as <- <-. apply put_Pass; [exact I|reflexivity].
    + subst b. rewrite A1 in Q. injection Q as <- <-. apply put_Pass; [exact I|reflexivity].
    + subst b. injection Q as <- <-. apply put_Pass; [exact I|]. split; [reflexivity|]. unfold eptr. rewrite A1, A2. reflexivity.
    + destruct W as (-> & ->). injection Q as <- <-. apply put_Pass; [exact I|]. split; [reflexivity|]. unfold hr. rewrite A1, A3. reflexivity.
  - destruct (nth_error (ths s) i) as [p|] eqn:NP; [|discriminate]. pose proof (P i p NP) as W. destruct p; try discriminate E. contradiction.
  - destruct (nth_error (ths s) i) as [p|] eqn:NP; [|discriminate]. pose proof (P i p NP) as W. destruct p; try discriminate E. contradiction.
  - destruct (ent s) eqn:EE; try discriminate E. exfalso. exact (D _ eq_refl).
  - destruct (ent s) eqn:EE; try discriminate E. exfalso. exact (D _ eq_refl).
  - injection E as <-. constructor; auto.
  - injection E as <-. apply settle_Pass; auto.
  - injection E as <-. constructor; auto.
Qed.
Lemma Pass_run : forall b x tok r l s s', Pass b x s -> run (if b then KThen else KTask) tok r s l = Some s' -> passed s' x.
Proof.
  intros b x tok r l. induction l as [|a l IH]; intros s s' I R; cbn [run] in R; [injection R as <-; exact (p_sts _ _ _ I)|].
  destruct (step _ tok r s a) as [s1|] eqn:E; [|discriminate]. exact (IH s1 s' (Pass_step b x tok r s a s1 I E) R).
Qed.
(** Then: if the source ended with an exception and was settled completely before the continuation looked at it (it was
    already attached, or is about to be), the continuation ends with that exception and its code, unless it is cancelled. *)
Theorem C122_exception : forall tok r l s l' s' x, run KThen tok r init l = Some s -> threw (src s) x ->
  (forall i p, nth_error (ths s) i = Some p -> p = Idle \/ p = Att) -> sts s = Started -> (forall y, ent s <> EQueued y) ->
  run KThen tok r s l' = Some s' -> match sts s' with Started | Canceled => True | Failed p c => p = Some x /\ c = norm (code_of x) | Completed _ => False end.
Proof.
  intros tok r l s l' s' x R T PC ST EN R'. pose proof (run_Inv KThen tok r false l _ s (init_Inv KThen tok r false) ltac:(discriminate) R) as I.
  refine (Pass_run true x tok r l' s s' _ R'). constructor; auto; try discriminate.
  - intros _. destruct (reg (inn s)) eqn:RI; [|reflexivity]. destruct (i_rin _ _ _ _ s I RI) as (K & _). discriminate K.
  - intros i p N. destruct (PC i p N) as [->| ->]; reflexivity.
  - unfold passed. rewrite ST. exact Logic.I.
Qed.
(** ThenError with a callback that returned a task: likewise for the exception of that task's operation. *)
Theorem C122_inner_exception : forall tok r l s l' s' x, run KTask tok r init l = Some s -> threw (inn s) x ->
  (forall i p, nth_error (ths s) i = Some p -> p = Idle \/ p = T1) -> reg (src s) = false -> sts s = Started -> (forall y, ent s <> EQueued y) ->
  run KTask tok r s l' = Some s' -> match sts s' with Started | Canceled => True | Failed p c => p = Some x /\ c = norm (code_of x) | Completed _ => False end.
Proof.
  intros tok r l s l' s' x R T PC RS ST EN R'.
  refine (Pass_run false x tok r l' s s' _ R'). constructor; auto; try discriminate.
  - intros i p N. destruct (PC i p N) as [->| ->]; reflexivity.
  - unfold passed. rewrite ST. exact Logic.I.
Qed.
Example C122_exception_case : option_map sts (run KThen false false init [Go 0; Decide (EExn (User 1 9)); Fill; WriteHr; Take; Go 1; Go 1; Go 1; Go 1]) = Some (Failed (Some (User 1 9)) 9).
Proof. reflexivity. Qed.
Example C122_inner_exception_case : option_map sts (run KTask false false init (to_post KTask ++ [Where 1 CNone true; Go 1; Do 1 (Task true); Go 1; Go 1; IDecide (EExn (User 2 8)); IFill; IWriteHr; ITake; Go 3; Go 3; Go 3; Go 3])) = Some (Failed (Some (User 2 8)) 8).
Proof. reflexivity. Qed.
Print Assumptions C122_exception.
Print Assumptions C122_inner_exception.
