(** Property C46: the lock-free single linked list. *)
From Coq Require Import List Arith Bool Lia.
From Verif Require Import Slots SlotsProofs Threads LinkModel.
Import ListNotations.

(** * Specification: a stack, and the entries of the last flush that were not yet taken. *)
Definition astep (p : list nat * list nat) (e : event) : option (list nat * list nat) :=
  let '(L, W) := p in
  match e with
  | EPush seg => Some (seg ++ L, W)
  | EPop x => match L with y :: L' => if x =? y then Some (L', W) else None | [] => None end
  | EEmpty => match L with [] => Some (L, W) | _ => None end
  | EFlush => match W with [] => Some ([], L) | _ => None end
  | ETake x => match W with y :: W' => if x =? y then Some (L, W') else None | [] => None end
  | EEnd => match W with [] => Some (L, W) | _ => None end
  end.
Fixpoint replay (p : list nat * list nat) (l : list event) : option (list nat * list nat) :=
  match l with [] => Some p | e :: r => match astep p e with Some q => replay q r | None => None end end.
(** Following pNext from [h] visits exactly the entries [L]. *)
Fixpoint chain (f : nat -> option nat) (h : option nat) (L : list nat) : Prop :=
  match L with [] => h = None | x :: r => h = Some x /\ chain f (f x) r end.
(** Only thread [c] pops and flushes. *)
Definition consumer (c : nat) (a : act) : Prop :=
  match a with Start i OPop | Start i OFlush => i = c | _ => True end.

(** * Proofs *)
Fixpoint path (f : nat -> option nat) (seg : list nat) (x : option nat) : Prop :=
  match seg with [] => False | a :: r => match r with [] => f a = x | b :: _ => f a = Some b /\ path f r x end end.
Lemma replay_snoc : forall l p e, replay p (l ++ [e]) = match replay p l with Some q => astep q e | None => None end.
Proof.
  induction l as [|a l IH]; intros p e; cbn; [destruct (astep p e); reflexivity|]. destruct (astep p a); [apply IH|reflexivity].
Qed.
Lemma chain_ext : forall f g L h, (forall x, In x L -> f x = g x) -> chain f h L -> chain g h L.
Proof.
  intros f g L. induction L as [|x L IH]; intros h E C; cbn in *; [assumption|]. destruct C as [-> C]. split; [reflexivity|].
  rewrite <- E by auto. apply IH; auto.
Qed.
Lemma path_ext : forall f g seg x, (forall y, In y seg -> f y = g y) -> path f seg x -> path g seg x.
Proof.
  intros f g seg x. induction seg as [|a seg IH]; intros E P; [contradiction|]. cbn [path] in *. destruct seg as [|b seg].
  - rewrite <- E by (left; reflexivity). assumption.
  - destruct P as [P Q]. split; [rewrite <- E by (left; reflexivity); assumption|]. apply IH; [|assumption]. intros y I. apply E. right. assumption.
Qed.
Lemma path_chain : forall f seg x L, path f seg x -> chain f x L -> chain f (hd_error seg) (seg ++ L).
Proof.
  intros f seg x L. induction seg as [|a seg IH]; intros P C; [contradiction|]. cbn [path] in P. destruct seg as [|b seg].
  - cbn. subst x. auto.
  - destruct P as [P Q]. specialize (IH Q C). cbn [hd_error app chain] in *. split; [reflexivity|]. rewrite P. exact IH.
Qed.
Lemma path_last : forall f seg x y, NoDup seg -> path f seg x -> path (upd f (last seg 0) y) seg y.
Proof.
  intros f seg x y. induction seg as [|a seg IH]; intros N P; [contradiction|]. inversion N as [|? ? N1 N2]; subst. cbn [path] in *. destruct seg as [|b seg].
  - cbn. unfold upd. rewrite Nat.eqb_refl. reflexivity.
  - destruct P as [P Q]. change (last (a :: b :: seg) 0) with (last (b :: seg) 0). split; [|apply IH; assumption].
    unfold upd. destruct (Nat.eqb_spec a (last (b :: seg) 0)) as [E|]; [|assumption]. exfalso. apply N1. rewrite E.
    rewrite (app_removelast_last 0 (l := b :: seg)) at 2 by discriminate. apply in_or_app. right. left. reflexivity.
Qed.
Lemma link_path : forall f seg, NoDup seg -> seg <> [] -> path (link f seg) seg (f (last seg 0)).
Proof.
  intros f seg. induction seg as [|a seg IH]; intros N NE; [contradiction|]. inversion N as [|? ? N1 N2]; subst. destruct seg as [|b seg]; [reflexivity|].
  cbn [path]. change (last (a :: b :: seg) 0) with (last (b :: seg) 0). split.
  - cbn [link]. unfold upd. rewrite Nat.eqb_refl. reflexivity.
  - apply (path_ext (link f (b :: seg)) _ (b :: seg)); [|apply IH; [assumption|discriminate]]. intros y I. change (link f (a :: b :: seg)) with (upd (link f (b :: seg)) a (Some b)).
    unfold upd. destruct (Nat.eqb_spec y a); [congruence|reflexivity].
Qed.
Lemma link_other : forall f seg x, ~ In x seg -> link f seg x = f x.
Proof.
  intros f seg x. induction seg as [|a seg IH]; intros N; [reflexivity|]. destruct seg as [|b seg]; [reflexivity|].
  change (link f (a :: b :: seg)) with (upd (link f (b :: seg)) a (Some b)). unfold upd. destruct (Nat.eqb_spec x a) as [->|].
  - exfalso. apply N. left. reflexivity.
  - apply IH. intros I. apply N. right. assumption.
Qed.
Lemma nodup_ok : forall l, nodup l = true -> NoDup l.
Proof.
  induction l as [|x l IH]; intros H; [constructor|]. cbn in H. apply andb_true_iff in H. destruct H as [H1 H2]. constructor; [|auto].
  intros I. apply negb_true_iff in H1. assert (existsb (Nat.eqb x) l = true) by (apply existsb_exists; exists x; split; [assumption|apply Nat.eqb_refl]). congruence.
Qed.
Lemma fills_in : forall A (f : nat -> A) l v x, In x l -> fills f l v x = v.
Proof.
  intros. unfold fills. assert (existsb (Nat.eqb x) l = true) as ->; [|reflexivity]. apply existsb_exists. exists x. split; [assumption|apply Nat.eqb_refl].
Qed.
Lemma fills_out : forall A (f : nat -> A) l v x, ~ In x l -> fills f l v x = f x.
Proof.
  intros A f l v x N. unfold fills. destruct (existsb (Nat.eqb x) l) eqn:E; [|reflexivity]. apply existsb_exists in E. destruct E as (y & I & E).
  apply Nat.eqb_eq in E. subst. contradiction.
Qed.

Definition held (x : nat) (a : agent) : nat :=
  match a with PRead seg | PLink seg _ | PCas seg _ => occ seg x | QClear e => occ [e] x | _ => 0 end.
Definition aok (c : nat) (f : nat -> option nat) (L W : list nat) (i : nat) (a : agent) : Prop :=
  match a with
  | Idle => i = c -> W = []
  | PRead seg | PLink seg _ => (exists y, path f seg y) /\ (i = c -> W = [])
  | PCas seg x => path f seg x /\ (i = c -> W = [])
  | QRead | FXchg => i = c /\ W = []
  | QNext e => i = c /\ W = [] /\ In e L
  | QCas e n => i = c /\ W = [] /\ In e L /\ f e = n
  | QClear e => i = c /\ W = []
  | Walk p => i = c /\ chain f p W
  end.
Record Inv (c : nat) (s : st) (L W : list nat) : Prop := {
  i_log : replay ([], []) (log s) = Some (L, W);
  i_hd : chain (nxt s) (hd s) L;
  i_cnt : forall x, occ L x + occ W x + suml (held x) (ag s) <= (if av s x then 0 else 1);
  i_ag : forall i a, nth_error (ag s) i = Some a -> aok c (nxt s) L W i a }.

Lemma occ_le_in : forall l x, occ l x = 0 -> ~ In x l.
Proof. intros l x H I. apply occ_In in I. lia. Qed.
Lemma cnt1 : forall c s L W, Inv c s L W -> forall x, occ L x + occ W x + suml (held x) (ag s) <= 1.
Proof. intros c s L W I x. pose proof (i_cnt _ _ _ _ I x). destruct (av s x); lia. Qed.
Lemma seg_nodup : forall c s L W i a seg, Inv c s L W -> nth_error (ag s) i = Some a -> (forall x, held x a = occ seg x) -> NoDup seg.
Proof.
  intros c s L W i a seg I N H. apply occ_NoDup. intros x. rewrite <- H. pose proof (cnt1 _ _ _ _ I x). pose proof (suml_ge _ (held x) _ _ _ N). lia.
Qed.
(** An entry that a thread holds is in no other place. *)
Lemma held_alone : forall c s L W i a x, Inv c s L W -> nth_error (ag s) i = Some a -> 0 < held x a ->
  ~ In x L /\ ~ In x W /\ (forall j b, i <> j -> nth_error (ag s) j = Some b -> held x b = 0) /\ av s x = false.
Proof.
  intros c s L W i a x I N H. pose proof (i_cnt _ _ _ _ I x). pose proof (suml_ge _ (held x) _ _ _ N).
  split; [|split; [|split]].
  - apply occ_le_in. destruct (av s x); lia.
  - apply occ_le_in. destruct (av s x); lia.
  - intros j b NE M. pose proof (suml_two _ (held x) _ _ _ _ _ NE N M). destruct (av s x); lia.
  - destruct (av s x); [lia|reflexivity].
Qed.
(** Changing pNext outside the list, the flushed entries and what [a] holds. *)
Lemma aok_ext : forall c f g L W i a, (forall x, In x L \/ In x W \/ 0 < held x a -> f x = g x) -> aok c f L W i a -> aok c g L W i a.
Proof.
  intros c f g L W i a E H.
  assert (P : forall seg y, (forall x, In x seg -> f x = g x) -> path f seg y -> path g seg y) by (intros; eapply path_ext; eassumption).
  assert (IS : forall seg x, In x seg -> 0 < occ seg x) by (intros; apply occ_In; assumption).
  destruct a; cbn [aok] in *; auto.
  - destruct H as [[y H] H0]. split; [exists y|assumption]. apply P; [intros x0 J; apply E; right; right; cbn [held]; auto|assumption].
  - destruct H as [[y H] H0]. split; [exists y|assumption]. apply P; [intros x0 J; apply E; right; right; cbn [held]; auto|assumption].
  - destruct H as [H H0]. split; [|assumption]. apply P; [intros x0 J; apply E; right; right; cbn [held]; auto|assumption].
  - destruct H as (-> & -> & I & <-). repeat split; auto. symmetry. apply E. auto.
  - destruct H as [-> H]. split; [reflexivity|]. apply (chain_ext f); auto.
Qed.
(** Changing the list: what other threads rely on. *)
Lemma aok_list : forall c f L L' W i a, (forall x, In x L -> In x L') -> aok c f L W i a -> aok c f L' W i a.
Proof. intros c f L L' W i a E H. destruct a; cbn [aok] in *; intuition. Qed.
Lemma aok_other : forall c f L W L' W' i a, i <> c -> aok c f L W i a -> aok c f L' W' i a.
Proof. intros c f L W L' W' i a NE H. destruct a; cbn [aok] in *; intuition. Qed.

(** Putting thread [i] somewhere else, with the memory and the list changed. *)
Lemma Inv_put : forall c s L W i a b s' L' W',
  Inv c s L W -> nth_error (ag s) i = Some a -> ag s' = set (ag s) i b ->
  replay ([], []) (log s') = Some (L', W') -> chain (nxt s') (hd s') L' ->
  (forall x, occ L' x + occ W' x + held x b + (if av s x then 0 else 1) <= occ L x + occ W x + held x a + (if av s' x then 0 else 1)) ->
  aok c (nxt s') L' W' i b ->
  (forall j d, i <> j -> nth_error (ag s) j = Some d -> aok c (nxt s') L' W' j d) ->
  Inv c s' L' W'.
Proof.
  intros c s L W i a b s' L' W' I N EA R C K A O. split; auto.
  - intros x. rewrite EA. pose proof (suml_set _ (held x) _ _ _ b N). pose proof (i_cnt _ _ _ _ I x). specialize (K x). lia.
  - intros j d. rewrite EA. intros M. apply nth_set in M. destruct M as [[<- ->]|[NE M]]; [assumption|]. apply O; assumption.
Qed.

Lemma Inv_pc : forall c s L W i a b, Inv c s L W -> nth_error (ag s) i = Some a -> (forall x, held x b = held x a) -> aok c (nxt s) L W i b -> Inv c (put s i b) L W.
Proof.
  intros c s L W i a b I N H A. eapply Inv_put; [exact I|exact N|reflexivity|apply I|apply I| |exact A|].
  - intros x. rewrite H. cbn [put av]. lia.
  - intros j d _ M. apply (i_ag _ _ _ _ I _ _ M).
Qed.
Lemma init_inv : forall c n, Inv c (init n) [] [].
Proof.
  intros c n. split; cbn; auto.
  - intros x. rewrite suml_repeat by reflexivity. lia.
  - intros i a H. apply nth_error_In in H. apply repeat_spec in H. subst a. cbn. auto.
Qed.
Lemma start_inv : forall c s L W i o s', Inv c s L W -> consumer c (Start i o) -> start s i o = Some s' -> Inv c s' L W.
Proof.
  intros c s L W i o s' I CO E. unfold start in E. destruct (nth_error (ag s) i) as [a|] eqn:N; [|discriminate]. destruct a; try discriminate.
  pose proof (i_ag _ _ _ _ I _ _ N) as A. cbn [aok] in A. destruct o as [seg| |].
  - destruct seg as [|a0 seg0]; [discriminate|]. remember (a0 :: seg0) as seg. assert (NE : seg <> []) by (subst; discriminate). clear Heqseg a0 seg0.
    destruct (nodup seg && forallb (av s) seg) eqn:G; [|discriminate]. injection E as <-. apply andb_true_iff in G. destruct G as [G1 G2].
    pose proof (nodup_ok _ G1) as ND. rewrite forallb_forall in G2.
    assert (OUT : forall x, 0 < occ L x + occ W x + suml (held x) (ag s) -> ~ In x seg).
    { intros x P J. pose proof (i_cnt _ _ _ _ I x). rewrite (G2 _ J) in *. lia. }
    eapply Inv_put; [exact I|exact N|reflexivity| | | | |]; cbn [put set_av set_nxt hd nxt av ag log].
    + apply (i_log _ _ _ _ I).
    + apply (chain_ext (nxt s)); [|apply I]. intros x J. symmetry. apply link_other. apply OUT. apply occ_In in J. lia.
    + intros x. cbn [held]. destruct (in_dec Nat.eq_dec x seg) as [J|J].
      * rewrite fills_in by assumption. rewrite (NoDup_occ _ _ ND J). rewrite (G2 _ J). lia.
      * rewrite fills_out by assumption. rewrite (occ_notin _ _ J). lia.
    + cbn [aok]. split; [|assumption]. eexists. apply link_path; assumption.
    + intros j d NEj M. apply (aok_ext c (nxt s)); [|apply (i_ag _ _ _ _ I _ _ M)]. intros x J. symmetry. apply link_other. apply OUT.
      destruct J as [J|[J|J]]; [apply occ_In in J; lia|apply occ_In in J; lia|]. pose proof (suml_ge _ (held x) _ _ _ M). lia.
  - injection E as <-. cbn in CO. subst i. eapply Inv_pc; [exact I|exact N|reflexivity|]. cbn. auto.
  - injection E as <-. cbn in CO. subst i. eapply Inv_pc; [exact I|exact N|reflexivity|]. cbn. auto.
Qed.

Lemma chain_in_head : forall f L e, chain f (Some e) L -> exists L', L = e :: L' /\ chain f (f e) L'.
Proof. intros f [|x L] e H; cbn in H; [discriminate|]. destruct H as [E H]. injection E as <-. eauto. Qed.
Lemma step_inv : forall c s L W i s', Inv c s L W -> step s i = Some s' -> exists L' W', Inv c s' L' W'.
Proof.
  intros c s L W i s' I E. unfold step in E. destruct (nth_error (ag s) i) as [a|] eqn:N; [|discriminate].
  pose proof (i_ag _ _ _ _ I _ _ N) as A. pose proof (i_hd _ _ _ _ I) as C. pose proof (i_log _ _ _ _ I) as R.
  assert (KEEP : forall j d, i <> j -> nth_error (ag s) j = Some d -> aok c (nxt s) L W j d) by (intros; apply (i_ag _ _ _ _ I); assumption).
  destruct a as [|seg|seg x|seg x| |e|e n|e| |p]; cbn [aok] in A; try discriminate.
  - (* PRead *) injection E as <-. exists L, W. eapply Inv_pc; [exact I|exact N|reflexivity|]. exact A.
  - (* PLink *) injection E as <-. exists L, W. destruct A as [[y A] AW].
    assert (ND : NoDup seg) by (eapply seg_nodup; [exact I|exact N|reflexivity]).
    assert (LI : In (last seg 0) seg).
    { destruct seg as [|z seg]; [contradiction|]. rewrite (app_removelast_last 0 (l := z :: seg)) at 2 by discriminate. apply in_or_app. right. left. reflexivity. }
    destruct (held_alone c s L W i _ (last seg 0) I N) as (H1 & H2 & H3 & _); [cbn [held]; apply occ_In; assumption|].
    eapply Inv_put; [exact I|exact N|reflexivity| | | | |]; cbn [put say set_hd set_av set_nxt hd nxt av ag log].
    + exact R.
    + apply (chain_ext (nxt s)); [|assumption]. intros z J. unfold upd. destruct (Nat.eqb_spec z (last seg 0)) as [->|]; [contradiction|reflexivity].
    + intros z. cbn [held]. lia.
    + cbn [aok]. split; [|assumption]. eapply path_last; eassumption.
    + intros j d NE M. apply (aok_ext c (nxt s)); [|apply KEEP; assumption]. intros z J. unfold upd. destruct (Nat.eqb_spec z (last seg 0)) as [->|]; [|reflexivity].
      destruct J as [J|[J|J]]; [contradiction|contradiction|]. rewrite (H3 _ _ NE M) in J. lia.
  - (* PCas *) destruct A as [A AW]. destruct (eqp (hd s) x) eqn:Q; injection E as <-.
    + apply eqp_iff in Q. exists (seg ++ L), W. eapply Inv_put; [exact I|exact N|reflexivity| | | | |]; cbn [put say set_hd set_av set_nxt hd nxt av ag log].
      * rewrite replay_snoc, R. reflexivity.
      * apply path_chain with x; [assumption|]. rewrite <- Q. assumption.
      * intros z. cbn [held]. rewrite occ_app. lia.
      * exact AW.
      * intros j d NE M. apply (aok_list c (nxt s) L); [intros; apply in_or_app; auto|]. apply KEEP; assumption.
    + exists L, W. eapply Inv_pc; [exact I|exact N|reflexivity|]. cbn [aok]. eauto.
  - (* QRead *) destruct A as [-> AW]. destruct (hd s) as [e|] eqn:H; injection E as <-; exists L, W.
    + eapply Inv_pc; [exact I|exact N|reflexivity|]. cbn [aok]. repeat split; auto.
      destruct (chain_in_head _ _ _ C) as (L' & -> & _). left. reflexivity.
    + eapply Inv_put; [exact I|exact N|reflexivity| | | | |]; cbn [put say set_hd set_av set_nxt hd nxt av ag log]; [|rewrite H; assumption|intros; cbn [held]; lia|exact (fun _ => AW)|assumption].
      rewrite replay_snoc, R. destruct L; [reflexivity|]. cbn in C. destruct C. discriminate.
  - (* QNext *) injection E as <-. exists L, W. eapply Inv_pc; [exact I|exact N|reflexivity|]. cbn [aok]. tauto.
  - (* QCas *) destruct A as (-> & -> & J & F). destruct (eqp (hd s) (Some e)) eqn:Q; [injection E as <-|].
    + apply eqp_iff in Q. rewrite Q in C. destruct (chain_in_head _ _ _ C) as (L' & -> & C'). exists L', [].
      eapply Inv_put; [exact I|exact N|reflexivity| | | | |]; cbn [put say set_hd set_av set_nxt hd nxt av ag log].
      * rewrite replay_snoc, R. cbn. rewrite Nat.eqb_refl. reflexivity.
      * rewrite <- F. assumption.
      * intros z. cbn [held]. change (e :: L') with ([e] ++ L'). rewrite occ_app. lia.
      * cbn [aok]. auto.
      * intros j d NE M. apply (aok_other c (nxt s) (e :: L') []); auto.
    + destruct (hd s) as [e'|] eqn:H; injection E as <-; exists L, [].
      * eapply Inv_pc; [exact I|exact N|reflexivity|]. cbn [aok]. repeat split; auto.
        destruct (chain_in_head _ _ _ C) as (L' & -> & _). left. reflexivity.
      * eapply Inv_put; [exact I|exact N|reflexivity| | | | |]; cbn [put say set_hd set_av set_nxt hd nxt av ag log]; [|rewrite H; assumption|intros; cbn [held]; lia|exact (fun _ => eq_refl)|assumption].
        rewrite replay_snoc, R. destruct L; [reflexivity|]. cbn in C. destruct C. discriminate.
  - (* QClear *) destruct A as [-> ->]. injection E as <-. exists L, [].
    destruct (held_alone c s L [] c _ e I N) as (H1 & H2 & H3 & H4); [cbn [held]; apply occ_In; left; reflexivity|].
    eapply Inv_put; [exact I|exact N|reflexivity| | | | |]; cbn [put say set_hd set_av set_nxt hd nxt av ag log].
    + exact R.
    + apply (chain_ext (nxt s)); [|assumption]. intros z J. unfold upd. destruct (Nat.eqb_spec z e) as [->|]; [contradiction|reflexivity].
    + intros z. cbn [held]. unfold upd. destruct (Nat.eqb_spec z e) as [->|NE].
      * rewrite H4. rewrite (NoDup_occ [e] e); [lia| |left; reflexivity]. constructor; [easy|constructor].
      * rewrite (occ_notin [e] z); [lia|]. intros [J|[]]. congruence.
    + cbn [aok]. auto.
    + intros j d NE M. apply (aok_ext c (nxt s)); [|apply KEEP; assumption]. intros z J. unfold upd. destruct (Nat.eqb_spec z e) as [->|]; [|reflexivity].
      destruct J as [J|[J|J]]; [contradiction|contradiction|]. rewrite (H3 _ _ NE M) in J. lia.
  - (* FXchg *) destruct A as [-> ->]. injection E as <-. exists [], L. eapply Inv_put; [exact I|exact N|reflexivity| | | | |]; cbn [put say set_hd set_av set_nxt hd nxt av ag log].
    + rewrite replay_snoc, R. reflexivity.
    + reflexivity.
    + intros z. cbn [held occ]. lia.
    + cbn [aok]. auto.
    + intros j d NE M. apply (aok_other c (nxt s) L []); auto.
  - (* Walk *) destruct A as [-> A]. destruct p as [e|]; injection E as <-.
    + destruct (chain_in_head _ _ _ A) as (W' & -> & A'). exists L, W'.
      assert (FR : av s e = false) by (pose proof (i_cnt _ _ _ _ I e) as K; destruct (av s e); [|reflexivity]; change (e :: W') with ([e] ++ W') in K;
        rewrite !occ_app in K; assert (0 < occ [e] e) by (apply occ_In; left; reflexivity); lia).
      eapply Inv_put; [exact I|exact N|reflexivity| | | | |]; cbn [put say set_hd set_av set_nxt hd nxt av ag log].
      * rewrite replay_snoc, R. cbn. rewrite Nat.eqb_refl. reflexivity.
      * exact C.
      * intros z. cbn [held]. change (e :: W') with ([e] ++ W'). rewrite occ_app. unfold upd. destruct (Nat.eqb_spec z e) as [->|NE].
        -- rewrite FR. assert (0 < occ [e] e) by (apply occ_In; left; reflexivity). lia.
        -- lia.
      * cbn [aok]. auto.
      * intros j d NE M. apply (aok_other c (nxt s) L (e :: W')); auto.
    + destruct W; [|destruct A; discriminate]. exists L, []. eapply Inv_put; [exact I|exact N|reflexivity| | | | |]; cbn [put say set_hd set_av set_nxt hd nxt av ag log].
      * rewrite replay_snoc, R. reflexivity.
      * exact C.
      * intros z. cbn [held]. lia.
      * cbn [aok]. auto.
      * exact KEEP.
Qed.
Lemma run_inv : forall c l s L W s', Inv c s L W -> Forall (consumer c) l -> run s l = Some s' -> exists L' W', Inv c s' L' W'.
Proof.
  intros c l. induction l as [|a l IH]; intros s L W s' I F E; cbn in E; [injection E as <-; eauto|]. inversion F as [|? ? F1 F2]; subst.
  destruct (exec s a) as [s1|] eqn:X; [|discriminate]. destruct a as [i o|i]; cbn in X.
  - pose proof (start_inv _ _ _ _ _ _ _ I F1 X) as I1. eapply IH; eassumption.
  - destruct (step_inv _ _ _ _ _ _ I X) as (L1 & W1 & I1). eapply IH; eassumption.
Qed.

(** ** Linearizability
    However the loads, stores and compare-exchanges of any number of pushing threads and one
    popping and flushing thread interleave, the operations behave as if each happened at once, in
    the order of the log: Pop gives the newest entry (nothing only when the list is empty), Flush
    gives everything; and the memory holds exactly the resulting list. *)
Theorem C46_linearizable : forall c n l s, Forall (consumer c) l -> run (init n) l = Some s ->
  exists L W, replay ([], []) (log s) = Some (L, W) /\ chain (nxt s) (hd s) L.
Proof.
  intros c n l s F E. destruct (run_inv c l _ _ _ _ (init_inv c n) F E) as (L & W & I). exists L, W. split; apply I.
Qed.

(** ** Nothing is lost or delivered twice *)
Definition pushes (x : nat) (e : event) : nat := match e with EPush seg => occ seg x | _ => 0 end.
Definition gets (x : nat) (e : event) : nat := match e with EPop y | ETake y => if y =? x then 1 else 0 | _ => 0 end.
Lemma replay_count : forall x l L W L' W', replay (L, W) l = Some (L', W') ->
  occ L x + occ W x + suml (pushes x) l = suml (gets x) l + occ L' x + occ W' x.
Proof.
  intros x l. induction l as [|e l IH]; intros L W L' W' R; cbn [replay] in R; [injection R as -> ->; cbn; lia|].
  destruct (astep (L, W) e) as [[L1 W1]|] eqn:A; [|discriminate]. specialize (IH _ _ _ _ R). cbn [suml].
  destruct e as [seg|y| | |y| ]; cbn [astep pushes gets] in *.
  - injection A as <- <-. rewrite occ_app in IH. lia.
  - destruct L as [|z L]; [discriminate|]. destruct (Nat.eqb_spec y z) as [->|]; [|discriminate]. injection A as <- <-. cbn [occ]. lia.
  - destruct L; [|discriminate]. injection A as <- <-. lia.
  - destruct W; [|discriminate]. injection A as <- <-. cbn [occ] in *. lia.
  - destruct W as [|z W]; [discriminate|]. destruct (Nat.eqb_spec y z) as [->|]; [|discriminate]. injection A as <- <-. cbn [occ]. lia.
  - destruct W; [|discriminate]. injection A as <- <-. lia.
Qed.
Theorem C46_nothing_lost : forall c n l s, Forall (consumer c) l -> run (init n) l = Some s ->
  exists L W, chain (nxt s) (hd s) L /\ (forall p, nth_error (ag s) c = Some (Walk p) -> chain (nxt s) p W) /\
    (c < n -> (forall p, nth_error (ag s) c <> Some (Walk p)) -> W = []) /\
    NoDup (L ++ W) /\ forall x, suml (pushes x) (log s) = suml (gets x) (log s) + occ L x + occ W x.
Proof.
  intros c n l s F E. destruct (run_inv c l _ _ _ _ (init_inv c n) F E) as (L & W & I). exists L, W.
  split; [apply I|]. split; [|split; [|split]].
  - intros p N. apply (i_ag _ _ _ _ I _ _ N).
  - intros LT NW. assert (length (ag s) = n).
    { assert (G : forall l s s', run s l = Some s' -> length (ag s') = length (ag s)).
      { clear. induction l as [|a l IH]; intros s s' E; cbn in E; [congruence|]. destruct (exec s a) as [s1|] eqn:X; [|discriminate]. rewrite (IH _ _ E). clear IH E.
        destruct a as [i o|i]; cbn in X; [unfold start in X|unfold step in X]; destruct (nth_error (ag s) i) as [a|] eqn:N; try discriminate; destruct a; try discriminate.
        - destruct o as [[|]| |]; try discriminate; try destruct (_ && _); try discriminate; injection X as <-; cbn; apply set_length.
        - injection X as <-. cbn. apply set_length.
        - injection X as <-. cbn. apply set_length.
        - destruct (eqp _ _); injection X as <-; cbn; apply set_length.
        - destruct (hd s); injection X as <-; cbn; apply set_length.
        - injection X as <-. cbn. apply set_length.
        - destruct (eqp _ _); [|destruct (hd s)]; injection X as <-; cbn; apply set_length.
        - injection X as <-. cbn. apply set_length.
        - injection X as <-. cbn. apply set_length.
        - destruct p; injection X as <-; cbn; apply set_length. }
      rewrite (G _ _ _ E). cbn. apply repeat_length. }
    destruct (nth_error (ag s) c) as [a|] eqn:N; [|apply nth_error_None in N; lia]. pose proof (i_ag _ _ _ _ I _ _ N) as A.
    destruct a; cbn [aok] in A; try tauto. exfalso. eapply NW. reflexivity.
  - apply occ_NoDup. intros x. rewrite occ_app. pose proof (cnt1 _ _ _ _ I x). lia.
  - intros x. pose proof (replay_count x _ _ _ _ _ (i_log _ _ _ _ I)) as K. cbn [occ] in K. lia.
Qed.

(** ** Order: a flush gives the segments pushed since, newest first, before the older rest. *)
Lemma replay_app : forall a b p, replay p (a ++ b) = match replay p a with Some q => replay q b | None => None end.
Proof. induction a as [|e a IH]; intros b p; cbn; [reflexivity|]. destruct (astep p e); [apply IH|reflexivity]. Qed.
Lemma replay_pushes : forall segs L W, replay (L, W) (map EPush segs) = Some (concat (rev segs) ++ L, W).
Proof.
  induction segs as [|g segs IH]; intros L W; [reflexivity|]. cbn [map replay astep rev]. rewrite IH. rewrite concat_app. cbn. rewrite app_nil_r, <- app_assoc. reflexivity.
Qed.
Theorem C46_order : forall c n l s before segs takes, Forall (consumer c) l -> run (init n) l = Some s ->
  log s = before ++ map EPush segs ++ EFlush :: map ETake takes ->
  exists rest older, replay ([], []) before = Some (older, []) /\ takes ++ rest = concat (rev segs) ++ older.
Proof.
  intros c n l s before segs takes F E LG. destruct (C46_linearizable c n l s F E) as (L & W & R & _). rewrite LG in R.
  rewrite replay_app in R. destruct (replay ([], []) before) as [[L0 W0]|] eqn:B; [|discriminate]. rewrite replay_app, replay_pushes in R.
  cbn [replay astep] in R. destruct W0; [|discriminate].
  assert (G : forall t W1, replay ([], W1) (map ETake t) = Some (L, W) -> W1 = t ++ W).
  { induction t as [|x t IH]; intros W1 H; cbn in H; [injection H as _ ->; reflexivity|]. destruct W1 as [|y W1]; [discriminate|]. destruct (Nat.eqb_spec x y) as [->|]; [|discriminate].
    cbn. f_equal. apply IH. assumption. }
  exists W, L0. split; [reflexivity|]. symmetry. apply G. assumption.
Qed.

(** ** The consumer never reads an entry that is nobody's any more (it may be deleted then). *)
Theorem C46_reads_alive : forall c n l s i e, Forall (consumer c) l -> run (init n) l = Some s ->
  nth_error (ag s) i = Some (QNext e) \/ nth_error (ag s) i = Some (Walk (Some e)) \/ nth_error (ag s) i = Some (QClear e) -> av s e = false.
Proof.
  intros c n l s i e F E N. destruct (run_inv c l _ _ _ _ (init_inv c n) F E) as (L & W & I). pose proof (i_cnt _ _ _ _ I e) as K.
  destruct (av s e); [|reflexivity]. exfalso. destruct N as [N|[N|N]]; pose proof (i_ag _ _ _ _ I _ _ N) as A; cbn [aok] in A.
  - destruct A as (_ & _ & J). apply occ_In in J. lia.
  - destruct A as [_ A]. destruct (chain_in_head _ _ _ A) as (W' & -> & _). cbn [occ] in K. rewrite Nat.eqb_refl in K. lia.
  - pose proof (suml_ge _ (held e) _ _ _ N) as G. cbn [held occ] in G. rewrite Nat.eqb_refl in G. lia.
Qed.

(** ** A pushing thread that is not interrupted is done after three steps. *)
Theorem C46_push_alone : forall s i seg, nth_error (ag s) i = Some (PRead seg) -> seg <> [] ->
  exists s', run s [Step i; Step i; Step i] = Some s' /\ nth_error (ag s') i = Some Idle /\ log s' = log s ++ [EPush seg] /\ hd s' = hd_error seg.
Proof.
  intros s i seg N NE. assert (LT : i < length (ag s)) by (apply nth_error_Some; congruence).
  assert (Q : eqp (hd s) (hd s) = true) by (apply eqp_iff; reflexivity).
  set (s1 := put s i (PLink seg (hd s))).
  set (s2 := put (set_nxt s1 (upd (nxt s1) (last seg 0) (hd s))) i (PCas seg (hd s))).
  set (s3 := say (put (set_hd s2 (hd_error seg)) i Idle) (EPush seg)).
  assert (E1 : step s i = Some s1) by (unfold step; rewrite N; reflexivity).
  assert (E2 : step s1 i = Some s2).
  { unfold step. assert (nth_error (ag s1) i = Some (PLink seg (hd s))) as -> by (cbn; apply nth_set_eq; assumption). reflexivity. }
  assert (E3 : step s2 i = Some s3).
  { unfold step. assert (nth_error (ag s2) i = Some (PCas seg (hd s))) as -> by (cbn; apply nth_set_eq; rewrite set_length; assumption).
    change (hd s2) with (hd s). rewrite Q. reflexivity. }
  exists s3. cbn [run exec]. rewrite E1, E2, E3. split; [reflexivity|]. cbn. rewrite nth_set_eq by (rewrite !set_length; assumption). auto.
Qed.

(** ** Two popping threads
    The warning at line 88 is necessary: thread 1 reads entry 1 and its pNext 2, thread 2 takes 1
    and 2 and pushes 1 again, and thread 1 then installs 2 as the head: it is delivered again. *)
Definition two : list act :=
  [Start 0 (OPush [2]); Step 0; Step 0; Step 0; Start 0 (OPush [1]); Step 0; Step 0; Step 0;
   Start 1 OPop; Step 1; Step 1;
   Start 2 OPop; Step 2; Step 2; Step 2; Step 2; Start 2 OPop; Step 2; Step 2; Step 2; Step 2;
   Start 0 (OPush [1]); Step 0; Step 0; Step 0;
   Step 1; Step 1; Start 2 OPop; Step 2; Step 2; Step 2].
Theorem C46_two_consumers_fail :
  match run (init 3) two with
  | Some s => replay ([], []) (log s) = None /\ suml (pushes 2) (log s) = 1 /\ suml (gets 2) (log s) = 2
  | None => False
  end.
Proof. vm_compute. auto. Qed.

(** * Examples *)
Definition exl : list act :=
  [Start 0 (OPush [1; 2]); Start 1 (OPush [3]); Step 0; Step 1; Step 0; Step 1; Step 0; Step 1; Step 1; Step 1;
   Start 2 OPop; Step 2; Start 0 (OPush [4]); Step 0; Step 0; Step 0; Step 2; Step 2; Step 2; Step 2; Step 2;
   Start 2 OFlush; Step 2; Step 2; Step 2].
Example ex_run : match run (init 3) exl with
  | Some s => log s = [EPush [1; 2]; EPush [3]; EPush [4]; EPop 4; EFlush; ETake 3; ETake 1] /\ hd s = None /\ nth_error (ag s) 2 = Some (Walk (Some 2))
  | None => False end.
Proof. vm_compute. auto. Qed.
Example ex_consumer : Forall (consumer 2) exl.
Proof. repeat constructor. Qed.

Print Assumptions C46_linearizable.
Print Assumptions C46_nothing_lost.
Print Assumptions C46_order.
Print Assumptions C46_reads_alive.
Print Assumptions C46_push_alone.
Print Assumptions C46_two_consumers_fail.
