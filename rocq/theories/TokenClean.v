(** When the process that is created is a limited one. *)
From Coq Require Import List Bool Arith Lia.
From Verif Require Import Slots SlotsProofs Threads TokenModel TokenProofs TokenScope.
Import ListNotations.

Ltac opn E := repeat match type of E with
      | context [match ?x with _ => _ end] => (match x with close' _ _ ?p => fail 1 | _ => idtac end); destruct x eqn:?; try discriminate
      end; injection E as <- <- <-.
(** A call that has got as far as making a primary token has seen a limited token it could be made of. *)
Definition fq (s : st) (f : frame) : Prop :=
  match f with
  | Q2 | Q3 _ | Q4 _ _ | Q5 _ _ | Q6 _ _ | Q8 _ _ _ => se s = Some Full
  | Q7 _ _ _ => se s = Some Full /\ exists h, cl s = Some h /\ kd (opn s) h <> Some (KLnk false)
  | _ => True
  end.
Definition SQ (s : st) : Prop := (el s <> Full -> se s <> Some Full) /\ forall i a f, nth_error (ag s) i = Some a -> In f (stk a) -> fq s f.
Lemma fq_stable : forall s s' f, INV s -> INV s' -> Mono s s' -> fq s f -> fq s' f.
Proof.
  intros s s' f I I' (_ & _ & CL & _ & SE & _ & _ & K) F. destruct f; cbn in *; auto. destruct F as (F1 & h & F2 & F3). split; [auto|]. exists h. split; [auto|].
  rewrite K; [exact F3|eapply cached_open; eauto|eapply cached_open; eauto].
Qed.
Lemma exec_SQ : forall s a s', INV s -> SQ s -> exec s a = Some s' -> SQ s'.
Proof.
  intros s a s' I (SE & F) E. pose proof (exec_INV _ _ _ I E) as I'. pose proof (exec_Mono _ _ _ I E) as M. destruct a as [c u|i a].
  - injection E as <-. split; [exact SE|]. intros j b f G X. cbn in G.
    destruct (Nat.lt_ge_cases j (length (ag s))) as [Lt|Ge].
    + rewrite nth_error_app1 in G by exact Lt. exact (F j b f G X).
    + rewrite nth_error_app2 in G by exact Ge. destruct (j - length (ag s)) as [|[|?]]; cbn in G; try discriminate. injection G as <-. cbn in X. destruct X as [<-|[]]. destruct c; exact Logic.I.
  - destruct (step_inv _ _ _ _ E) as (o & c & f & k & s1 & c' & l & G & Bd & ->). pose proof (inv_pre _ _ _ _ _ _ I G) as P.
    assert (NG : nth_error (ag s) i <> None) by (rewrite G; discriminate). pose proof (F i _ f G (or_introl eq_refl)) as FF.
    assert (L : (el s1 <> Full -> se s1 <> Some Full) /\ forall x, In x l -> fq s1 x).
    { pose proof (body_post _ _ _ _ _ _ _ _ P Bd) as PO. split.
      - rewrite (p_el _ _ _ _ _ PO). intros NF. specialize (SE NF). clear -SE Bd NF. destruct f, a; cbn in Bd; try discriminate; opn Bd; cbn; fld; cbn; fld; cbn; try exact SE; try congruence; discriminate.
      - clear SE M I I' E G F NG PO. destruct P as (U & C & N). destruct f, a; cbn in Bd; try discriminate; opn Bd; intros y Y; cbn in Y; repeat (destruct Y as [<-|Y]; [|]); try destruct Y; cbn in *; fld; cbn in *; try exact Logic.I; try tauto; try congruence.
        all: try (split; [assumption|]; eexists; split; [eassumption|]; cbn;
          match goal with H : cl ?z = Some ?h |- _ => destruct (Nat.eqb_spec (nx z) h); [exfalso; subst h; specialize (C (nx s)); rewrite (N (nx s)) in C by lia; pose proof (ca_cl _ _ H); lia|] end; congruence). }
    destruct L as (L1 & L2). split; [exact L1|]. intros j b x X Y. destruct (nth_set _ _ _ _ _ _ NG X) as [(-> & ->)|(D & Z)].
    + cbn in Y. apply in_app_or in Y. destruct Y as [Y|Y]; [exact (L2 x Y)|]. apply (fq_stable s); auto. exact (F j _ x G (or_intror Y)).
    + apply (fq_stable s); auto. exact (F j b x Z Y).
Qed.
Lemma init_SQ : forall e, SQ (init e).
Proof. intros e. split; [cbn; discriminate|]. intros i a f G. destruct i; discriminate. Qed.
(** Once the wrong value is cached, every process is created as if nothing had been asked for. *)
Definition spoilt (s : st) : Prop := el s = Full /\ ((exists h, cl s = Some h /\ kd (opn s) h = Some (KLnk false)) \/ (exists e, se s = Some e /\ e <> Full)).
Lemma spoilt_stable : forall s s', INV s -> INV s' -> Mono s s' -> spoilt s -> spoilt s'.
Proof.
  intros s s' I I' (EL & _ & CL & _ & SE & _ & _ & K) (S1 & S2). split; [congruence|]. destruct S2 as [(h & X & Y)|(e & X & Y)].
  - left. exists h. split; [auto|]. rewrite K; [exact Y|eapply cached_open; eauto|eapply cached_open; eauto].
  - right. exists e. auto.
Qed.
Lemma exec_spoilt : forall s a s', INV s -> SQ s -> spoilt s -> exec s a = Some s' -> exists new, log s' = log s ++ new /\ forall j c, ~ In (j, EProc true c) new.
Proof.
  intros s a s' I (_ & F) (EL & SP) E. destruct a as [c u|i a].
  - injection E as <-. exists []. split; [symmetry; apply app_nil_r|intros j c0 []].
  - destruct (step_inv _ _ _ _ E) as (o & c & f & k & s1 & c' & l & G & Bd & ->). pose proof (inv_pre _ _ _ _ _ _ I G) as P. pose proof (F i _ f G (or_introl eq_refl)) as FF. cbn [log w_ag].
    destruct (isget f) eqn:GF.
    + destruct (getter_log _ _ _ _ _ _ _ _ P GF Bd) as (new & L & LN). exists new. split; [exact L|]. intros j c0 X. destruct (LN _ _ X) as (_ & [Y|[(Y & _)|Y]]); discriminate.
    + destruct f; try discriminate GF; clear GF E; try (destruct P as (U & C & N)).
      8: { exfalso. cbn in FF. destruct FF as (FF1 & h & FF2 & FF3). destruct SP as [(h' & X & Y)|(e & X & Y)]; congruence. }
      8: { assert (SC : forall z, log (close' (say s i z) i p) = log s ++ [(i, z)] /\ log (close' s i p) = log s).
           { intros z. destruct p as [x|]; [|auto]. split; [change (close' (say s i z) i (Some x)) with (closes (say s i z) i [x]); rewrite closes_log|change (close' s i (Some x)) with (closes s i [x]); rewrite closes_log]; auto; intros g; specialize (C g); unfold cn in *; cbn in *; lia. }
           destruct a, b; cbn in Bd; try discriminate; injection Bd as <- <- <-; destruct n; cbn; rewrite ?(proj1 (SC EKeep)), ?(proj2 (SC EKeep));
           first [exists []; split; [symmetry; apply app_nil_r|intros ? ? []]
                 |eexists [_]; split; [reflexivity|intros ? ? [X|[]]; discriminate]
                 |eexists [_; _]; rewrite <- app_assoc; split; [reflexivity|intros ? ? [X|[X|[]]]; discriminate]]. }
      all: destruct a; cbn in Bd; try discriminate; opn Bd; cbn; rewrite ?EL;
           first [exists []; split; [symmetry; apply app_nil_r|intros ? ? []]
                 |eexists [_]; split; [reflexivity|intros ? ? [X|[]]; discriminate]
                 |eexists [_; _]; rewrite <- app_assoc; split; [reflexivity|intros ? ? [X|[X|[]]]; congruence]].
Qed.
Lemma run_spoilt : forall l s s', INV s -> SQ s -> spoilt s -> run s l = Some s' -> exists new, log s' = log s ++ new /\ forall j c, ~ In (j, EProc true c) new.
Proof.
  induction l as [|a l IH]; intros s s' I Q S R; cbn in R; [injection R as <-; exists []; split; [symmetry; apply app_nil_r|intros ? ? []]|].
  destruct (exec s a) as [s1|] eqn:E; [|discriminate]. pose proof (exec_INV _ _ _ I E) as I1. destruct (exec_spoilt _ _ _ I Q S E) as (n1 & L1 & N1).
  destruct (IH s1 s' I1 (exec_SQ _ _ _ I Q E) (spoilt_stable _ _ I I1 (exec_Mono _ _ _ I E) S) R) as (n2 & L2 & N2).
  exists (n1 ++ n2). split; [rewrite L2, L1, app_assoc; reflexivity|]. intros j c X. apply in_app_or in X. destruct X as [X|X]; [exact (N1 j c X)|exact (N2 j c X)].
Qed.
Lemma run_SQ : forall l s s', INV s -> SQ s -> run s l = Some s' -> SQ s'.
Proof.
  induction l as [|a l IH]; intros s s' I Q R; cbn in R; [injection R as <-; exact Q|].
  destruct (exec s a) as [s1|] eqn:E; [|discriminate]. eapply IH; [eapply exec_INV; eassumption|eapply exec_SQ; eassumption|exact R].
Qed.

(** Nothing failed, the process called winlogon.exe was the real one, and the limited token was asked for from here
    only: then every process is a limited one. *)
Definition spot (l : list (nat * event)) : Prop := exists j e, In (j, e) l /\ (e = EFail \/ e = EFake).
Definition sk (k : list frame) : Prop := k = [] \/ k = [I2] \/ k = [I2; Q2].
Definition ik (k : list frame) : Prop := k = [] \/ k = [Q2].
Definition lk (c : option tk) (k : list frame) : Prop := c = Some (Sys true) /\ exists p, k = [Q6 p true].
Definition good (s : st) (c : option tk) (k : list frame) : Prop :=
  match k with
  | [] => True
  | (S0 | S1 | S2 _ | S3 _ _) :: k => sk k
  | (S4 _ _ t | S5 _ _ t) :: k => sk k /\ kd (opn s) t = Some (KSys true)
  | S6 _ :: k => sk k /\ cs s <> None
  | (I0 | I1) :: k => ik k
  | I2 :: k => ik k /\ cs s <> None
  | I3 h :: k => ik k /\ kd (opn s) h = Some (KImp true)
  | (L0 | L1 | L2 _ | L3 _) :: k => lk c k
  | L4 _ t :: k => lk c k /\ kd (opn s) t = Some (KLnk true)
  | Q0 :: k => k = []
  | Q1 :: k => k = [] /\ se s = Some Full
  | Q2 :: k => k = [] /\ ci s <> None
  | (Q3 m | Q4 m _) :: k => k = [] /\ ci s = Some m
  | Q5 _ b :: k => k = [] /\ b = true /\ c = Some (Sys true)
  | Q6 _ b :: k => k = [] /\ b = true /\ c = Some (Sys true) /\ cl s <> None
  | Q7 _ b _ :: k => k = [] /\ b = true
  | Q8 _ b n :: k => k = [] /\ b = true /\ n = Return true
  | Q9 :: _ => False
  end.
Record Clean (s : st) : Prop := {
  n_el : el s = Full;
  n_se : se s = None \/ se s = Some Full;
  n_cs : forall h, cs s = Some h -> kd (opn s) h = Some (KSys true);
  n_ci : forall h, ci s = Some h -> kd (opn s) h = Some (KImp true);
  n_cl : forall h, cl s = Some h -> kd (opn s) h = Some (KLnk true);
  n_ag : forall i a, nth_error (ag s) i = Some a -> good s (cur a) (stk a);
  n_ev : forall j e, In (j, e) (log s) -> match e with EProc l _ => l = true | ERet r => r = true | EPlain => False | _ => True end }.
Lemma body_caches : forall s i c f a s' c' l, body s i c f a = Some (s', c', l) ->
  (forall h, cs s' = Some h -> cs s = Some h \/ ((exists x p, f = S5 x p h))) /\ (forall h, cl s' = Some h -> cl s = Some h \/ (exists x, f = L4 x h)) /\ (forall h, ci s' = Some h -> ci s = Some h \/ f = I3 h).
Proof.
  intros s i c f a s' c' l E. destruct f, a; cbn in E; try discriminate; opn E; cbn; fld; cbn; fld; cbn; repeat split; intros h0 H; cbn in *; first [left; congruence|right; injection H as <-; eauto].
Qed.
Lemma close_mono : forall s i h x, In x (log s) -> In x (log (close s i h)).
Proof. intros. unfold close. destruct (kd (opn s) h); cbn; [assumption|apply in_or_app; left; assumption]. Qed.
Lemma close'_mono : forall s i h x, In x (log s) -> In x (log (close' s i h)).
Proof. intros s i [h|] x H; [apply close_mono|]; exact H. Qed.
Ltac spots H := exfalso; apply H; eexists; eexists; (split; [repeat (first [apply close'_mono|apply close_mono|apply in_snoc|apply in_more])|cbn; auto]).
Lemma sk_pop : forall s c k, sk k -> cs s <> None -> good s c k.
Proof. intros s c k [->|[->| ->]] H; cbn; unfold ik; auto. Qed.
Lemma ik_pop : forall s c k, ik k -> ci s <> None -> good s c k.
Proof. intros s c k [->| ->] H; cbn; auto. Qed.
Lemma lk_pop : forall s c k, lk c k -> cl s <> None -> good s c k.
Proof. intros s c k (H & p & ->) L; cbn; auto. Qed.
Lemma good_stable : forall s s' c k, (forall h, cs s = Some h -> cs s' = Some h) -> (forall h, cl s = Some h -> cl s' = Some h) -> (forall h, ci s = Some h -> ci s' = Some h) -> (forall e, se s = Some e -> se s' = Some e) ->
  (forall h, In h (hsl k) -> kd (opn s') h = kd (opn s) h) -> good s c k -> good s' c k.
Proof.
  intros s s' c k A B C D K G. assert (A1 : cs s <> None -> cs s' <> None) by (destruct (cs s); [intros _; rewrite (A _ eq_refl); discriminate|congruence]).
  assert (B1 : cl s <> None -> cl s' <> None) by (destruct (cl s); [intros _; rewrite (B _ eq_refl); discriminate|congruence]).
  assert (C1 : ci s <> None -> ci s' <> None) by (destruct (ci s); [intros _; rewrite (C _ eq_refl); discriminate|congruence]).
  destruct k as [|f k]; [exact Logic.I|]. unfold hsl in K. cbn in K. destruct f; cbn in *; try exact G; try tauto; try (rewrite K by auto; exact G).
  all: destruct G; auto.
Qed.
Lemma body_good : forall s i c f k a s' c' l, Pre s f -> (se s = None \/ se s = Some Full) -> el s = Full ->
  (forall h, cs s = Some h -> kd (opn s) h = Some (KSys true)) -> (forall h, ci s = Some h -> kd (opn s) h = Some (KImp true)) -> (forall h, cl s = Some h -> kd (opn s) h = Some (KLnk true)) ->
  good s c (f :: k) -> ~ spot (log s') -> body s i c f a = Some (s', c', l) -> good s' c' (l ++ k) /\ (se s' = None \/ se s' = Some Full).
Proof.
  intros s i c f k a s' c' l P SE EL KS KI KL G NS E.
  destruct f, a; cbn in E; try discriminate; rewrite ?EL in E; opn E; cbn in G; try (spots NS; fail);
  cbn [app]; try contradiction; repeat match goal with H : _ /\ _ |- _ => destruct H end; subst;
  try discriminate.
  all: try (split; [|cbn; fld; cbn; fld; cbn; auto; fail]).
  all: try (cbn; rewrite ?Nat.eqb_refl; auto; fail).
  all: try (apply sk_pop; [assumption|cbn; fld; cbn; congruence]).
  all: try (apply ik_pop; [assumption|cbn; fld; cbn; congruence]).
  all: try (apply lk_pop; [assumption|cbn; fld; cbn; fld; cbn; congruence]).
  all: try (cbn; fld; cbn; fld; cbn; split; [assumption|congruence]).
  all: try (exfalso; destruct SE; congruence).
  - exfalso. destruct G as (X & _). subst c. discriminate.
  - destruct G as [->| ->]; cbn; unfold sk; auto.
  - cbn. rewrite Nat.eqb_refl. split; [assumption|]. rewrite (KS _ eq_refl). reflexivity.
  - cbn. destruct SE as [X|X]; [discriminate|]. rewrite X in *. auto.
  - cbn. unfold ik. auto.
  - cbn. match goal with H : ci _ = Some _ |- _ => rewrite (KI _ H) end. cbn. auto.
  - cbn. unfold lk. eauto.
Qed.
Lemma body_events : forall s i c f k a s' c' l, Pre s f -> el s = Full -> good s c (f :: k) -> ~ spot (log s') -> body s i c f a = Some (s', c', l) ->
  exists new, log s' = log s ++ new /\ forall j e, In (j, e) new -> match e with EProc l _ => l = true | ERet r => r = true | EPlain => False | _ => True end.
Proof.
  intros s i c f k a s' c' l P EL G NS E.
  destruct (isget f) eqn:GF.
  - destruct (getter_log _ _ _ _ _ _ _ _ P GF E) as (new & L & LN). exists new. split; [exact L|]. intros j e X. destruct (LN _ _ X) as (_ & [-> |[(-> & Y & h & ->)| ->]]); auto.
    cbn in G. destruct G as (-> & _). discriminate Y.
  - destruct P as (U & C & N).
    assert (SC : forall x z, In x (hs f) -> log (close (say s i z) i x) = log s ++ [(i, z)] /\ log (close s i x) = log s).
    { intros x z X. assert (Y : forall g, ch g [x] <= cn s g).
      { intros g. specialize (C g). cbn. unfold eq1. destruct (Nat.eqb_spec x g); [|lia]. subst g. pose proof (ch_in _ _ X). lia. }
      split; [change (close (say s i z) i x) with (closes (say s i z) i [x])|change (close s i x) with (closes s i [x])]; rewrite closes_log; auto. }
    assert (SC' : forall p z, (forall x, In x (ol p) -> In x (hs f)) -> log (close' (say s i z) i p) = log s ++ [(i, z)] /\ log (close' s i p) = log s).
    { intros [x|] z X; [apply SC, X; left; reflexivity|auto]. }
    destruct f; try discriminate GF; clear GF; destruct a; cbn in E; try discriminate; opn E; cbn in G; try contradiction; try (spots NS; fail); repeat match goal with H : _ /\ _ |- _ => destruct H end; subst; cbn; try discriminate.
    all: rewrite ?(proj1 (SC _ _ (or_introl eq_refl))).
    all: repeat match goal with H : Return _ = Return _ |- _ => injection H as -> end.
    all: try (rewrite ?(proj1 (SC' p EKeep (fun x X => X))), ?(proj2 (SC' p EKeep (fun x X => X)))).
    all: first [exists []; split; [symmetry; apply app_nil_r|intros ? ? []]
               |eexists [_]; split; [reflexivity|intros ? ? [X|[]]; injection X as <- <-; auto]
               |eexists [_; _]; rewrite <- app_assoc; split; [reflexivity|intros ? ? [X|[X|[]]]; injection X as <- <-; auto]].
Qed.
Definition asks (a : act) : bool := match a with Go GetLimitedToken _ => true | _ => false end.
Lemma good_tail : forall s c f k h, good s c (f :: k) -> In h (hsl k) -> exists p, k = [Q6 p true].
Proof.
  intros s c f k h G H.
  assert (S : sk k -> exists p, k = [Q6 p true]) by (intros [->|[->| ->]]; cbn in H; tauto).
  assert (T : ik k -> exists p, k = [Q6 p true]) by (intros [->| ->]; cbn in H; tauto).
  assert (L : lk c k -> exists p, k = [Q6 p true]) by (intros (_ & X); exact X).
  assert (E : k = [] -> exists p, k = [Q6 p true]) by (intros ->; cbn in H; tauto).
  destruct f; cbn in G; tauto.
Qed.
Lemma exec_Clean : forall s a s', INV s -> Clean s -> exec s a = Some s' -> asks a = false -> ~ spot (log s') -> Clean s'.
Proof.
  intros s a s' I [c1 c2 c3 c4 c5 c6 c7] E AS NS. pose proof (exec_INV _ _ _ I E) as I'. pose proof (exec_Mono _ _ _ I E) as M. destruct a as [c u|i a].
  - injection E as <-. constructor; try assumption. intros j b G. cbn in G.
    destruct (Nat.lt_ge_cases j (length (ag s))) as [Lt|Ge].
    + rewrite nth_error_app1 in G by exact Lt. exact (c6 j b G).
    + rewrite nth_error_app2 in G by exact Ge. destruct (j - length (ag s)) as [|[|?]]; cbn in G; try discriminate. injection G as <-. destruct c; try discriminate AS; cbn; unfold sk, ik; auto.
  - destruct (step_inv _ _ _ _ E) as (o & c & f & k & s1 & c' & l & G & Bd & ->). pose proof (inv_pre _ _ _ _ _ _ I G) as P. pose proof (body_post _ _ _ _ _ _ _ _ P Bd) as PO.
    assert (NG : nth_error (ag s) i <> None) by (rewrite G; discriminate). pose proof (c6 i _ G) as GG. cbn [stk cur] in GG. cbn [log w_ag] in NS.
    destruct (body_good _ _ _ _ _ _ _ _ _ P c2 c1 c3 c4 c5 GG NS Bd) as (G' & SE'). destruct (body_events _ _ _ _ _ _ _ _ _ P c1 GG NS Bd) as (new & L & LN).
    destruct (body_caches _ _ _ _ _ _ _ _ Bd) as (B1 & B2 & B3).
    assert (KEEP : forall g, 1 <= ca s1 g + ch g (hsl l) -> 1 <= ca s g + ch g (hs f) -> kd (opn s1) g = kd (opn s) g) by (intros; eapply keep; eassumption).
    constructor; cbn [el se cs ci cl opn ag log w_ag].
    + rewrite (p_el _ _ _ _ _ PO). exact c1.
    + exact SE'.
    + intros h H. destruct (B1 h H) as [X|(x & p & ->)]; (rewrite KEEP; [|pose proof (ca_cs _ _ H); lia|]).
      * exact (c3 h X). * pose proof (ca_cs _ _ X); lia. * cbn in GG. exact (proj2 GG). * cbn. rewrite eq1_eq. lia.
    + intros h H. destruct (B3 h H) as [X| ->]; (rewrite KEEP; [|pose proof (ca_ci _ _ H); lia|]).
      * exact (c4 h X). * pose proof (ca_ci _ _ X); lia. * cbn in GG. exact (proj2 GG). * cbn. rewrite eq1_eq. lia.
    + intros h H. destruct (B2 h H) as [X|(x & ->)]; (rewrite KEEP; [|pose proof (ca_cl _ _ H); lia|]).
      * exact (c5 h X). * pose proof (ca_cl _ _ X); lia. * cbn in GG. exact (proj2 GG). * cbn. rewrite eq1_eq. lia.
    + intros j b X. destruct (nth_set _ _ _ _ _ _ NG X) as [(-> & ->)|(D & Z)]; [exact G'|].
      apply (good_stable s); [exact (p_cs _ _ _ _ _ PO)|exact (p_cl _ _ _ _ _ PO)|exact (p_ci _ _ _ _ _ PO)|exact (p_se _ _ _ _ _ PO)| |exact (c6 j b Z)].
      intros h H. exact (held_kd _ _ _ _ _ I I' M Z X H).
    + intros j e X. rewrite L in X. apply in_app_or in X. destruct X as [X|X]; [exact (c7 j e X)|exact (LN j e X)].
Qed.
Lemma run_Clean : forall l s s', INV s -> Clean s -> run s l = Some s' -> forallb (fun a => negb (asks a)) l = true -> ~ spot (log s') -> Clean s'.
Proof.
  induction l as [|a l IH]; intros s s' I C R F NS; cbn in R; [injection R as <-; exact C|].
  destruct (exec s a) as [s1|] eqn:E; [|discriminate]. cbn in F. apply andb_true_iff in F. destruct F as (F1 & F2). pose proof (exec_INV _ _ _ I E) as I1.
  assert (N1 : ~ spot (log s1)).
  { destruct (run_Mono _ _ _ I1 R) as (_ & _ & _ & _ & _ & (new & L) & _). intros (j & e & X & Y). apply NS. exists j, e. split; [rewrite L; apply in_or_app; left; exact X|exact Y]. }
  eapply IH; [exact I1| |exact R|exact F2|exact NS]. apply (exec_Clean s a s1 I C E); [|exact N1]. destruct (asks a); [discriminate F1|reflexivity].
Qed.
Lemma init_Clean : Clean (init Full).
Proof. constructor; cbn; auto; try discriminate. - intros [|i] a G; discriminate. - intros j e []. Qed.
