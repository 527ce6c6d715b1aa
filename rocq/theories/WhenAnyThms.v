(** Property C53: WhenAny. *)
From Coq Require Import List Arith Bool Lia.
From Verif Require Import Slots SlotsProofs Threads WhenAnyModel.
Import ListNotations.

(** * Specification *)
Definition idle (s : st) : Prop := forall i k, nth_error (ag s) i = Some k -> k = [].
(** Every task that is not empty has called its handlers. *)
Definition all_called (s : st) : Prop := forall t, In t (ts s) -> nul t = true \/ ph t = 3.
Definition nwin (l : list event) : nat := length (filter (fun e => match e with ERes _ => true | _ => false end) l).
(** Calls of Resolve, and handlers that were refused because their task had already completed. *)
Definition nres (l : list event) : nat := length (filter (fun e => match e with ERes _ | ELost => true | _ => false end) l).
Definition nrefs (l : list event) : nat := length (filter (fun e => match e with ERef _ => true | _ => false end) l).

(** * Proofs *)
Arguments nwin : simpl never.
Arguments nres : simpl never.
Arguments nrefs : simpl never.
Definition nref (k : nat) (l : list event) : nat := length (filter (fun e => match e with ERef j => j =? k | _ => false end) l).
Arguments nref : simpl never.
Definition b1 (b : bool) : nat := if b then 1 else 0.
Definition rl (f : frame) : nat := match f with Rel => 1 | _ => 0 end.
Definition hf (k : nat) (f : frame) : nat := match f with A j | Z j | O j => b1 (j =? k) | _ => 0 end.
Definition lf (f : frame) : nat := match f with L _ | A _ => 1 | _ => 0 end.
Definition ow (h : hand) : nat := b1 (own h).
Definition dec1 (s : st) (k : nat) : Prop := exists t, nth_error (ts s) k = Some t /\ (nul t = true \/ 1 <= ph t).
Definition lnkd (s : st) (k : nat) : Prop := exists h, nth_error (hs s) k = Some h /\ lnk h = true.
Definition free (s : st) (k : nat) : Prop := forall h, nth_error (hs s) k = Some h -> own h = false.
Definition fok (s : st) (f : frame) : Prop :=
  match f with
  | L j => j <= length (ts s) /\ forall k, j <= k -> free s k
  | A j => (exists t, nth_error (ts s) j = Some t /\ nul t = false) /\ forall k, j < k -> free s k
  | V j => dec1 s j
  | B j => j <= length (ts s)
  | X j => (exists t, nth_error (ts s) j = Some t /\ nul t = false)
  | Z j | O j => j < length (ts s)
  | Rel => True
  end.
Definition shape0 (k : list frame) : Prop :=
  match k with [] | [L _] | [A _] | [V _; B _] | [B _] | [X _] | [Z _] => True | _ => False end.
Definition shape (i : nat) (k : list frame) : Prop :=
  match k with [] | [Rel] => True | [O j] | [V j; Rel] => j = i | _ => False end.
Definition TR (s : st) : Prop :=
  0 < nres (log s) \/ (exists i k j, nth_error (ag s) i = Some k /\ (In (V j) k \/ In (O j) k)) \/
  (exists p, (nth_error (ag s) 0 = Some [L p] \/ nth_error (ag s) 0 = Some [A p] \/ (nth_error (ag s) 0 = Some [] /\ p = length (ts s))) /\ forall k, k < p -> lnkd s k).
Definition logok (s : st) : Prop := forall l1 k l2, log s = l1 ++ ERes k :: l2 -> (exists t, nth_error (ts s) k = Some t /\ nul t = true) \/ In (EDec k) l1.
Record Inv (s : st) : Prop := {
  v_len : length (ag s) = S (length (ts s));
  v_hl : length (hs s) = length (ts s);
  v_ref : refs s = b1 (usr s) + suml ow (hs s) + suml (suml rl) (ag s);
  v_t : forall k t, nth_error (ts s) k = Some t -> (nul t = true -> ph t = 0) /\ ph t <= 3;
  v_own : forall k h, nth_error (hs s) k = Some h -> ow h = b1 (lnk h) + suml (suml (hf k)) (ag s) + nref k (log s);
  v_lnk : forall k, lnkd s k -> exists t, nth_error (ts s) k = Some t /\ nul t = false /\ ph t <= 2;
  v_dec : forall k t, nth_error (ts s) k = Some t -> 1 <= ph t -> In (EDec k) (log s);
  v_f : forall i k f, nth_error (ag s) i = Some k -> In f k -> fok s f;
  v_s0 : forall k, nth_error (ag s) 0 = Some k -> shape0 k;
  v_sk : forall i k, nth_error (ag s) (S i) = Some k -> shape i k /\ (k <> [] -> exists t, nth_error (ts s) i = Some t /\ ph t = 3);
  v_nr : suml (suml lf) (ag s) + nrefs (log s) <= 1;
  v_tr : TR s;
  v_one : nwin (log s) <= b1 (done s);
  v_done : 0 < nres (log s) -> done s = true;
  v_log : logok s;
  v_0 : usr s = true \/ nth_error (ag s) 0 = Some [] }.

Lemma suml_in : forall T (f : T -> nat) l x, In x l -> f x <= suml f l.
Proof. intros T f l x I. apply In_nth_error in I. destruct I as [i N]. apply (suml_ge _ _ _ _ _ N). Qed.
Lemma n_snoc : forall (p : event -> bool) l e, length (filter p (l ++ [e])) = length (filter p l) + b1 (p e).
Proof. intros p l e. rewrite filter_app, app_length. cbn. destruct (p e); reflexivity. Qed.
Lemma in_snoc : forall (x e : event) l, In x (l ++ [e]) <-> In x l \/ x = e.
Proof. intros x e l. rewrite in_app_iff. cbn. intuition. Qed.
Lemma incl_snoc : forall (l : list event) e, incl l (l ++ [e]).
Proof. intros l e x J. apply in_or_app. left. assumption. Qed.
Lemma logok_snoc : forall s s' e, logok s -> ts s' = ts s -> log s' = log s ++ [e] -> (forall k, e = ERes k -> (exists t, nth_error (ts s) k = Some t /\ nul t = true) \/ In (EDec k) (log s)) -> logok s'.
Proof.
  intros s s' e Lg E1 E2 E l1 k l2 Q. rewrite E2 in Q. rewrite E1. destruct l2 as [|x l2].
  - apply app_inj_tail in Q. destruct Q as [<- Q]. apply E. symmetry. exact (eq_sym Q).
  - destruct (exists_last (l := x :: l2)) as (q & z & R); [discriminate|]. rewrite R, app_comm_cons, app_assoc in Q. apply app_inj_tail in Q. destruct Q as [Q _]. apply (Lg _ _ _ Q).
Qed.
(** Agent [i] goes on from [kk] to [kk']; the tasks do not change. *)
Lemma Inv_put : forall s i kk kk' s', Inv s -> nth_error (ag s) i = Some kk -> ag s' = set (ag s) i kk' -> ts s' = ts s -> usr s' = usr s -> length (hs s') = length (hs s) ->
  refs s' + suml ow (hs s) + suml rl kk = refs s + suml ow (hs s') + suml rl kk' ->
  (forall k h', nth_error (hs s') k = Some h' -> exists h, nth_error (hs s) k = Some h /\ ow h' + b1 (lnk h) + suml (hf k) kk + nref k (log s) = ow h + b1 (lnk h') + suml (hf k) kk' + nref k (log s') /\
     (0 < i -> own h' = true -> own h = true) /\ (lnk h' = true -> lnk h = true \/ exists t, nth_error (ts s) k = Some t /\ nul t = false /\ ph t <= 2)) ->
  (log s' = log s \/ exists e, log s' = log s ++ [e] /\ forall k, e = ERes k -> dec1 s k) -> (forall f, In f kk' -> fok s' f) ->
  (i = 0 -> shape0 kk') -> (forall j, i = S j -> shape j kk') -> kk <> [] -> suml lf kk' + nrefs (log s') <= suml lf kk + nrefs (log s) -> TR s' ->
  nwin (log s') + b1 (done s) <= nwin (log s) + b1 (done s') -> (done s = true -> done s' = true) -> (nres (log s') = nres (log s) \/ done s' = true) -> Inv s'.
Proof.
  intros s i kk kk' s' I N EA ET EU EH RF OW LG F S0 SK NZ NR T W D1 D2.
  assert (IL : incl (log s) (log s')) by (destruct LG as [->|(e & -> & _)]; [apply incl_refl|apply incl_snoc]).
  pose proof (suml_set _ (suml rl) _ _ _ kk' N) as G1. pose proof (suml_set _ (suml lf) _ _ _ kk' N) as G2.
  pose proof (v_ref _ I) as R0. pose proof (v_nr _ I) as R1.
  split.
  - rewrite EA, set_length, ET. apply I.
  - rewrite EH, ET. apply I.
  - rewrite EU, EA. lia.
  - rewrite ET. apply I.
  - intros k h' M. destruct (OW _ _ M) as (h & M' & Q & _). pose proof (v_own _ I _ _ M') as R. rewrite EA. pose proof (suml_set _ (suml (hf k)) _ _ _ kk' N). lia.
  - intros k (h' & M & Q). destruct (OW _ _ M) as (h & M' & _ & _ & Q'). rewrite ET. destruct (Q' Q) as [Q2|Q2]; [|assumption]. apply (v_lnk _ I). exists h. auto.
  - rewrite ET. intros k t M Q. apply IL. apply (v_dec _ I _ _ M Q).
  - intros j d f M J. rewrite EA in M. apply nth_set in M. destruct M as [[<- ->]|[NE M]]; [auto|]. pose proof (v_f _ I _ _ _ M J) as G.
    destruct j as [|j].
    + assert (P : 0 < i) by lia. assert (FR : forall k, free s k -> free s' k).
      { intros k Q h' M'. destruct (OW _ _ M') as (h & M2 & _ & Q2 & _). specialize (Q h M2). destruct (own h'); [specialize (Q2 P eq_refl); congruence|reflexivity]. }
      destruct f; cbn [fok] in *; unfold dec1; rewrite ?ET; try exact G; destruct G as [G1' G2']; auto.
    + destruct (v_sk _ I _ _ M) as [SH _]. assert (SP : match f with L _ | A _ => False | _ => True end).
      { unfold shape in SH. destruct d as [|x d]; [destruct J|]. destruct x; try contradiction; destruct d as [|y d]; try contradiction; try (destruct y; try contradiction; destruct d; try contradiction); repeat (destruct J as [<-|J]; [exact Logic.I|]); try destruct J. }
      destruct f; cbn [fok] in *; unfold dec1; rewrite ?ET; try exact G; contradiction.
  - intros k M. rewrite EA in M. apply nth_set in M. destruct M as [[-> ->]|[_ M]]; [auto|apply (v_s0 _ I _ M)].
  - intros j k M. rewrite EA in M. rewrite ET. apply nth_set in M. destruct M as [[EQ ->]|[_ M]]; [|apply (v_sk _ I _ _ M)]. split; [auto|]. intros _. subst i. apply (v_sk _ I _ _ N). assumption.
  - rewrite EA. lia.
  - assumption.
  - pose proof (v_one _ I). lia.
  - intros Q. destruct D2 as [D2|D2]; [|assumption]. apply D1. apply (v_done _ I). lia.
  - destruct LG as [LG|(e & LG & Q)].
    + intros l1 k l2 E. rewrite LG in E. rewrite ET. apply (v_log _ I _ _ _ E).
    + eapply logok_snoc; [apply (v_log _ I)|exact ET|exact LG|]. intros k Ek. destruct (Q _ Ek) as (t & M & [Q'|Q']); [left; eauto|right; apply (v_dec _ I _ _ M Q')].
  - rewrite EU, EA. destruct (v_0 _ I) as [U|U]; [left; assumption|right]. destruct i as [|i]; [congruence|]. destruct (ag s); [discriminate|exact U].
Qed.
(** The handlers do not change. *)
Lemma same_hs : forall s i kk kk' s', hs s' = hs s -> (forall k, suml (hf k) kk + nref k (log s) = suml (hf k) kk' + nref k (log s')) ->
  forall k h', nth_error (hs s') k = Some h' -> exists h, nth_error (hs s) k = Some h /\ ow h' + b1 (lnk h) + suml (hf k) kk + nref k (log s) = ow h + b1 (lnk h') + suml (hf k) kk' + nref k (log s') /\
     (0 < i -> own h' = true -> own h = true) /\ (lnk h' = true -> lnk h = true \/ exists t, nth_error (ts s) k = Some t /\ nul t = false /\ ph t <= 2).
Proof. intros s i kk kk' s' E Q k h' M. rewrite E in M. exists h'. specialize (Q k). split; [assumption|]. split; [lia|]. auto. Qed.
(** Handler [j] changes. *)
Lemma set_hs : forall s i kk kk' s' j h hn, nth_error (hs s) j = Some h -> hs s' = set (hs s) j hn -> log s' = log s ->
  (forall k, k <> j -> suml (hf k) kk = suml (hf k) kk') -> ow hn + b1 (lnk h) + suml (hf j) kk = ow h + b1 (lnk hn) + suml (hf j) kk' -> (0 < i -> own hn = true -> own h = true) ->
  (lnk hn = true -> lnk h = true \/ exists t, nth_error (ts s) j = Some t /\ nul t = false /\ ph t <= 2) ->
  forall k h', nth_error (hs s') k = Some h' -> exists h, nth_error (hs s) k = Some h /\ ow h' + b1 (lnk h) + suml (hf k) kk + nref k (log s) = ow h + b1 (lnk h') + suml (hf k) kk' + nref k (log s') /\
     (0 < i -> own h' = true -> own h = true) /\ (lnk h' = true -> lnk h = true \/ exists t, nth_error (ts s) k = Some t /\ nul t = false /\ ph t <= 2).
Proof.
  intros s i kk kk' s' j h hn N E EL H1 H2 H3 H4 k h' M. rewrite E in M. rewrite EL. apply nth_set in M. destruct M as [[<- ->]|[NE M]].
  - exists h. split; [assumption|]. split; [lia|]. auto.
  - exists h'. split; [assumption|]. rewrite (H1 k) by congruence. split; [lia|]. auto.
Qed.
Lemma hf_other : forall k j, k <> j -> b1 (j =? k) = 0.
Proof. intros k j N. destruct (Nat.eqb_spec j k); [congruence|reflexivity]. Qed.
Lemma hf_same : forall j, b1 (j =? j) = 1.
Proof. intros j. rewrite Nat.eqb_refl. reflexivity. Qed.
Lemma set_hit : forall T (l : list T) i x y, nth_error l i = Some x -> nth_error (set l i y) i = Some y.
Proof. intros T l i x y N. apply nth_set_eq. apply nth_error_Some. congruence. Qed.
Lemma nref_snoc : forall k l e, nref k (l ++ [e]) = nref k l + match e with ERef j => b1 (j =? k) | _ => 0 end.
Proof. intros k l e. unfold nref. rewrite n_snoc. destruct e; reflexivity. Qed.
Lemma nres_snoc : forall l e, nres (l ++ [e]) = nres l + match e with ERes _ | ELost => 1 | _ => 0 end.
Proof. intros l e. unfold nres. rewrite n_snoc. destruct e; reflexivity. Qed.
Lemma nwin_snoc : forall l e, nwin (l ++ [e]) = nwin l + match e with ERes _ => 1 | _ => 0 end.
Proof. intros l e. unfold nwin. rewrite n_snoc. destruct e; reflexivity. Qed.
Lemma nrefs_snoc : forall l e, nrefs (l ++ [e]) = nrefs l + match e with ERef _ => 1 | _ => 0 end.
Proof. intros l e. unfold nrefs. rewrite n_snoc. destruct e; reflexivity. Qed.
Lemma TR_keep : forall s s' i kk kk', TR s -> nth_error (ag s) i = Some kk -> (forall j, ~ In (V j) kk /\ ~ In (O j) kk) -> ag s' = set (ag s) i kk' -> nres (log s) <= nres (log s') -> ts s' = ts s ->
  (i = 0 -> forall p, kk <> [L p] /\ kk <> [A p] /\ kk <> []) -> (0 < i -> forall k, lnkd s k -> lnkd s' k) -> TR s'.
Proof.
  intros s s' i kk kk' T N NV EA ER ET H0 H1. destruct T as [T|[(i' & k & j & M & J)|(p & C & Q)]].
  - left. lia.
  - right. left. exists i', k, j. split; [|assumption]. rewrite EA. rewrite nth_set_neq; [assumption|]. intros ->. rewrite N in M. injection M as <-. destruct (NV j). tauto.
  - right. right. destruct i as [|i].
    + exfalso. destruct (H0 eq_refl p) as (P1 & P2 & P3). rewrite N in C. destruct C as [C|[C|[C _]]]; injection C as C; auto.
    + exists p. split; [|intros k G; apply H1; [lia|auto]]. rewrite EA, ET. destruct (ag s); exact C.
Qed.
Lemma TR_go : forall s s' q kk kk', TR s -> nth_error (ag s) 0 = Some kk -> kk = [L q] \/ kk = [A q] -> ag s' = set (ag s) 0 kk' -> nres (log s) <= nres (log s') ->
  ((forall k, k < q -> lnkd s k) -> exists p, (kk' = [L p] \/ kk' = [A p] \/ (kk' = [] /\ p = length (ts s'))) /\ forall k, k < p -> lnkd s' k) -> TR s'.
Proof.
  intros s s' q kk kk' T N K EA ER H. destruct T as [T|[(i' & k & j & M & J)|(p & C & Q)]].
  - left. lia.
  - right. left. exists i', k, j. split; [|assumption]. rewrite EA. rewrite nth_set_neq; [assumption|]. intros <-. rewrite N in M. injection M as <-. destruct K as [->| ->]; cbn in J; intuition discriminate.
  - right. right. assert (EP : p = q) by (rewrite N in C; destruct K as [->| ->]; destruct C as [C|[C|[C _]]]; congruence). subst p. destruct (H Q) as (p & C' & Q'). exists p. split; [|assumption]. rewrite EA.
    assert (EZ : nth_error (set (ag s) 0 kk') 0 = Some kk') by (destruct (ag s); [discriminate|reflexivity]). rewrite EZ. destruct C' as [->|[->|[-> ->]]]; auto.
Qed.
Lemma TR_v : forall s' i (l : list (list frame)) kk k j, ag s' = set l i (V j :: k) -> nth_error l i = Some kk -> TR s'.
Proof. intros s' i l kk k j E N. right. left. exists i, (V j :: k), j. split; [rewrite E; apply (set_hit _ _ _ _ _ N)|left; left; reflexivity]. Qed.
Lemma lnkd_set : forall s s' j h hn k, nth_error (hs s) j = Some h -> hs s' = set (hs s) j hn -> (lnk h = true -> lnk hn = true) -> lnkd s k -> lnkd s' k.
Proof.
  intros s s' j h hn k N E Q (h' & M & H'). unfold lnkd. rewrite E. destruct (Nat.eq_dec j k) as [->|NE].
  - exists hn. split; [apply (set_hit _ _ _ _ _ N)|]. apply Q. congruence.
  - exists h'. rewrite nth_set_neq by congruence. auto.
Qed.
Ltac tv := try eassumption; try reflexivity; try discriminate; try (intros _; exact Logic.I); try (left; reflexivity); try (intros ?D; exact D); try (right; reflexivity); try (cbn; lia).
Lemma step_inv : forall s i f k s', Inv s -> nth_error (ag s) i = Some (f :: k) -> step s i f k = Some s' -> Inv s'.
Proof.
  intros s i f k s' I N E. pose proof (v_f _ I _ _ f N (or_introl eq_refl)) as F.
  assert (SH : match i with 0 => shape0 (f :: k) | S j => shape j (f :: k) /\ exists t, nth_error (ts s) j = Some t /\ ph t = 3 end).
  { destruct i; [apply (v_s0 _ I _ N)|]. destruct (v_sk _ I _ _ N) as [A1 A2]. split; [assumption|]. apply A2. discriminate. }
  assert (HG : forall x, suml (hf x) (f :: k) <= suml (suml (hf x)) (ag s)) by (intros x; apply (suml_ge _ _ _ _ _ N)).
  destruct f as [j|j|j|j|j|j|j|]; cbn [step fok] in *.
  - (* L *)
    destruct i; [|destruct SH as [SH _]; contradiction]. destruct k; [|contradiction]. destruct F as [FJ FF].
    destruct (nth_error (ts s) j) as [t|] eqn:Mt.
    + destruct (nth_error (hs s) j) as [h|] eqn:Mh.
      * destruct (nul t) eqn:NU; injection E as <-.
        -- eapply (Inv_put s 0 [L j] [V j; B j]); tv.
           ++ apply same_hs; [reflexivity|]. intros x. cbn. reflexivity.
           ++ intros f [<-|[<-|[]]]; cbn; [exists t; auto|assumption].
           ++ eapply TR_v; [reflexivity|exact N].
        -- specialize (FF j (le_n _) h Mh) as OF.
           eapply (Inv_put s 0 [L j] [A j]); tv.
           ++ cbn. apply set_length.
           ++ cbn [refs put w_refs w_hs hs]. pose proof (suml_set _ ow _ _ _ (HD true (lnk h)) Mh) as G. unfold ow at 2 4 in G. rewrite OF in G. cbn in *. lia.
           ++ eapply set_hs; [exact Mh|reflexivity|reflexivity| | | |].
              ** intros x NE. cbn. rewrite hf_other by assumption. reflexivity.
              ** unfold ow. rewrite OF. cbn. rewrite hf_same. lia.
              ** lia.
              ** cbn. auto.
           ++ intros f [<-|[]]. cbn. split; [eauto|]. intros x G h' M'. cbn in M'. apply nth_set in M'. destruct M' as [[<- _]|[_ M']]; [lia|]. apply (FF x); [lia|assumption].
           ++ eapply (TR_go s _ j); [apply I|exact N|auto|reflexivity|cbn; lia|]. intros Q. exists j. split; [auto|]. intros x G. eapply lnkd_set; [exact Mh|reflexivity|cbn; auto|auto].
      * exfalso. apply nth_error_None in Mh. rewrite (v_hl _ I) in Mh. assert (j < length (ts s)) by (apply nth_error_Some; congruence). lia.
    + injection E as <-. apply nth_error_None in Mt.
      eapply (Inv_put s 0 [L j] []); tv.
      * apply same_hs; reflexivity.
      * eapply (TR_go s _ j); [apply I|exact N|auto|reflexivity|cbn; lia|]. intros Q. exists j. split; [right; right; cbn; split; [reflexivity|lia]|]. intros x G. destruct (Q x G) as (h & M & H'). exists h. auto.
  - (* A *)
    destruct i; [|destruct SH as [SH _]; contradiction]. destruct k; [|contradiction]. destruct F as [(t & Mt & NU) FF]. rewrite Mt in E.
    destruct (nth_error (hs s) j) as [h|] eqn:Mh; [|discriminate]. pose proof (v_own _ I _ _ Mh) as OW. specialize (HG j). cbn [suml hf] in HG. rewrite hf_same in HG.
    assert (OT : ow h = 1 /\ lnk h = false) by (unfold ow in *; destruct (own h), (lnk h); cbn in *; split; try reflexivity; lia). destruct OT as [OT LF].
    destruct (Nat.eqb_spec (ph t) 0) as [P|P]; injection E as <-.
    + eapply (Inv_put s 0 [A j] [L (S j)]); tv.
      * cbn. apply set_length.
      * cbn [refs put w_refs w_hs hs]. pose proof (suml_set _ ow _ _ _ (HD (own h) true) Mh) as G. change (ow (HD (own h) true)) with (ow h) in G. cbn in *. lia.
      * eapply set_hs; [exact Mh|reflexivity|reflexivity| | | |].
        -- intros x NE. cbn. rewrite hf_other by assumption. reflexivity.
        -- change (ow (HD (own h) true)) with (ow h). rewrite LF. cbn. rewrite hf_same. lia.
        -- lia.
        -- intros _. right. exists t. repeat split; auto. lia.
      * intros f [<-|[]]. cbn. split; [assert (j < length (ts s)) by (apply nth_error_Some; congruence); lia|]. intros x G h' M'. cbn in M'. apply nth_set in M'. destruct M' as [[<- _]|[_ M']]; [lia|]. apply (FF x); [lia|assumption].
      * eapply (TR_go s _ j); [apply I|exact N|auto|reflexivity|cbn; lia|]. intros Q. exists (S j). split; [auto|]. intros x G. destruct (Nat.eq_dec x j) as [->|NE].
        -- exists (HD (own h) true). split; [cbn; apply (set_hit _ _ _ _ _ Mh)|reflexivity].
        -- eapply lnkd_set; [exact Mh|reflexivity|cbn; auto|apply Q; lia].
    + eapply (Inv_put s 0 [A j] [V j; B j]); tv.
      * apply same_hs; [reflexivity|]. intros x. cbn [log say put]. rewrite nref_snoc. cbn. lia.
      * right. eexists. split; [reflexivity|]. discriminate.
      * intros f [<-|[<-|[]]]; cbn; [exists t; split; [assumption|right; lia]|]. assert (j < length (ts s)) by (apply nth_error_Some; congruence). lia.
      * cbn [log say put]. rewrite nrefs_snoc. cbn. lia.
      * eapply TR_v; [reflexivity|exact N].
      * cbn [log say put done]. rewrite nwin_snoc. lia.
      * left. cbn [log say put done]. rewrite nres_snoc. lia.
  - (* V *)
    assert (FK : forall f, In f k -> f = Rel \/ exists j, f = B j /\ fok s (B j)).
    { destruct i; [destruct k as [|[] [|? ?]]; try contradiction|destruct SH as [SH _]; destruct k as [|[] [|? ?]]; try contradiction]; intros f [<-|[]]; [right|left; reflexivity]. exists j0. split; [reflexivity|]. apply (v_f _ I _ _ _ N). right. left. reflexivity. }
    assert (S0 : i = 0 -> shape0 k) by (intros ->; destruct k as [|[] [|? ?]]; try contradiction; exact Logic.I).
    assert (SK : forall x, i = S x -> shape x k) by (intros x ->; destruct SH as [SH _]; destruct k as [|[] [|? ?]]; try contradiction; exact Logic.I).
    assert (FK' : forall s2, ts s2 = ts s -> forall f, In f k -> fok s2 f) by (intros s2 E2 f J; destruct (FK f J) as [->|(q & -> & Q)]; cbn in *; [exact Logic.I|rewrite E2; exact Q]).
    destruct (done s) eqn:D; injection E as <-.
    + eapply (Inv_put s i (V j :: k) k); tv.
      * apply same_hs; [reflexivity|]. intros x. cbn [log say put]. rewrite nref_snoc. cbn. lia.
      * right. eexists. split; [reflexivity|]. discriminate.
      * apply FK'. reflexivity.
      * cbn [log say put]. rewrite nrefs_snoc. cbn. lia.
      * left. cbn [log say put]. rewrite nres_snoc. lia.
      * cbn [log say put done]. rewrite nwin_snoc. lia.
      * right. exact D.
    + eapply (Inv_put s i (V j :: k) k); tv.
      * apply same_hs; [reflexivity|]. intros x. cbn [log say put w_done]. rewrite nref_snoc. cbn. lia.
      * right. eexists. split; [reflexivity|]. intros x EX. injection EX as <-. exact F.
      * apply FK'. reflexivity.
      * cbn [log say put w_done]. rewrite nrefs_snoc. cbn. lia.
      * left. cbn [log say put w_done]. rewrite nres_snoc. lia.
      * cbn [log say put done w_done]. rewrite nwin_snoc, D. cbn. lia.
  - (* B *)
    destruct i; [|destruct SH as [SH _]; contradiction]. destruct k; [|contradiction].
    assert (G : forall kk' s2, s2 = put s 0 kk' -> (kk' = [] \/ exists q, (kk' = [B q] \/ kk' = [X q]) /\ forall f, In f kk' -> fok s f) -> kk' <> [] \/ nth_error (ag s) 0 <> None -> Inv s2 \/ kk' = []).
    { intros kk' s2 -> K _. destruct K as [->|(q & K & Q)]; [right; reflexivity|left]. eapply (Inv_put s 0 [B j] kk'); tv.
      - destruct K as [->| ->]; reflexivity.
      - apply same_hs; [reflexivity|]. intros x. destruct K as [->| ->]; reflexivity.
      - intros _. destruct K as [->| ->]; exact Logic.I.
      - destruct K as [->| ->]; cbn; lia.
      - eapply (TR_keep s _ 0 [B j]); [apply I|exact N| |reflexivity|cbn; lia|reflexivity| |].
        + intros x. cbn. split; intuition discriminate.
        + intros _ p. repeat split; discriminate.
        + lia. }
    destruct j as [|j].
    + injection E as <-. eapply (Inv_put s 0 [B 0] []); tv.
      * apply same_hs; reflexivity.
      * eapply (TR_keep s _ 0 [B 0]); [apply I|exact N| |reflexivity|cbn; lia|reflexivity| |].
        -- intros x. cbn. split; intuition discriminate.
        -- intros _ p. repeat split; discriminate.
        -- lia.
    + destruct (nth_error (ts s) j) as [t|] eqn:Mt; [|discriminate]. destruct (nul t) eqn:NU; injection E as <-.
      * destruct (G [B j] _ eq_refl) as [Q|Q]; [|left; discriminate|exact Q|discriminate]. right. exists j. split; [auto|]. intros f [<-|[]]. cbn. lia.
      * destruct (G [X j] _ eq_refl) as [Q|Q]; [|left; discriminate|exact Q|discriminate]. right. exists j. split; [auto|]. intros f [<-|[]]. cbn. eauto.
  - (* X *)
    destruct i; [|destruct SH as [SH _]; contradiction]. destruct k; [|contradiction]. destruct F as (t & Mt & NU). assert (LT : j < length (ts s)) by (apply nth_error_Some; congruence).
    destruct (nth_error (hs s) j) as [h|] eqn:Mh; [|discriminate]. destruct (lnk h) eqn:LN; injection E as <-.
    + eapply (Inv_put s 0 [X j] [Z j]); tv.
      * cbn. apply set_length.
      * cbn [refs put w_refs w_hs hs]. pose proof (suml_set _ ow _ _ _ (HD (own h) false) Mh) as G. change (ow (HD (own h) false)) with (ow h) in G. cbn in *. lia.
      * eapply set_hs; [exact Mh|reflexivity|reflexivity| | | |].
        -- intros x NE. cbn. rewrite hf_other by assumption. reflexivity.
        -- change (ow (HD (own h) false)) with (ow h). rewrite LN. cbn. rewrite hf_same. lia.
        -- lia.
        -- discriminate.
      * intros f [<-|[]]. exact LT.
      * eapply (TR_keep s _ 0 [X j]); [apply I|exact N| |reflexivity|cbn; lia|reflexivity| |].
        -- intros x. cbn. split; intuition discriminate.
        -- intros _ p. repeat split; discriminate.
        -- lia.
    + eapply (Inv_put s 0 [X j] [B j]); tv.
      * apply same_hs; reflexivity.
      * intros f [<-|[]]. cbn. lia.
      * eapply (TR_keep s _ 0 [X j]); [apply I|exact N| |reflexivity|cbn; lia|reflexivity| |].
        -- intros x. cbn. split; intuition discriminate.
        -- intros _ p. repeat split; discriminate.
        -- lia.
  - (* Z *)
    destruct i; [|destruct SH as [SH _]; contradiction]. destruct k; [|contradiction].
    destruct (nth_error (hs s) j) as [h|] eqn:Mh; [|discriminate]. pose proof (v_own _ I _ _ Mh) as OW. specialize (HG j). cbn [suml hf] in HG. rewrite hf_same in HG.
    assert (OT : ow h = 1) by (unfold ow in *; destruct (own h); cbn in *; lia). injection E as <-.
    pose proof (suml_set _ ow _ _ _ (HD false (lnk h)) Mh) as G. change (ow (HD false (lnk h))) with 0 in G. pose proof (v_ref _ I) as RF.
    eapply (Inv_put s 0 [Z j] [B j]); tv.
    + cbn. apply set_length.
    + eapply set_hs; [exact Mh|reflexivity|reflexivity| | | |].
      * intros x NE. cbn. rewrite hf_other by assumption. reflexivity.
      * change (ow (HD false (lnk h))) with 0. cbn. rewrite hf_same. lia.
      * lia.
      * cbn. auto.
    + intros f [<-|[]]. cbn. lia.
    + eapply (TR_keep s _ 0 [Z j]); [apply I|exact N| |reflexivity|cbn; lia|reflexivity| |].
      * intros x. cbn. split; intuition discriminate.
      * intros _ p. repeat split; discriminate.
      * lia.
  - (* O *)
    destruct i as [|i]; [contradiction|]. destruct SH as [SH (t & Mt & P3)]. destruct k; [|contradiction]. cbn in SH. subst i.
    destruct (nth_error (hs s) j) as [h|] eqn:Mh; [|discriminate]. pose proof (v_own _ I _ _ Mh) as OW. specialize (HG j). cbn [suml hf] in HG. rewrite hf_same in HG.
    assert (OT : ow h = 1) by (unfold ow in *; destruct (own h); cbn in *; lia). injection E as <-.
    pose proof (suml_set _ ow _ _ _ (HD false (lnk h)) Mh) as G. change (ow (HD false (lnk h))) with 0 in G.
    eapply (Inv_put s (S j) [O j] [V j; Rel]); tv.
    + cbn. apply set_length.
    + eapply set_hs; [exact Mh|reflexivity|reflexivity| | | |].
      * intros x NE. cbn. rewrite hf_other by assumption. reflexivity.
      * change (ow (HD false (lnk h))) with 0. cbn. rewrite hf_same. lia.
      * discriminate.
      * cbn. auto.
    + intros f [<-|[<-|[]]]; cbn; [exists t; split; [assumption|right; lia]|exact Logic.I].
    + eapply TR_v; [reflexivity|exact N].
  - (* Rel *)
    destruct i as [|i]; [contradiction|]. destruct SH as [SH _]. destruct k; [|contradiction]. injection E as <-.
    pose proof (v_ref _ I) as RF. pose proof (suml_ge _ (suml rl) _ _ _ N) as GE. cbn in GE.
    eapply (Inv_put s (S i) [Rel] []); tv.
    + apply same_hs; reflexivity.
    + eapply (TR_keep s _ (S i) [Rel]); [apply I|exact N| |reflexivity|cbn; lia|reflexivity| |].
      * intros x. cbn. split; intuition discriminate.
      * discriminate.
      * intros _ k L. exact L.
Qed.
Lemma fok_ts : forall s s' f, length (ts s') = length (ts s) -> (forall k t, nth_error (ts s) k = Some t -> exists t', nth_error (ts s') k = Some t' /\ nul t' = nul t /\ ph t <= ph t') -> (forall k, free s k -> free s' k) -> fok s f -> fok s' f.
Proof.
  intros s s' f E M FR F. destruct f; cbn [fok] in *; rewrite ?E; try exact F.
  - destruct F as [F1 F2]. auto.
  - destruct F as [(t & N & U) F2]. split; [|auto]. destruct (M _ _ N) as (t' & N' & U' & _). exists t'. split; [assumption|congruence].
  - destruct F as (t & N & U). destruct (M _ _ N) as (t' & N' & U' & P). exists t'. split; [assumption|]. destruct U as [U|U]; [left; congruence|right; lia].
  - destruct F as (t & N & U). destruct (M _ _ N) as (t' & N' & U' & _). exists t'. split; [assumption|congruence].
Qed.
Lemma ts_mono : forall s k t t' q, nth_error (ts s) k = Some t -> q = set (ts s) k t' -> nul t' = nul t -> ph t <= ph t' -> forall j x, nth_error (ts s) j = Some x -> exists x', nth_error q j = Some x' /\ nul x' = nul x /\ ph x <= ph x'.
Proof.
  intros s k t t' q N -> E1 E2 j x M. destruct (Nat.eq_dec k j) as [->|NE].
  - exists t'. split; [apply (set_hit _ _ _ _ _ N)|]. replace x with t by congruence. auto.
  - exists x. rewrite nth_set_neq by assumption. auto.
Qed.
Lemma Inv_ts : forall s s' k t t', Inv s -> nth_error (ts s) k = Some t -> ts s' = set (ts s) k t' -> nul t' = nul t -> nul t = false -> ph t <= ph t' -> ph t' <= 3 -> (ph t' = 3 -> forall h, nth_error (hs s) k = Some h -> lnk h = false) ->
  ag s' = ag s -> hs s' = hs s -> refs s' = refs s -> usr s' = usr s -> done s' = done s -> (log s' = log s \/ log s' = log s ++ [EDec k]) -> In (EDec k) (log s') -> Inv s'.
Proof.
  intros s s' k t t' I N ET U1 U0 P1 P2 P3 EA EH ER EU ED EL ID.
  pose proof (ts_mono _ _ _ _ _ N ET U1 P1) as TM.
  assert (IL : incl (log s) (log s')) by (destruct EL as [-> | ->]; [apply incl_refl|apply incl_snoc]).
  assert (C1 : nwin (log s') = nwin (log s)) by (destruct EL as [-> | ->]; rewrite ?nwin_snoc; lia).
  assert (C2 : nres (log s') = nres (log s)) by (destruct EL as [-> | ->]; rewrite ?nres_snoc; lia).
  assert (C3 : nrefs (log s') = nrefs (log s)) by (destruct EL as [-> | ->]; rewrite ?nrefs_snoc; lia).
  assert (C4 : forall x, nref x (log s') = nref x (log s)) by (intros x; destruct EL as [-> | ->]; rewrite ?nref_snoc; lia).
  assert (LE : length (ts s') = length (ts s)) by (rewrite ET; apply set_length).
  assert (LK : forall x, lnkd s' x <-> lnkd s x) by (intros x; unfold lnkd; rewrite EH; reflexivity).
  split.
  - rewrite EA, LE. apply I.
  - rewrite EH, LE. apply I.
  - rewrite ER, EU, EH, EA. apply I.
  - intros j x M. rewrite ET in M. apply nth_set in M. destruct M as [[<- ->]|[_ M]]; [split; [congruence|assumption]|apply (v_t _ I _ _ M)].
  - intros j h M. rewrite EH in M. rewrite EA, C4. apply (v_own _ I _ _ M).
  - intros j Q. apply LK in Q. destruct (v_lnk _ I _ Q) as (x & M & A1 & A2). rewrite ET. destruct (Nat.eq_dec k j) as [->|NE].
    + exists t'. split; [apply (set_hit _ _ _ _ _ N)|]. split; [congruence|]. destruct (Nat.eq_dec (ph t') 3) as [E3|E3]; [|lia]. destruct Q as (h & Mh & LH). specialize (P3 E3 _ Mh). congruence.
    + exists x. rewrite nth_set_neq by assumption. auto.
  - intros j x M Q. rewrite ET in M. apply nth_set in M. destruct M as [[<- ->]|[_ M]]; [assumption|]. apply IL. apply (v_dec _ I _ _ M Q).
  - intros i q f M J. rewrite EA in M. eapply fok_ts; [exact LE|exact TM| |apply (v_f _ I _ _ _ M J)]. intros x Q. unfold free. rewrite EH. exact Q.
  - rewrite EA. apply I.
  - intros i q M. rewrite EA in M. destruct (v_sk _ I _ _ M) as [A1 A2]. split; [assumption|]. intros Q. destruct (A2 Q) as (x & M' & P). destruct (TM _ _ M') as (x' & M2 & _ & P'). exists x'. split; [assumption|].
    rewrite ET in M2. apply nth_set in M2. destruct M2 as [[-> ->]|[_ M2]]; [|congruence]. lia.
  - rewrite EA, C3. apply I.
  - destruct (v_tr _ I) as [T|[T|(p & C & Q)]]; [left; lia|right; left; rewrite EA; exact T|right; right]. exists p. rewrite EA, LE. split; [assumption|]. intros x G. apply LK. auto.
  - rewrite C1, ED. apply I.
  - rewrite C2, ED. apply I.
  - intros l1 x l2 E. assert (OLD : (exists t0, nth_error (ts s) x = Some t0 /\ nul t0 = true) \/ In (EDec x) l1).
    { destruct EL as [EL|EL]; rewrite EL in E; [apply (v_log _ I _ _ _ E)|]. destruct (exists_last (l := ERes x :: l2)) as (q & z & R); [discriminate|]. rewrite R, app_assoc in E. apply app_inj_tail in E. destruct E as [E <-].
      destruct q as [|e q]; [discriminate|]. injection R as <- _. apply (v_log _ I _ _ _ E). }
    destruct OLD as [(t0 & M & Q)|OLD]; [left|right; assumption]. destruct (TM _ _ M) as (x' & M' & Q' & _). exists x'. split; [assumption|congruence].
  - rewrite EU, EA. apply I.
Qed.
Lemma Inv_mv : forall s s' k t h, Inv s -> nth_error (ts s) k = Some t -> ph t = 2 -> nth_error (hs s) k = Some h -> lnk h = true ->
  s' = put (w_hs (w_ts s (set (ts s) k (TK (nul t) 3))) (set (hs s) k (HD (own h) false))) (S k) [O k] -> Inv s'.
Proof.
  intros s s' k t h I N P2 Nh LH ->.
  assert (U0 : nul t = false) by (destruct (nul t) eqn:U; [destruct (v_t _ I _ _ N) as [Q _]; specialize (Q U); lia|reflexivity]).
  assert (KL : k < length (ts s)) by (apply nth_error_Some; congruence).
  destruct (nth_error (ag s) (S k)) as [kk|] eqn:NA; [|apply nth_error_None in NA; rewrite (v_len _ I) in NA; lia].
  assert (KE : kk = []). { destruct kk as [|f kk]; [reflexivity|]. destruct (v_sk _ I _ _ NA) as [_ Q]. destruct Q as (x & M & P); [discriminate|]. rewrite N in M. injection M as <-. lia. }
  subst kk.
  pose proof (ts_mono s _ t (TK (nul t) 3) _ N eq_refl eq_refl ltac:(cbn; lia)) as TM.
  pose proof (v_own _ I _ _ Nh) as OW. rewrite LH in OW. assert (OT : ow h = 1) by (unfold ow in *; destruct (own h); cbn in *; lia).
  assert (SH : forall f, suml (suml f) (set (ag s) (S k) [O k]) = suml (suml f) (ag s) + f (O k)).
  { intros f. pose proof (suml_set _ (suml f) _ _ _ [O k] NA) as G. cbn in G |- *. lia. }
  assert (SO : suml ow (set (hs s) k (HD (own h) false)) = suml ow (hs s)).
  { pose proof (suml_set _ ow _ _ _ (HD (own h) false) Nh) as G. change (ow (HD (own h) false)) with (ow h) in G. lia. }
  split; cbn [ts hs done refs usr ag log put w_ts w_hs].
  - rewrite !set_length. apply I.
  - rewrite !set_length. apply I.
  - rewrite SH, SO. cbn. rewrite Nat.add_0_r. apply I.
  - intros j x M. apply nth_set in M. destruct M as [[<- ->]|[_ M]]; [cbn; split; [congruence|lia]|apply (v_t _ I _ _ M)].
  - intros j h' M. rewrite SH. apply nth_set in M. destruct M as [[<- ->]|[NE M]].
    + change (ow (HD (own h) false)) with (ow h). cbn. rewrite hf_same. cbn in OW. lia.
    + cbn. rewrite hf_other by congruence. rewrite Nat.add_0_r. apply (v_own _ I _ _ M).
  - intros j (h' & M & Q). cbn in M. apply nth_set in M. destruct M as [[<- ->]|[NE M]]; [discriminate|]. destruct (v_lnk _ I j) as (x & M' & A1 & A2); [exists h'; auto|]. exists x. rewrite nth_set_neq by congruence. auto.
  - intros j x M Q. apply nth_set in M. destruct M as [[<- ->]|[_ M]]; [apply (v_dec _ I _ _ N); lia|apply (v_dec _ I _ _ M Q)].
  - intros i q f M J. apply nth_set in M. destruct M as [[<- ->]|[NE M]].
    + destruct J as [<-|[]]. cbn. rewrite set_length. assumption.
    + eapply (fok_ts s); [cbn; apply set_length|exact TM| |apply (v_f _ I _ _ _ M J)]. intros x Q h' M'. cbn in M'. apply nth_set in M'. destruct M' as [[<- ->]|[_ M']]; [cbn; apply (Q _ Nh)|apply (Q _ M')].
  - intros q M. apply nth_set in M. destruct M as [[EQ _]|[_ M]]; [discriminate|apply (v_s0 _ I _ M)].
  - intros i q M. apply nth_set in M. destruct M as [[EQ ->]|[_ M]].
    + injection EQ as <-. split; [reflexivity|]. intros _. exists (TK (nul t) 3). split; [apply (set_hit _ _ _ _ _ N)|reflexivity].
    + destruct (v_sk _ I _ _ M) as [A1 A2]. split; [assumption|]. intros Q. destruct (A2 Q) as (x & M' & P). destruct (TM _ _ M') as (x' & M2 & _ & P'). exists x'. split; [assumption|].
      apply nth_set in M2. destruct M2 as [[<- ->]|[_ M2]]; [reflexivity|congruence].
  - rewrite SH. cbn. rewrite Nat.add_0_r. apply I.
  - right. left. exists (S k), [O k], k. split; [cbn [ag put]; apply (set_hit _ _ _ _ _ NA)|right; left; reflexivity].
  - apply I.
  - apply I.
  - intros l1 x l2 E. destruct (v_log _ I _ _ _ E) as [(t0 & M & Q)|OLD]; [left|right; assumption]. destruct (TM _ _ M) as (x' & M' & Q' & _). exists x'. split; [assumption|congruence].
  - destruct (v_0 _ I) as [U|U]; [left; assumption|right]. destruct (ag s); [discriminate|exact U].
Qed.
Lemma exec_inv : forall s a s', Inv s -> exec s a = Some s' -> Inv s'.
Proof.
  intros s [i|k|k|k| |] s' I E; cbn [exec] in E.
  - destruct (nth_error (ag s) i) as [[|f k]|] eqn:N; try discriminate. eapply step_inv; eauto.
  - destruct (nth_error (ts s) k) as [t|] eqn:N; [|discriminate]. destruct (nul t) eqn:U; [discriminate|]. cbn [negb andb] in E. destruct (Nat.eqb_spec (ph t) 0) as [P|P]; [|discriminate]. injection E as <-.
    eapply (Inv_ts s _ k t (TK false 1)); eauto; cbn; try lia; try congruence. apply in_or_app. right. left. reflexivity.
  - destruct (nth_error (ts s) k) as [t|] eqn:N; [|discriminate]. destruct (Nat.eqb_spec (ph t) 1) as [P|P]; [|discriminate]. injection E as <-.
    assert (U0 : nul t = false) by (destruct (nul t) eqn:U; [destruct (v_t _ I _ _ N) as [Q _]; specialize (Q U); lia|reflexivity]).
    eapply (Inv_ts s _ k t (TK (nul t) 2)); eauto; cbn; try lia; try congruence. apply (v_dec _ I _ _ N). lia.
  - destruct (nth_error (ts s) k) as [t|] eqn:N; [|discriminate]. destruct (nth_error (hs s) k) as [h|] eqn:Nh; [|discriminate]. destruct (Nat.eqb_spec (ph t) 2) as [P|P]; [|discriminate]. cbv zeta in E.
    destruct (lnk h) eqn:LH; injection E as <-; [eapply Inv_mv; eauto|].
    assert (U0 : nul t = false) by (destruct (nul t) eqn:U; [destruct (v_t _ I _ _ N) as [Q _]; specialize (Q U); lia|reflexivity]).
    eapply (Inv_ts s _ k t (TK (nul t) 3)); eauto; cbn; try lia; try congruence. apply (v_dec _ I _ _ N). lia.
  - destruct (usr s); [|discriminate]. injection E as <-. destruct I as [a b c d e f g h i j k l m n o p]. split; cbn; auto. destruct (done s); cbn in *; lia.
  - destruct (usr s) eqn:U; [|discriminate]. destruct (nth_error (ag s) 0) as [[|]|] eqn:N; try discriminate. injection E as <-. destruct I as [a b c d e f g h i j k l m n o p].
    split; cbn; auto. rewrite c, U. cbn. lia.
Qed.
Lemma init_inv : forall nuls, Inv (init nuls).
Proof.
  intros nuls. assert (H0 : forall k h, nth_error (repeat (HD false false) (length nuls)) k = Some h -> h = HD false false) by (intros k h N; apply nth_error_In in N; apply repeat_spec in N; assumption).
  split; cbn [init ts hs done refs usr ag log].
  - cbn. rewrite repeat_length, map_length. reflexivity.
  - rewrite repeat_length, map_length. reflexivity.
  - cbn. rewrite !suml_repeat by reflexivity. cbn. lia.
  - intros k t N. rewrite nth_error_map in N. destruct (nth_error nuls k); [|discriminate]. injection N as <-. cbn. auto.
  - intros k h N. rewrite (H0 _ _ N). cbn. rewrite suml_repeat by reflexivity. reflexivity.
  - intros k (h & N & Q). cbn in N. rewrite (H0 _ _ N) in Q. discriminate.
  - intros k t N P. rewrite nth_error_map in N. destruct (nth_error nuls k); [|discriminate]. injection N as <-. cbn in P. lia.
  - intros i k f N J. destruct i; cbn in N.
    + injection N as <-. destruct J as [<-|[]]. cbn. split; [lia|]. intros k _ h M. rewrite (H0 _ _ M). reflexivity.
    + apply nth_error_In in N. apply repeat_spec in N. subst k. destruct J.
  - intros k N. injection N as <-. exact Logic.I.
  - intros i k N. cbn in N. apply nth_error_In in N. apply repeat_spec in N. subst k. split; [exact Logic.I|congruence].
  - cbn. rewrite suml_repeat by reflexivity. unfold nrefs. cbn. lia.
  - right. right. exists 0. split; [left; reflexivity|]. intros k G. lia.
  - unfold nwin. cbn. lia.
  - unfold nres. cbn. lia.
  - intros l1 k l2 E. destruct l1; discriminate.
  - left. reflexivity.
Qed.
Lemma run_inv : forall l s s', Inv s -> run s l = Some s' -> Inv s'.
Proof. induction l as [|a l IH]; intros s s' I H; cbn in H; [injection H as <-; assumption|]. destruct (exec s a) as [s1|] eqn:E; [|discriminate]. eapply IH; [|exact H]. eapply exec_inv; eauto. Qed.
Lemma reach_inv : forall nuls l s, run (init nuls) l = Some s -> Inv s.
Proof. intros nuls l s H. eapply run_inv; [apply init_inv|exact H]. Qed.
Lemma run_nul : forall l s s', run s l = Some s' -> map nul (ts s') = map nul (ts s).
Proof.
  assert (S1 : forall l k t t', nth_error l k = Some t -> nul t' = nul t -> map nul (set l k t') = map nul l) by (induction l as [|x l IH]; intros [|k] t t' N E; cbn in *; try discriminate; [injection N as ->; congruence|f_equal; eapply IH; eassumption]).
  induction l as [|a l IH]; intros s s' H; cbn [run] in H; [injection H as <-; reflexivity|]. destruct (exec s a) as [s1|] eqn:E; [|discriminate]. rewrite (IH _ _ H). clear IH H.
  destruct a as [i|k|k|k| |]; cbn [exec] in E.
  - destruct (nth_error (ag s) i) as [[|f k]|]; try discriminate. destruct f; cbn [step] in E;
      repeat match goal with H : context [match ?x with _ => _ end] |- _ => destruct x; try discriminate end; injection E as <-; reflexivity.
  - destruct (nth_error (ts s) k) as [t|] eqn:N; [|discriminate]. destruct (nul t) eqn:U; [discriminate|]. destruct (_ && _); [|discriminate]. injection E as <-. cbn. eapply S1; [exact N|]. cbn. congruence.
  - destruct (nth_error (ts s) k) as [t|] eqn:N; [|discriminate]. destruct (_ =? _); [|discriminate]. injection E as <-. cbn. eapply S1; [exact N|reflexivity].
  - destruct (nth_error (ts s) k) as [t|] eqn:N; [|discriminate]. destruct (nth_error (hs s) k) as [h|]; [|discriminate]. destruct (_ =? 2); [|discriminate]. destruct (lnk h); injection E as <-; cbn; (eapply S1; [exact N|reflexivity]).
  - destruct (usr s); [|discriminate]. injection E as <-. reflexivity.
  - destruct (usr s); [|discriminate]. destruct (nth_error (ag s) 0) as [[|]|]; try discriminate. injection E as <-. reflexivity.
Qed.
Lemma reach_nul : forall nuls l s, run (init nuls) l = Some s -> map nul (ts s) = nuls.
Proof. intros nuls l s H. rewrite (run_nul _ _ _ H). cbn [init ts]. rewrite map_map. cbn. apply map_id. Qed.
Definition emp (t : task) : nat := if ph t =? 3 then 0 else 3.
Definition wt (n : nat) (f : frame) : nat :=
  match f with
  | L j => 2 * (n - j) + 3 * n + 4 | A j => 2 * (n - j) + 3 * n + 3 | V _ => 1
  | B j => 3 * j + 1 | X j => 3 * j + 3 | Z j => 3 * j + 2 | O _ => 3 | Rel => 1
  end.
Definition measure (s : st) : nat := suml (suml (wt (length (ts s)))) (ag s) + suml emp (ts s).
Definition isstep (a : act) : bool := match a with Step _ => true | _ => false end.
Lemma exec_measure : forall s a s', Inv s -> exec s a = Some s' -> measure s' + (if isstep a then 1 else 0) <= measure s.
Proof.
  intros s [i|k|k|k| |] s' I E; cbn [exec isstep] in *.
  - destruct (nth_error (ag s) i) as [[|f k]|] eqn:N; try discriminate. pose proof (v_f _ I _ _ f N (or_introl eq_refl)) as F.
    assert (P : forall k' s2, ag s2 = set (ag s) i k' -> ts s2 = ts s -> suml (wt (length (ts s))) k' + 1 <= suml (wt (length (ts s))) (f :: k) -> measure s2 + 1 <= measure s).
    { intros k' s2 EA ET Q. unfold measure. rewrite EA, ET. pose proof (suml_set _ (suml (wt (length (ts s)))) _ _ _ k' N). lia. }
    destruct f as [j|j|j|j|j|j|j|]; cbn [step fok] in *.
    + destruct F as [FJ _]. destruct (nth_error (ts s) j) as [t|] eqn:Mt; [|injection E as <-; eapply P; [reflexivity|reflexivity|cbn; lia]].
      assert (LT : j < length (ts s)) by (apply nth_error_Some; congruence).
      destruct (nth_error (hs s) j) as [h|]; [|injection E as <-; eapply P; [reflexivity|reflexivity|cbn; lia]]. destruct (nul t); injection E as <-; (eapply P; [reflexivity|reflexivity|cbn [suml wt]; lia]).
    + destruct F as [(t & Mt & _) _]. rewrite Mt in E. assert (LT : j < length (ts s)) by (apply nth_error_Some; congruence). destruct (nth_error (hs s) j); [|discriminate]. destruct (_ =? 0); injection E as <-; (eapply P; [reflexivity|reflexivity|cbn [suml wt]; lia]).
    + destruct (done s); injection E as <-; (eapply P; [reflexivity|reflexivity|cbn [suml wt]; lia]).
    + destruct j as [|j]; [injection E as <-; eapply P; [reflexivity|reflexivity|cbn [suml wt]; lia]|]. destruct (nth_error (ts s) j) as [t|]; [|discriminate]. destruct (nul t); injection E as <-; (eapply P; [reflexivity|reflexivity|cbn [suml wt]; lia]).
    + destruct (nth_error (hs s) j) as [h|]; [|discriminate]. destruct (lnk h); injection E as <-; (eapply P; [reflexivity|reflexivity|cbn [suml wt]; lia]).
    + destruct (nth_error (hs s) j) as [h|]; [|discriminate]. injection E as <-; (eapply P; [reflexivity|reflexivity|cbn [suml wt]; lia]).
    + destruct (nth_error (hs s) j) as [h|]; [|discriminate]. injection E as <-; (eapply P; [reflexivity|reflexivity|cbn [suml wt]; lia]).
    + injection E as <-; (eapply P; [reflexivity|reflexivity|cbn [suml wt]; lia]).
  - destruct (nth_error (ts s) k) as [t|] eqn:N; [|discriminate]. destruct (nul t); [discriminate|]. cbn [negb andb] in E. destruct (Nat.eqb_spec (ph t) 0) as [P|P]; [|discriminate]. injection E as <-.
    unfold measure. cbn [ts ag say w_ts]. rewrite set_length. pose proof (suml_set _ emp _ _ _ (TK false 1) N) as G. unfold emp at 2 4 in G. rewrite P in G. cbn in G. lia.
  - destruct (nth_error (ts s) k) as [t|] eqn:N; [|discriminate]. destruct (Nat.eqb_spec (ph t) 1) as [P|P]; [|discriminate]. injection E as <-.
    unfold measure. cbn [ts ag say w_ts]. rewrite set_length. pose proof (suml_set _ emp _ _ _ (TK (nul t) 2) N) as G. unfold emp at 2 4 in G. rewrite P in G. cbn in G. lia.
  - destruct (nth_error (ts s) k) as [t|] eqn:N; [|discriminate]. destruct (nth_error (hs s) k) as [h|] eqn:Nh; [|discriminate]. destruct (Nat.eqb_spec (ph t) 2) as [P|P]; [|discriminate]. cbv zeta in E.
    pose proof (suml_set _ emp _ _ _ (TK (nul t) 3) N) as G. unfold emp at 2 4 in G. rewrite P in G. cbn in G. destruct (lnk h); injection E as <-; unfold measure; cbn [ts ag put w_hs w_ts]; rewrite set_length; [|lia].
    destruct (nth_error (ag s) (S k)) as [kk|] eqn:NA.
    + pose proof (suml_set _ (suml (wt (length (ts s)))) _ _ _ [O k] NA) as G'. cbn [suml wt] in G'. lia.
    + apply nth_error_None in NA. assert (k < length (ts s)) by (apply nth_error_Some; congruence). rewrite (v_len _ I) in NA. lia.
  - destruct (usr s); [|discriminate]. injection E as <-. unfold measure. cbn. lia.
  - destruct (usr s); [|discriminate]. destruct (nth_error (ag s) 0) as [[|]|]; try discriminate. injection E as <-. unfold measure. cbn. lia.
Qed.
Lemma steps_bound : forall l s s', Inv s -> run s l = Some s' -> measure s' + length (filter isstep l) <= measure s.
Proof.
  induction l as [|a l IH]; intros s s' I H; cbn [run filter] in *; [injection H as <-; cbn; lia|]. destruct (exec s a) as [s1|] eqn:E; [|discriminate]. specialize (IH _ _ (exec_inv _ _ _ I E) H). pose proof (exec_measure _ _ _ I E). destruct (isstep a); cbn [length]; lia.
Qed.
Lemma run_eref : forall l s s', Inv s -> (forall k, In (ERef k) (log s) -> k < length (ts s)) -> run s l = Some s' -> forall k, In (ERef k) (log s') -> k < length (ts s').
Proof.
  induction l as [|a l IH]; intros s s' I Q H; cbn [run] in H; [injection H as <-; assumption|]. destruct (exec s a) as [s1|] eqn:E; [|discriminate]. apply (IH s1); [eapply exec_inv; eauto| |exact H]. clear IH H. intros k J.
  assert (LT : length (ts s1) = length (ts s)).
  { assert (R : run s [a] = Some s1) by (cbn; rewrite E; reflexivity). apply run_nul in R. apply (f_equal (@length bool)) in R. rewrite !map_length in R. assumption. }
  rewrite LT. destruct (in_dec (fun x y : event => ltac:(decide equality; apply Nat.eq_dec)) (ERef k) (log s)) as [J'|NJ]; [auto|].
  destruct a as [i|x|x|x| |]; cbn [exec] in E.
  - destruct (nth_error (ag s) i) as [[|f kk]|] eqn:N; try discriminate. pose proof (v_f _ I _ _ f N (or_introl eq_refl)) as F. destruct f as [j|j|j|j|j|j|j|]; cbn [step fok] in *.
    2:{ destruct F as [(t & Mt & _) _]. rewrite Mt in E. destruct (nth_error (hs s) j); [|discriminate]. destruct (_ =? 0); injection E as <-; [contradiction (NJ J)|]. cbn [log say put] in J. apply in_snoc in J. destruct J as [J|J]; [contradiction (NJ J)|]. injection J as ->. apply nth_error_Some. congruence. }
    all: exfalso; apply NJ; repeat match goal with H : context [match ?x with _ => _ end] |- _ => destruct x; try discriminate end; injection E as <-; cbn [log say put w_refs w_hs w_done] in J; first [assumption|apply in_snoc in J; destruct J as [J|J]; [assumption|discriminate]].
  - exfalso. apply NJ. repeat match goal with H : context [match ?x with _ => _ end] |- _ => destruct x; try discriminate end; injection E as <-; cbn [log say put w_ts] in J. apply in_snoc in J. destruct J as [J|J]; [assumption|discriminate].
  - exfalso. apply NJ. repeat match goal with H : context [match ?x with _ => _ end] |- _ => destruct x; try discriminate end; injection E as <-; exact J.
  - exfalso. apply NJ. repeat match goal with H : context [match ?x with _ => _ end] |- _ => destruct x; try discriminate end; injection E as <-; exact J.
  - exfalso. apply NJ. repeat match goal with H : context [match ?x with _ => _ end] |- _ => destruct x; try discriminate end; injection E as <-; exact J.
  - exfalso. apply NJ. repeat match goal with H : context [match ?x with _ => _ end] |- _ => destruct x; try discriminate end; injection E as <-; exact J.
Qed.
Lemma run_done : forall l s s', run s l = Some s' -> done s' = true -> done s = true \/ nwin (log s') > nwin (log s) \/ In Cancel l.
Proof.
  induction l as [|a l IH]; intros s s' H D; cbn [run] in H; [injection H as <-; auto|]. destruct (exec s a) as [s1|] eqn:E; [|discriminate].
  assert (M : nwin (log s) <= nwin (log s1) /\ (done s1 = true -> done s = true \/ nwin (log s1) > nwin (log s) \/ a = Cancel)).
  { destruct a as [i|x|x|x| |]; cbn [exec] in E.
    - destruct (nth_error (ag s) i) as [[|f kk]|] eqn:N; try discriminate. destruct f; cbn [step] in E;
      repeat match goal with H : context [match ?x with _ => _ end] |- _ => destruct x eqn:?; try discriminate end; injection E as <-; cbn [log done say put w_refs w_hs w_done]; rewrite ?nwin_snoc; split; try lia; intros ?; auto; right; left; lia.
    - repeat match goal with H : context [match ?x with _ => _ end] |- _ => destruct x eqn:?; try discriminate end; injection E as <-; cbn [log done say w_ts]; rewrite ?nwin_snoc; split; auto; lia.
    - repeat match goal with H : context [match ?x with _ => _ end] |- _ => destruct x eqn:?; try discriminate end; injection E as <-; cbn [log done say w_ts]; split; auto; lia.
    - repeat match goal with H : context [match ?x with _ => _ end] |- _ => destruct x eqn:?; try discriminate end; injection E as <-; cbn; split; auto; lia.
    - repeat match goal with H : context [match ?x with _ => _ end] |- _ => destruct x eqn:?; try discriminate end; injection E as <-; cbn; split; auto; lia.
    - repeat match goal with H : context [match ?x with _ => _ end] |- _ => destruct x eqn:?; try discriminate end; injection E as <-; cbn; split; auto; lia. }
  destruct M as [M1 M2]. destruct (IH _ _ H D) as [Q|[Q|Q]]; [|right; left; lia|right; right; right; assumption]. destruct (M2 Q) as [R|[R| ->]]; [auto| |right; right; left; reflexivity].
  right. left. clear -R H. revert s1 R H. induction l as [|b l IH]; intros s1 R H; cbn [run] in H; [injection H as <-; assumption|]. destruct (exec s1 b) as [s2|] eqn:E; [|discriminate]. apply (IH s2); [|assumption].
  assert (nwin (log s1) <= nwin (log s2)); [|lia].
  destruct b as [i|x|x|x| |]; cbn [exec] in E; try (destruct (nth_error (ag s1) i) as [[|f kk]|]; try discriminate; destruct f; cbn [step] in E);
    repeat match goal with H : context [match ?x with _ => _ end] |- _ => destruct x eqn:?; try discriminate end; injection E as <-; cbn [log done say put w_refs w_hs w_done w_ts w_usr]; rewrite ?nwin_snoc; lia.
Qed.
Lemma suml_z : forall T (f : T -> nat) l, (forall x, In x l -> f x = 0) -> suml f l = 0.
Proof. induction l as [|x l IH]; intros H; cbn; [reflexivity|]. rewrite (H x) by (left; reflexivity). apply IH. intros y J. apply H. right. assumption. Qed.
Lemma suml_one : forall T (f : T -> nat) l k x y, nth_error l k = Some x -> f x = 1 -> f y = 0 -> (forall j z, nth_error l j = Some z -> j <> k -> f z = 0) -> suml f l = 1.
Proof.
  intros T f l k x y N E1 E0 H. pose proof (suml_set _ f _ _ _ y N) as G. assert (Z : suml f (set l k y) = 0); [|lia].
  apply suml_z. intros z J. apply In_nth_error in J. destruct J as (j & M). apply nth_set in M. destruct M as [[_ ->]|[NE M]]; [assumption|]. apply (H j z M). congruence.
Qed.

(** * Theorems *)
(** The operation is completed by WhenAny at most once, with the index of a task that had been decided
    before or of an empty one. *)
Theorem C53_once : forall nuls l s, run (init nuls) l = Some s -> nwin (log s) <= 1 /\
  forall l1 k l2, log s = l1 ++ ERes k :: l2 -> nth_error nuls k = Some true \/ (nth_error nuls k = Some false /\ In (EDec k) l1).
Proof.
  intros nuls l s H. pose proof (reach_inv _ _ _ H) as I. split; [pose proof (v_one _ I); destruct (done s); cbn in *; lia|].
  intros l1 k l2 E. pose proof (reach_nul _ _ _ H) as U. pose proof (v_log _ I _ _ _ E) as R.
  destruct (nth_error nuls k) as [[|]|] eqn:N; [left; reflexivity| |].
  - right. split; [reflexivity|]. destruct R as [(t & M & Q)|R]; [|assumption]. rewrite <- U, nth_error_map, M in N. cbn in N. congruence.
  - exfalso. assert (B : k < length (ts s)).
    { destruct R as [(t & M & _)|R]; [apply nth_error_Some; congruence|].
      assert (D : forall l s s', run s l = Some s' -> (forall k, In (EDec k) (log s) -> k < length (ts s)) -> forall k, In (EDec k) (log s') -> k < length (ts s')).
      { clear. induction l as [|a l IH]; intros s s' H Q; cbn [run] in H; [injection H as <-; assumption|]. destruct (exec s a) as [s1|] eqn:E; [|discriminate]. apply (IH s1); [exact H|]. clear IH H. intros k J.
        assert (LT : length (ts s1) = length (ts s)).
        { assert (R : run s [a] = Some s1) by (cbn; rewrite E; reflexivity). apply run_nul in R. apply (f_equal (@length bool)) in R. rewrite !map_length in R. assumption. }
        rewrite LT. destruct a as [i|x|x|x| |]; cbn [exec] in E.
        - destruct (nth_error (ag s) i) as [[|f kk]|] eqn:N; try discriminate. destruct f; cbn [step] in E; repeat match goal with H : context [match ?x with _ => _ end] |- _ => destruct x; try discriminate end; injection E as <-; cbn [log say put w_refs w_hs w_done] in J; try apply in_snoc in J; auto; destruct J as [J|J]; try discriminate; auto.
        - destruct (nth_error (ts s) x) as [t|] eqn:N; [|discriminate]. destruct (_ && _); [|discriminate]. injection E as <-. cbn [log say w_ts] in J. apply in_snoc in J. destruct J as [J|J]; [auto|]. injection J as ->. apply nth_error_Some. congruence.
        - repeat match goal with H : context [match ?x with _ => _ end] |- _ => destruct x; try discriminate end; injection E as <-; auto.
        - repeat match goal with H : context [match ?x with _ => _ end] |- _ => destruct x; try discriminate end; injection E as <-; auto.
        - repeat match goal with H : context [match ?x with _ => _ end] |- _ => destruct x; try discriminate end; injection E as <-; auto.
        - repeat match goal with H : context [match ?x with _ => _ end] |- _ => destruct x; try discriminate end; injection E as <-; auto. }
      apply (D _ _ _ H); [intros ? []|]. rewrite E. apply in_or_app. left. assumption. }
    apply nth_error_None in N. rewrite <- U, map_length in N. lia.
Qed.
(** The object is alive while a thread is in its code, while a task may call a handler in it, and while
    its user holds it. *)
Theorem C53_alive : forall nuls l s, run (init nuls) l = Some s ->
  (exists i f k, nth_error (ag s) i = Some (f :: k)) \/ (exists h, In h (hs s) /\ lnk h = true) \/ usr s = true -> 0 < refs s.
Proof.
  intros nuls l s H C. pose proof (reach_inv _ _ _ H) as I. rewrite (v_ref _ I).
  assert (OW : forall k h, nth_error (hs s) k = Some h -> 0 < ow h -> 0 < suml ow (hs s)) by (intros k h N Q; pose proof (suml_ge _ ow _ _ _ N); lia).
  destruct C as [(i & f & k & N)|[(h & J & Q)|U]]; [| |rewrite U; cbn; lia].
  - destruct i as [|i]; [destruct (v_0 _ I) as [U|U]; [rewrite U; cbn; lia|congruence]|]. destruct (v_sk _ I _ _ N) as [SH _]. pose proof (suml_ge _ (suml rl) _ _ _ N) as GR. pose proof (v_f _ I _ _ f N (or_introl eq_refl)) as F.
    destruct f; try contradiction; destruct k as [|[] [|? ?]]; try contradiction; cbn [suml rl] in GR; try lia.
    cbn in F. destruct (nth_error (hs s) k0) as [h|] eqn:Nh; [|apply nth_error_None in Nh; rewrite (v_hl _ I) in Nh; lia].
    pose proof (suml_ge _ (suml (hf k0)) _ _ _ N) as GH. cbn [suml hf] in GH. rewrite hf_same in GH. pose proof (v_own _ I _ _ Nh). specialize (OW _ _ Nh). lia.
  - apply In_nth_error in J. destruct J as (k & N). pose proof (v_own _ I _ _ N) as R. rewrite Q in R. cbn [b1] in R. specialize (OW _ _ N). lia.
Qed.
(** When some task is empty or has called its handlers, and no call is in progress, the operation is
    completed; by WhenAny unless it was cancelled. *)
Theorem C53_complete : forall nuls l s, run (init nuls) l = Some s -> idle s -> (exists t, In t (ts s) /\ (nul t = true \/ ph t = 3)) ->
  done s = true /\ (~ In Cancel l -> exists k, In (ERes k) (log s)).
Proof.
  intros nuls l s H D (t & J & C). pose proof (reach_inv _ _ _ H) as I. assert (DN : done s = true).
  { apply (v_done _ I). destruct (v_tr _ I) as [T|[(i & k & j & M & Q)|(p & Q1 & Q2)]]; [assumption|rewrite (D _ _ M) in Q; destruct Q as [[]|[]]|].
    exfalso. destruct Q1 as [Q1|[Q1|[_ ->]]]; [specialize (D _ _ Q1); discriminate|specialize (D _ _ Q1); discriminate|].
    apply In_nth_error in J. destruct J as (k & N). assert (LT : k < length (ts s)) by (apply nth_error_Some; congruence). destruct (v_lnk _ I _ (Q2 _ LT)) as (t' & N' & U & P). rewrite N in N'. injection N' as <-. destruct C; [congruence|lia]. }
  split; [assumption|]. intros NC. destruct (run_done _ _ _ H DN) as [Q|[Q|Q]]; [discriminate| |contradiction].
  cbn [init log] in Q. unfold nwin in Q. destruct (filter _ (log s)) as [|e q] eqn:E; [cbn in Q; lia|]. assert (JE : In e (e :: q)) by (left; reflexivity). rewrite <- E in JE. apply filter_In in JE. destruct JE as [JE K]. destruct e; try discriminate. exists k. assumption.
Qed.
(** What is left at the end: nothing, unless a handler was refused by a task that had already been
    decided; then the operation keeps one reference to itself. *)
Theorem C53_exact : forall nuls l s, run (init nuls) l = Some s -> idle s -> usr s = false -> all_called s ->
  ((forall k, ~ In (ERef k) (log s)) -> refs s = 0) /\ (forall k, In (ERef k) (log s) -> refs s = 1).
Proof.
  intros nuls l s H D U A. pose proof (reach_inv _ _ _ H) as I.
  assert (Z : forall f, suml (suml f) (ag s) = 0) by (intros f; apply suml_z; intros k J; apply In_nth_error in J; destruct J as (i & N); rewrite (D _ _ N); reflexivity).
  assert (OW : forall k h, nth_error (hs s) k = Some h -> ow h = nref k (log s)).
  { intros k h N. rewrite (v_own _ I _ _ N), Z. destruct (lnk h) eqn:LH; [|cbn; lia]. exfalso. destruct (v_lnk _ I k) as (t & M & NU & P); [exists h; auto|]. apply nth_error_In in M. destruct (A _ M); [congruence|lia]. }
  rewrite (v_ref _ I), U, Z. cbn [b1].
  assert (NI : forall k, ~ In (ERef k) (log s) -> nref k (log s) = 0).
  { intros k NJ. unfold nref. destruct (filter _ (log s)) as [|e q] eqn:E; [reflexivity|]. exfalso. assert (JE : In e (e :: q)) by (left; reflexivity). rewrite <- E in JE. apply filter_In in JE. destruct JE as [JE K]. destruct e; try discriminate. apply Nat.eqb_eq in K. subst. contradiction. }
  split.
  - intros NR. assert (ZO : suml ow (hs s) = 0); [|lia]. apply suml_z. intros h J. apply In_nth_error in J. destruct J as (k & N). rewrite (OW _ _ N). apply NI. apply NR.
  - intros k J. assert (LT : k < length (ts s)). { apply (run_eref l (init nuls)) with (k := k) in H; auto using init_inv. intros ? []. }
    destruct (nth_error (hs s) k) as [h|] eqn:N; [|apply nth_error_None in N; rewrite (v_hl _ I) in N; lia].
    assert (NR1 : nrefs (log s) <= 1) by (pose proof (v_nr _ I); lia).
    apply in_split in J. destruct J as (l1 & l2 & E).
    assert (C : forall j, nref j (log s) = nref j l1 + b1 (k =? j) + nref j l2) by (intros j; rewrite E; unfold nref; rewrite filter_app, app_length; cbn [filter]; destruct (k =? j); cbn; lia).
    assert (C' : nrefs l1 + nrefs l2 = 0) by (rewrite E in NR1; unfold nrefs in *; rewrite filter_app, app_length in NR1; cbn in NR1; lia).
    assert (LE : forall j q, nref j q <= nrefs q) by (intros j q; unfold nref, nrefs; clear; induction q as [|[] q IH]; cbn; try lia; match goal with |- context [?a =? ?b] => destruct (a =? b) end; cbn; lia).
    assert (S1 : suml ow (hs s) = 1); [|lia]. apply (suml_one _ ow _ k h (HD false false) N).
    + rewrite (OW _ _ N), C, hf_same. pose proof (LE k l1). pose proof (LE k l2). lia.
    + reflexivity.
    + intros j z M NE. rewrite (OW _ _ M), C, hf_other by congruence. pose proof (LE j l1). pose proof (LE j l2). lia.
Qed.
(** WhenAny releases all its references when no task had been decided before its handler was added. *)
Theorem C53_partial : forall nuls l s, run (init nuls) l = Some s -> idle s -> usr s = false -> all_called s -> (forall k, ~ In (ERef k) (log s)) -> refs s = 0.
Proof. intros nuls l s H D U A N. apply (C53_exact _ _ _ H D U A). assumption. Qed.
(** WhenAny of one task that has already completed: it completes with index 0, and its object is never
    freed. *)
Theorem C53_refuted : exists l, match run (init [false]) l with
  | Some s => idle s /\ all_called s /\ usr s = false /\ In (ERes 0) (log s) /\ refs s = 1 | None => False end.
Proof.
  exists [Decide 0; Write 0; Move 0; Step 0; Step 0; Step 0; Step 0; Drop].
  vm_compute. split; [intros [|[|[|i]]] k N; cbn in N; congruence|]. split; [intros t [<-|[]]; right; reflexivity|]. auto 6.
Qed.
Theorem C53_bounded : forall nuls l s, run (init nuls) l = Some s -> length (filter isstep l) <= 8 * length nuls + 4.
Proof.
  intros nuls l s H. pose proof (steps_bound _ _ _ (init_inv _) H) as Q. unfold measure in Q at 2. cbn [init ag ts suml] in Q. rewrite suml_repeat in Q by reflexivity. cbn [suml wt] in Q. rewrite map_length in Q.
  assert (M : forall q, suml emp (map (fun b => TK b 0) q) = 3 * length q) by (induction q; cbn in *; lia). rewrite M in Q. lia.
Qed.
(** A thread in the code of the operation can always go on. *)
Theorem C53_progress : forall nuls l s i f k, run (init nuls) l = Some s -> nth_error (ag s) i = Some (f :: k) -> exists s', exec s (Step i) = Some s'.
Proof.
  intros nuls l s i f k H N. pose proof (reach_inv _ _ _ H) as I. pose proof (v_f _ I _ _ f N (or_introl eq_refl)) as F. cbn [exec]. rewrite N.
  assert (HS : forall j, j < length (ts s) -> exists h, nth_error (hs s) j = Some h).
  { intros j LT. destruct (nth_error (hs s) j) as [h|] eqn:M; [eauto|]. apply nth_error_None in M. rewrite (v_hl _ I) in M. lia. }
  destruct f as [j|j|j|j|j|j|j|]; cbn [step fok] in *.
  - destruct (nth_error (ts s) j) as [t|]; [|eauto]. destruct (nth_error (hs s) j); [|eauto]. destruct (nul t); eauto.
  - destruct F as [(t & M & _) _]. rewrite M. destruct (HS j) as (h & Mh); [apply nth_error_Some; congruence|]. rewrite Mh. destruct (_ =? 0); eauto.
  - destruct (done s); eauto.
  - destruct j as [|j]; [eauto|]. destruct (nth_error (ts s) j) as [t|] eqn:M; [|apply nth_error_None in M; lia]. destruct (nul t); eauto.
  - destruct F as (t & M & _). destruct (HS j) as (h & Mh); [apply nth_error_Some; congruence|]. rewrite Mh. destruct (lnk h); eauto.
  - destruct (HS j F) as (h & Mh). rewrite Mh. eauto.
  - destruct (HS j F) as (h & Mh). rewrite Mh. eauto.
  - eauto.
Qed.
Print Assumptions C53_once.
Print Assumptions C53_alive.
Print Assumptions C53_complete.
Print Assumptions C53_exact.
Print Assumptions C53_partial.
Print Assumptions C53_refuted.
Print Assumptions C53_bounded.
Print Assumptions C53_progress.
(** Three tasks: the second is decided first, while WhenAny attaches to the third, but the first one
    overtakes it; everything is released. *)
Example ex_C53 : match run (init [false; false; false])
    [Step 0; Step 0; Step 0; Step 0; Decide 1; Step 0; Step 0; Step 0; Write 1; Move 1; Step 2; Decide 0; Write 0; Move 0; Step 1; Step 1; Step 2; Step 2; Step 1; Decide 2; Write 2; Move 2; Step 3; Step 3; Step 3; Drop] with
  | Some s => idle s /\ all_called s /\ refs s = 0 /\ nwin (log s) = 1 /\ In (ERes 0) (log s)
  | None => False end.
Proof.
  vm_compute. split; [intros [|[|[|[|[|i]]]]] k N; cbn in N; congruence|]. split; [intros t [<-|[<-|[<-|[]]]]; right; reflexivity|]. auto 12.
Qed.
