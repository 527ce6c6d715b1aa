(** Property C49: cancellation tokens. *)
From Coq Require Import List Arith ZArith Bool Lia.
From Verif Require Import Slots SlotsProofs Threads ListModel CancelModel.
Import ListNotations.

(** * Specification
    Phases: 0 open, 1 cancellation requested, 2 handlers being called, 3 finished.  [L] is the list of
    handlers that are registered and were not called yet, in the order of registration. *)
Definition astep (p : nat * list nat) (e : event) : option (nat * list nat) :=
  let '(ph, L) := p in
  match e with
  | EReg h late true => if (ph <=? 1) && negb late && negb (isin h L) then Some (ph, L ++ [h]) else None
  | EReg h late false => if (1 <=? ph) || isin h L then Some (ph, L) else None
  | EUnreg h true => if (ph <=? 1) && isin h L then Some (ph, remove Nat.eq_dec h L) else None
  | EUnreg h false => if (2 <=? ph) || negb (isin h L) then Some (ph, L) else None
  | EReq => if ph =? 0 then Some (1, L) else None
  | EMove => if ph =? 1 then Some (2, L) else None
  | ECall h => match L with x :: r => if (ph =? 2) && (x =? h) then Some (ph, r) else None | [] => None end
  | ECancel true => match L with [] => if ph =? 2 then Some (3, L) else None | _ => None end
  | ECancel false => if 1 <=? ph then Some (ph, L) else None
  end.
Fixpoint replay (p : nat * list nat) (l : list event) : option (nat * list nat) :=
  match l with [] => Some p | e :: r => match astep p e with Some q => replay q r | None => None end end.
(** How often something happened. *)
Definition nreg (h : nat) (l : list event) : nat := length (filter (fun e => match e with EReg x _ true => x =? h | _ => false end) l).
Definition nunreg (h : nat) (l : list event) : nat := length (filter (fun e => match e with EUnreg x true => x =? h | _ => false end) l).
Definition ncall (h : nat) (l : list event) : nat := length (filter (fun e => match e with ECall x => x =? h | _ => false end) l).
Definition ncancel (l : list event) : nat := length (filter (fun e => match e with ECancel true => true | _ => false end) l).
(** The thread is in the middle of using a delegate. *)
Definition busy (k : list frame) : Prop :=
  match k with RAdd _ _ :: _ | URem _ :: _ | CMove :: _ | CLoop _ :: _ => True | _ => False end.

(** * Proofs *)
Lemma replay_snoc : forall l p e, replay p (l ++ [e]) = match replay p l with Some q => astep q e | None => None end.
Proof.
  induction l as [|a l IH]; intros p e; cbn; [destruct (astep p e); reflexivity|]. destruct (astep p a); [apply IH|reflexivity].
Qed.
Lemma isin_iff : forall h l, isin h l = true <-> In h l.
Proof.
  intros h l. unfold isin. rewrite existsb_exists. split; [intros (x & I & E); apply Nat.eqb_eq in E; subst; assumption|].
  intros I. exists h. split; [assumption|apply Nat.eqb_refl].
Qed.
Lemma isin_no : forall h l, isin h l = false <-> ~ In h l.
Proof. intros h l. rewrite <- isin_iff. destruct (isin h l); split; congruence. Qed.

Definition cf (f : frame) : nat := match f with CLock | CMove | CLoop _ | CRel => 1 | _ => 0 end.
Definition af (f : frame) : nat := match f with RAdd _ _ => 1 | _ => 0 end.
Definition ins (f : frame) : bool := match f with RChk _ _ | RAdd _ _ | RRel | URem _ | URel | CMove | CLoop _ | CRel => true | _ => false end.
Definition insb (k : list frame) : bool := existsb ins k.
Definition flat (k : list frame) : Prop := match k with [] => True | [f] => True | _ => False end.
Definition cfn (ph : nat) : nat := match ph with 1 | 2 => 1 | _ => 0 end.
Definition fok (ph : nat) (L : list nat) (f : frame) : Prop :=
  match f with
  | RLock _ late | RChk _ late => late = true -> 1 <= ph
  | RAdd _ late => late = false /\ ph <= 1
  | CLock | CMove => ph = 1
  | CLoop p => ph = 2 /\ p = L
  | CRel => ph = 2 /\ L = []
  | Script _ => 2 <= ph
  | _ => True
  end.
Section Proofs.
Variable prog : nat -> list call.
Variable first : Z.
Notation exec := (exec prog first).
Notation run := (run prog first).

Record Low (s : st) (L : list nat) : Prop := {
  l_cb : cb s = L;
  l_flat : forall i k, nth_error (ag s) i = Some k -> flat k;
  l_in : forall i k, nth_error (ag s) i = Some k -> insb k = true -> own s = Some i;
  l_cnt : forall i, own s = Some i -> exists k, nth_error (ag s) i = Some k /\ cnt s = if insb k then first else (first - 1)%Z }.
Record Inv (s : st) (ph : nat) (L : list nat) : Prop := {
  v_log : replay (0, []) (log s) = Some (ph, L);
  v_canc : canc s = (1 <=? ph);
  v_cf : suml (suml cf) (ag s) = cfn ph;
  v_f : forall i k f, nth_error (ag s) i = Some k -> In f k -> fok ph L f;
  v_low : ph <= 1 -> Low s L;
  v_high : 2 <= ph -> cb s = [] }.

Lemma fok_low : forall ph ph' L L' f, ph <= 1 -> ph' = ph -> fok ph L f -> fok ph' L' f.
Proof. intros ph ph' L L' f H -> F. destruct f; cbn in *; try assumption; lia. Qed.
Lemma fok_move : forall ph ph' L L' f, fok ph L f -> cf f = 0 -> ph <= ph' -> (ph' <= 1 \/ af f = 0) -> fok ph' L' f.
Proof. intros ph ph' L L' f F C P A. destruct f; cbn in *; try discriminate; intuition lia. Qed.
Lemma suml_in : forall A (f : A -> nat) l x, In x l -> f x <= suml f l.
Proof. intros A f l x I. apply In_nth_error in I. destruct I as [i N]. apply (suml_ge _ _ _ _ _ N). Qed.
Lemma cf_other : forall s ph L i j k k' f, Inv s ph L -> i <> j -> nth_error (ag s) i = Some k -> nth_error (ag s) j = Some k' -> 0 < suml cf k -> In f k' -> cf f = 0.
Proof.
  intros s ph L i j k k' f I NE N M P J. pose proof (v_cf _ _ _ I) as C. pose proof (suml_two _ (suml cf) _ _ _ _ _ NE N M). pose proof (suml_in _ cf _ _ J).
  assert (cfn ph <= 1) by (destruct ph as [|[|[|]]]; cbn; lia). lia.
Qed.
Lemma cf_tail : forall s ph L i f k g, Inv s ph L -> nth_error (ag s) i = Some (f :: k) -> 0 < cf f -> In g k -> cf g = 0.
Proof.
  intros s ph L i f k g I N P J. pose proof (v_cf _ _ _ I) as C. pose proof (suml_ge _ (suml cf) _ _ _ N) as G. cbn [suml] in G. pose proof (suml_in _ cf _ _ J).
  assert (cfn ph <= 1) by (destruct ph as [|[|[|]]]; cbn; lia). lia.
Qed.
Lemma Inv_put : forall s ph L i k k' s' ph' L',
  Inv s ph L -> nth_error (ag s) i = Some k -> ag s' = set (ag s) i k' -> replay (0, []) (log s') = Some (ph', L') ->
  canc s' = (1 <=? ph') -> suml cf k' + cfn ph = suml cf k + cfn ph' ->
  (forall f, In f k' -> fok ph' L' f) ->
  (forall j d f, i <> j -> nth_error (ag s) j = Some d -> In f d -> fok ph' L' f) ->
  (ph' <= 1 -> Low s' L') -> (2 <= ph' -> cb s' = []) -> Inv s' ph' L'.
Proof.
  intros s ph L i k k' s' ph' L' I N EA R C K F O LO HI. split; auto.
  - rewrite EA. pose proof (suml_set _ (suml cf) _ _ _ k' N). pose proof (v_cf _ _ _ I). lia.
  - intros j d f. rewrite EA. intros M J. apply nth_set in M. destruct M as [[<- ->]|[NE M]]; [auto|]. eapply O; eassumption.
Qed.
(** Only the top frame changes. *)
Lemma Low_put : forall s L i k k' s', Low s L -> nth_error (ag s) i = Some k -> ag s' = set (ag s) i k' -> flat k' -> insb k' = insb k -> own s' = own s -> cnt s' = cnt s ->
  forall L', cb s' = L' -> Low s' L'.
Proof.
  intros s L i k k' s' LO N EA F E1 E2 E3 L' E4. assert (LT : i < length (ag s)) by (apply nth_error_Some; congruence). split.
  - assumption.
  - intros j d. rewrite EA. intros M. apply nth_set in M. destruct M as [[<- ->]|[NE M]]; [assumption|apply (l_flat _ _ LO _ _ M)].
  - intros j d. rewrite EA, E2. intros M B. apply nth_set in M. destruct M as [[<- ->]|[NE M]]; [apply (l_in _ _ LO _ _ N); congruence|apply (l_in _ _ LO _ _ M B)].
  - intros j. rewrite E2, E3. intros O. destruct (l_cnt _ _ LO _ O) as (d & M & C). rewrite EA. destruct (Nat.eq_dec i j) as [<-|NE].
    + exists k'. rewrite nth_set_eq by assumption. split; [reflexivity|]. rewrite E1. rewrite N in M. injection M as ->. assumption.
    + exists d. rewrite nth_set_neq by assumption. auto.
Qed.
Lemma acquire_low : forall s L i s' k k', Low s L -> acquire first s i = Some s' -> nth_error (ag s) i = Some k -> insb k = false -> flat k' -> insb k' = true ->
  Low (put s' i k') L /\ ag s' = ag s /\ log s' = log s /\ canc s' = canc s /\ cb s' = cb s.
Proof.
  intros s L i s' k k' LO A N B F B'. unfold acquire in A. assert (LT : i < length (ag s)) by (apply nth_error_Some; congruence). destruct (own s) as [j|] eqn:O.
  - destruct (Nat.eqb_spec j i) as [->|]; [|discriminate]. injection A as <-. split; [|auto]. split; cbn.
    + apply LO.
    + intros j d M. apply nth_set in M. destruct M as [[<- ->]|[NE M]]; [assumption|apply (l_flat _ _ LO _ _ M)].
    + intros j d M D. apply nth_set in M. destruct M as [[<- ->]|[NE M]]; [congruence|]. rewrite (l_in _ _ LO _ _ M D) in O. congruence.
    + intros j E. assert (j = i) by congruence. subst j. exists k'. rewrite nth_set_eq by assumption. split; [reflexivity|]. rewrite B'.
      destruct (l_cnt _ _ LO _ O) as (d & M & C). rewrite N in M. injection M as <-. rewrite B in C. lia.
  - injection A as <-. split; [|auto]. split; cbn.
    + apply LO.
    + intros j d M. apply nth_set in M. destruct M as [[<- ->]|[NE M]]; [assumption|apply (l_flat _ _ LO _ _ M)].
    + intros j d M D. apply nth_set in M. destruct M as [[<- ->]|[NE M]]; [reflexivity|]. rewrite (l_in _ _ LO _ _ M D) in O. discriminate.
    + intros j E. injection E as <-. exists k'. rewrite nth_set_eq by assumption. rewrite B'. auto.
Qed.
Lemma release_low : forall s L i f, Low s L -> nth_error (ag s) i = Some [f] -> ins f = true -> Low (put (release s) i []) L.
Proof.
  intros s L i f LO N B. assert (LT : i < length (ag s)) by (apply nth_error_Some; congruence).
  assert (O : own s = Some i) by (apply (l_in _ _ LO _ _ N); cbn; rewrite B; reflexivity).
  destruct (l_cnt _ _ LO _ O) as (d & M & C). rewrite N in M. injection M as <-. cbn in C. rewrite B in C. cbn in C.
  unfold release. destruct (Z.eqb_spec (cnt s - 1) 0); split; cbn.
  - apply LO.
  - intros j d M. apply nth_set in M. destruct M as [[<- ->]|[NE M]]; [exact Logic.I|apply (l_flat _ _ LO _ _ M)].
  - intros j d M D. apply nth_set in M. destruct M as [[<- ->]|[NE M]]; [discriminate|]. rewrite (l_in _ _ LO _ _ M D) in O. congruence.
  - discriminate.
  - apply LO.
  - intros j d M. apply nth_set in M. destruct M as [[<- ->]|[NE M]]; [exact Logic.I|apply (l_flat _ _ LO _ _ M)].
  - intros j d M D. apply nth_set in M. destruct M as [[<- ->]|[NE M]]; [discriminate|]. apply (l_in _ _ LO _ _ M D).
  - intros j E. rewrite O in E. injection E as <-. exists []. rewrite nth_set_eq by assumption. split; [reflexivity|]. cbn. lia.
Qed.
Lemma acquire_same : forall s i s', acquire first s i = Some s' -> ag s' = ag s /\ log s' = log s /\ canc s' = canc s /\ cb s' = cb s.
Proof. intros s i s' A. unfold acquire in A. destruct (own s); [destruct (_ =? _); [|discriminate]|]; injection A as <-; auto. Qed.
Lemma release_same : forall s, ag (release s) = ag s /\ log (release s) = log s /\ canc (release s) = canc s /\ cb (release s) = cb s.
Proof. intros s. unfold release. destruct (_ =? _)%Z; auto. Qed.
Lemma init_inv : forall n, Inv (init n) 0 [].
Proof.
  intros n. split; cbn; auto.
  - apply suml_repeat. reflexivity.
  - intros i k f N J. apply nth_error_In in N. apply repeat_spec in N. subst. contradiction.
  - intros _. split; cbn; auto; try discriminate.
    + intros i k N. apply nth_error_In in N. apply repeat_spec in N. subst. exact Logic.I.
    + intros i k N B. apply nth_error_In in N. apply repeat_spec in N. subst. discriminate.
Qed.
Lemma linked_low : forall s ph L h, Inv s ph L -> ph <= 1 -> linked s h = isin h L.
Proof.
  intros s ph L h I P. unfold linked. rewrite (l_cb _ _ (v_low _ _ _ I P)). replace (existsb _ (ag s)) with false; [apply orb_false_r|]. symmetry.
  destruct (existsb _ (ag s)) eqn:E; [|reflexivity]. exfalso. apply existsb_exists in E. destruct E as (k & J & E). apply existsb_exists in E. destruct E as (f & J' & E).
  apply In_nth_error in J. destruct J as [i N]. pose proof (v_f _ _ _ I _ _ _ N J') as F. destruct f; cbn in E, F; try discriminate. lia.
Qed.
Lemma enter_ok : forall s ph L c, Inv s ph L -> fok ph L (enter s c) /\ cf (enter s c) = 0 /\ ins (enter s c) = false.
Proof.
  intros s ph L c I. pose proof (v_canc _ _ _ I) as C. destruct c; cbn; repeat split; auto. intros E. rewrite E in C. destruct ph; [discriminate|lia].
Qed.
Lemma exec_inv : forall s ph L a s', Inv s ph L -> exec s a = Some s' -> exists ph' L', Inv s' ph' L'.
Proof.
  intros s ph L [i c|i] s' I E; cbn [CancelModel.exec] in E.
  - destruct (nth_error (ag s) i) as [[|? ?]|] eqn:N; try discriminate. injection E as <-. exists ph, L. destruct (enter_ok s ph L c I) as (E1 & E2 & E3).
    eapply Inv_put; [exact I|exact N|reflexivity|apply I|apply I| | | | |]; cbn [suml put cb].
    + lia.
    + intros f [<-|[]]. assumption.
    + intros j d f _ M J. apply (v_f _ _ _ I _ _ _ M J).
    + intros P. eapply Low_put; [apply (v_low _ _ _ I P)|exact N|reflexivity|exact Logic.I| |reflexivity|reflexivity|apply (v_low _ _ _ I P)]. cbn. rewrite E3. reflexivity.
    + apply I.
  - destruct (nth_error (ag s) i) as [[|f k]|] eqn:N; try discriminate.
    pose proof (v_f _ _ _ I _ _ f N (or_introl eq_refl)) as F.
    assert (TL : forall g, In g k -> fok ph L g) by (intros g J; apply (v_f _ _ _ I _ _ _ N); right; assumption).
    assert (OT : forall j d g, i <> j -> nth_error (ag s) j = Some d -> In g d -> fok ph L g) by (intros j d g _ M J; apply (v_f _ _ _ I _ _ _ M J)).
    assert (FL : ph <= 1 -> k = []) by (intros P; pose proof (l_flat _ _ (v_low _ _ _ I P) _ _ N) as G; destruct k; [reflexivity|contradiction]).
    assert (EV : forall e q, astep (ph, L) e = Some q -> replay (0, []) (log s ++ [e]) = Some q) by (intros e q H; rewrite replay_snoc, (v_log _ _ _ I); exact H).
    assert (CN : canc s = (1 <=? ph)) by apply I.
    destruct f as [h b|h b|h b| |h|h| | | | |p| |l]; cbn [call_step fok] in E, F.
    + (* RLock *) destruct (acquire first s i) as [s1|] eqn:A; [|discriminate]. injection E as <-. exists ph, L.
      destruct (acquire_same _ _ _ A) as (A1 & A2 & A3 & A4).
      eapply Inv_put; [exact I|exact N|cbn; rewrite A1; reflexivity|cbn; rewrite A2; apply I|cbn; rewrite A3; apply I|reflexivity| |exact OT| |].
      * intros g [<-|J]; [exact F|auto].
      * intros P. rewrite (FL P) in *. apply (acquire_low s L i s1 _ [RChk h b] (v_low _ _ _ I P) A N); reflexivity || exact Logic.I.
      * intros P. cbn. rewrite A4. apply (v_high _ _ _ I P).
    + (* RChk *) destruct (canc s) eqn:C; injection E as <-; exists ph, L.
      * eapply Inv_put; [exact I|exact N|reflexivity| |cbn; rewrite C; exact CN|reflexivity| |exact OT| |apply I].
        -- apply EV. cbn. destruct ph; [discriminate|reflexivity].
        -- intros g [<-|J]; [exact Logic.I|auto].
        -- intros P. rewrite (FL P) in *. eapply Low_put; [apply (v_low _ _ _ I P)|exact N|reflexivity|exact Logic.I|reflexivity|reflexivity|reflexivity|apply (v_low _ _ _ I P)].
      * assert (ph = 0) by (destruct ph; [reflexivity|discriminate]). subst ph.
        eapply Inv_put; [exact I|exact N|reflexivity|apply I|cbn; rewrite C; reflexivity|reflexivity| |exact OT| |apply I].
        -- intros g [<-|J]; [|auto]. cbn. split; [|lia]. destruct b; [specialize (F eq_refl); lia|reflexivity].
        -- intros P. rewrite (FL P) in *. eapply Low_put; [apply (v_low _ _ _ I P)|exact N|reflexivity|exact Logic.I|reflexivity|reflexivity|reflexivity|apply (v_low _ _ _ I P)].
    + (* RAdd *) destruct F as [-> P]. rewrite (linked_low _ _ _ h I P) in E. pose proof (l_cb _ _ (v_low _ _ _ I P)) as CB. rewrite (FL P) in *. rewrite CB in E.
      destruct (isin h L) eqn:HL.
      * assert (E' : s' = say (put s i [RRel]) (EReg h false false)) by (destruct L as [|? [|? ?]]; congruence). clear E. subst s'. exists ph, L.
        eapply Inv_put; [exact I|exact N|reflexivity| |exact CN|reflexivity| |exact OT| |cbn; lia].
        -- apply EV. cbn. rewrite HL, orb_true_r. reflexivity.
        -- intros g [<-|[]]; exact Logic.I.
        -- intros _. eapply Low_put; [apply (v_low _ _ _ I P)|exact N|reflexivity|exact Logic.I|reflexivity|reflexivity|reflexivity|assumption].
      * injection E as <-. exists ph, (L ++ [h]).
        eapply Inv_put; [exact I|exact N|reflexivity| |exact CN|reflexivity| | | |lia].
        -- apply EV. cbn [astep]. destruct (Nat.leb_spec ph 1); [|lia]. rewrite HL. reflexivity.
        -- intros g [<-|[]]; exact Logic.I.
        -- intros j d g NE M J. apply (fok_low ph ph L); auto. apply (OT j d g NE M J).
        -- intros _. eapply Low_put; [apply (v_low _ _ _ I P)|exact N|reflexivity|exact Logic.I|reflexivity|reflexivity|reflexivity|reflexivity].
    + (* RRel *) injection E as <-. exists ph, L. destruct (release_same s) as (A1 & A2 & A3 & A4).
      eapply Inv_put; [exact I|exact N|cbn; rewrite A1; reflexivity|cbn; rewrite A2; apply I|cbn; rewrite A3; apply I|reflexivity|exact TL|exact OT| |].
      * intros P. rewrite (FL P) in *. eapply release_low; [apply (v_low _ _ _ I P)|exact N|reflexivity].
      * intros P. cbn. rewrite A4. apply (v_high _ _ _ I P).
    + (* ULock *) destruct (acquire first s i) as [s1|] eqn:A; [|discriminate]. injection E as <-. exists ph, L.
      destruct (acquire_same _ _ _ A) as (A1 & A2 & A3 & A4).
      eapply Inv_put; [exact I|exact N|cbn; rewrite A1; reflexivity|cbn; rewrite A2; apply I|cbn; rewrite A3; apply I|reflexivity| |exact OT| |].
      * intros g [<-|J]; [exact Logic.I|auto].
      * intros P. rewrite (FL P) in *. apply (acquire_low s L i s1 _ [URem h] (v_low _ _ _ I P) A N); reflexivity || exact Logic.I.
      * intros P. cbn. rewrite A4. apply (v_high _ _ _ I P).
    + (* URem *) injection E as <-. destruct (le_lt_dec ph 1) as [P|P].
      * pose proof (l_cb _ _ (v_low _ _ _ I P)) as CB. rewrite (FL P) in *. rewrite CB. exists ph, (remove Nat.eq_dec h L).
        eapply Inv_put; [exact I|exact N|reflexivity| |exact CN|reflexivity| | | |lia].
        -- apply EV. destruct (isin h L) eqn:HL; cbn [astep].
           ++ rewrite HL. destruct (Nat.leb_spec ph 1); [reflexivity|lia].
           ++ rewrite HL, orb_true_r. apply isin_no in HL. rewrite notin_remove by assumption. reflexivity.
        -- intros g [<-|[]]; exact Logic.I.
        -- intros j d g NE M J. apply (fok_low ph ph L); auto. apply (OT j d g NE M J).
        -- intros _. eapply Low_put; [apply (v_low _ _ _ I P)|exact N|reflexivity|exact Logic.I|reflexivity|reflexivity|reflexivity|reflexivity].
      * rewrite (v_high _ _ _ I ltac:(lia)). exists ph, L.
        eapply Inv_put; [exact I|exact N|reflexivity| |exact CN|reflexivity| |exact OT|lia|reflexivity].
        -- apply EV. cbn. destruct ph as [|[|ph]]; [lia|lia|reflexivity].
        -- intros g [<-|J]; [exact Logic.I|auto].
    + (* URel *) injection E as <-. exists ph, L. destruct (release_same s) as (A1 & A2 & A3 & A4).
      eapply Inv_put; [exact I|exact N|cbn; rewrite A1; reflexivity|cbn; rewrite A2; apply I|cbn; rewrite A3; apply I|reflexivity|exact TL|exact OT| |].
      * intros P. rewrite (FL P) in *. eapply release_low; [apply (v_low _ _ _ I P)|exact N|reflexivity].
      * intros P. cbn. rewrite A4. apply (v_high _ _ _ I P).
    + (* CXchg *) destruct (canc s) eqn:C; injection E as <-.
      * exists ph, L. eapply Inv_put; [exact I|exact N|reflexivity| |cbn; rewrite C; exact CN|reflexivity|exact TL|exact OT| |apply I].
        -- apply EV. cbn [astep]. rewrite <- CN. reflexivity.
        -- intros P. rewrite (FL P) in *. eapply Low_put; [apply (v_low _ _ _ I P)|exact N|reflexivity|exact Logic.I|reflexivity|reflexivity|reflexivity|apply (v_low _ _ _ I P)].
      * assert (ph = 0) by (destruct ph; [reflexivity|discriminate]). subst ph. rewrite (FL ltac:(lia)) in *. exists 1, L.
        eapply Inv_put; [exact I|exact N|reflexivity|apply EV; reflexivity|reflexivity|reflexivity| | | |lia].
        -- intros g [<-|[]]. reflexivity.
        -- intros j d g NE M J. apply (fok_move 0 1 L); [apply (OT j d g NE M J)| |lia|lia].
           pose proof (v_cf _ _ _ I) as Z0. cbn in Z0. pose proof (suml_ge _ (suml cf) _ _ _ M). pose proof (suml_in _ cf _ _ J). lia.
        -- intros _. eapply Low_put; [apply (v_low _ _ _ I ltac:(lia))|exact N|reflexivity|exact Logic.I|reflexivity|reflexivity|reflexivity|apply (v_low _ _ _ I ltac:(lia))].
    + (* CLock *) subst ph. rewrite (FL ltac:(lia)) in *. destruct (acquire first s i) as [s1|] eqn:A; [|discriminate]. injection E as <-. exists 1, L.
      destruct (acquire_same _ _ _ A) as (A1 & A2 & A3 & A4).
      eapply Inv_put; [exact I|exact N|cbn; rewrite A1; reflexivity|cbn; rewrite A2; apply I|cbn; rewrite A3; apply I|reflexivity| |exact OT| |lia].
      * intros g [<-|[]]. reflexivity.
      * intros P. apply (acquire_low s L i s1 _ [CMove] (v_low _ _ _ I P) A N); reflexivity || exact Logic.I.
    + (* CMove *) subst ph. rewrite (FL ltac:(lia)) in *. injection E as <-. pose proof (v_low _ _ _ I ltac:(lia)) as LO. pose proof (l_cb _ _ LO) as CB. rewrite CB. exists 2, L.
      eapply Inv_put; [exact I|exact N|reflexivity|apply EV; reflexivity|exact CN|reflexivity| | |lia|reflexivity].
      * intros g [<-|[]]. cbn. auto.
      * intros j d g NE M J. apply (fok_move 1 2 L); [apply (OT j d g NE M J)|eapply cf_other; [exact I|exact NE|exact N|exact M|cbn; lia|exact J]|lia|]. right.
        destruct g; try reflexivity. exfalso. pose proof (l_in _ _ LO _ _ N eq_refl) as O1.
        assert (O2 : own s = Some j) by (apply (l_in _ _ LO _ _ M); unfold insb; apply existsb_exists; eexists; split; [exact J|reflexivity]). congruence.
    + (* CLoop *) destruct F as [-> ->]. destruct L as [|h L].
      * injection E as <-. exists 2, []. eapply Inv_put; [exact I|exact N|reflexivity|apply I|exact CN|reflexivity| |exact OT|lia|apply I].
        intros g [<-|J]; [cbn; auto|auto].
      * injection E as <-. exists 2, L. eapply Inv_put; [exact I|exact N|reflexivity| |exact CN|reflexivity| | |lia|apply I].
        -- apply EV. cbn. rewrite Nat.eqb_refl. reflexivity.
        -- intros g [<-|[<-|J]]; [cbn; lia|cbn; auto|]. apply (fok_move 2 2 (h :: L)); [auto|eapply cf_tail; [exact I|exact N|cbn; lia|exact J]|lia|]. right.
           specialize (TL g J). destruct g; cbn in *; try reflexivity. lia.
        -- intros j d g NE M J. apply (fok_move 2 2 (h :: L)); [apply (OT j d g NE M J)|eapply cf_other; [exact I|exact NE|exact N|exact M|cbn; lia|exact J]|lia|]. right.
           specialize (OT j d g NE M J). destruct g; cbn in *; try reflexivity. lia.
    + (* CRel *) destruct F as [-> ->]. injection E as <-. exists 3, []. destruct (release_same s) as (A1 & A2 & A3 & A4).
      eapply Inv_put; [exact I|exact N|cbn; rewrite A1; reflexivity|cbn [say put log]; rewrite A2; apply EV; reflexivity|cbn; rewrite A3; exact CN|cbn [suml cf cfn]; lia| | |lia|].
      * intros g J. apply (fok_move 2 3 []); [auto|eapply cf_tail; [exact I|exact N|cbn; lia|exact J]|lia|]. right. specialize (TL g J). destruct g; cbn in *; try reflexivity. lia.
      * intros j d g NE M J. apply (fok_move 2 3 []); [apply (OT j d g NE M J)|eapply cf_other; [exact I|exact NE|exact N|exact M|cbn; lia|exact J]|lia|]. right.
        specialize (OT j d g NE M J). destruct g; cbn in *; try reflexivity. lia.
      * intros _. cbn. rewrite A4. apply (v_high _ _ _ I). lia.
    + (* Script *) exists ph, L. destruct l as [|c r]; injection E as <-.
      * eapply Inv_put; [exact I|exact N|reflexivity|apply I|exact CN|reflexivity|exact TL|exact OT|lia|apply I].
      * destruct (enter_ok s ph L c I) as (E1 & E2 & E3).
        eapply Inv_put; [exact I|exact N|reflexivity|apply I|exact CN| | |exact OT|lia|apply I].
        -- cbn [suml cf]. lia.
        -- intros g [<-|[<-|J]]; [assumption|exact F|auto].
Qed.

Lemma run_inv : forall l s ph L s', Inv s ph L -> run s l = Some s' -> exists ph' L', Inv s' ph' L'.
Proof.
  induction l as [|a l IH]; intros s ph L s' I H; cbn [CancelModel.run] in H; [injection H as <-; eauto|].
  destruct (exec s a) as [s1|] eqn:E; [|discriminate]. destruct (exec_inv _ _ _ _ _ I E) as (ph1 & L1 & I1). eapply IH; eassumption.
Qed.
Lemma reach_inv : forall n l s, run (init n) l = Some s -> exists ph L, Inv s ph L.
Proof. intros n l s H. eapply run_inv; [apply init_inv|exact H]. Qed.

(** ** Counting in the specification *)
Lemma filter_snoc : forall A (f : A -> bool) l x, length (filter f (l ++ [x])) = length (filter f l) + (if f x then 1 else 0).
Proof. intros A f l x. rewrite filter_app, app_length. cbn. destruct (f x); reflexivity. Qed.
Lemma occ_remove : forall l h x, occ (remove Nat.eq_dec h l) x = if h =? x then 0 else occ l x.
Proof.
  intros l h x. induction l as [|y l IH]; cbn [remove]; [destruct (h =? x); reflexivity|]. destruct (Nat.eq_dec h y) as [<-|NE].
  - rewrite IH. cbn [occ]. destruct (h =? x); reflexivity.
  - cbn [occ]. rewrite IH. destruct (Nat.eqb_spec h x) as [E|NX]; [|reflexivity]. destruct (Nat.eqb_spec y x); [congruence|reflexivity].
Qed.
Lemma replay_count : forall l ph L, replay (0, []) l = Some (ph, L) -> forall h,
  nreg h l = nunreg h l + ncall h l + occ L h /\ occ L h <= 1 /\ ncancel l = (if ph =? 3 then 1 else 0) /\ ph <= 3.
Proof.
  intros l. induction l as [|e l IH] using rev_ind; intros ph L H h.
  - injection H as <- <-. cbn. lia.
  - rewrite replay_snoc in H. destruct (replay (0, []) l) as [[p0 L0]|]; [|discriminate]. destruct (IH _ _ eq_refl h) as (I1 & I2 & I3 & I4).
    unfold nreg, nunreg, ncall, ncancel in *. rewrite !filter_snoc. destruct e as [x late [|]|x [|]| | |x|[|]]; cbn [astep] in H.
    + destruct ((p0 <=? 1) && negb late && negb (isin x L0)) eqn:E; [|discriminate]. injection H as <- <-. rewrite occ_app. cbn [occ].
      apply andb_true_iff in E. destruct E as [_ E]. apply negb_true_iff in E. apply isin_no in E. apply occ_notin in E.
      destruct (Nat.eqb_spec x h) as [->|]; split; try lia.
    + destruct ((1 <=? p0) || isin x L0); [|discriminate]. injection H as <- <-. lia.
    + destruct ((p0 <=? 1) && isin x L0) eqn:E; [|discriminate]. injection H as <- <-. rewrite occ_remove. apply andb_true_iff in E. destruct E as [_ E]. apply isin_iff in E. apply occ_In in E.
      destruct (Nat.eqb_spec x h) as [->|]; lia.
    + destruct ((2 <=? p0) || negb (isin x L0)); [|discriminate]. injection H as <- <-. lia.
    + destruct (Nat.eqb_spec p0 0); [|discriminate]. injection H as <- <-. subst p0. cbn in *. lia.
    + destruct (Nat.eqb_spec p0 1); [|discriminate]. injection H as <- <-. subst p0. cbn in *. lia.
    + destruct L0 as [|y r]; [discriminate|]. destruct ((p0 =? 2) && (y =? x)) eqn:E; [|discriminate]. injection H as <- <-. apply andb_true_iff in E. destruct E as [_ E]. apply Nat.eqb_eq in E. subst y.
      cbn [occ] in *. destruct (x =? h); lia.
    + destruct L0; [|discriminate]. destruct (Nat.eqb_spec p0 2); [|discriminate]. injection H as <- <-. subst p0. cbn in *. lia.
    + destruct (1 <=? p0) eqn:E; [|discriminate]. injection H as <- <-. lia.
Qed.
Lemma replay_late : forall l ph L, replay (0, []) l = Some (ph, L) -> forall h b, In (EReg h true b) l -> b = false.
Proof.
  intros l. induction l as [|e l IH] using rev_ind; intros ph L H h b J; [contradiction|]. rewrite replay_snoc in H. destruct (replay (0, []) l) as [[p0 L0]|]; [|discriminate].
  apply in_app_or in J. destruct J as [J|[->|[]]]; [apply (IH _ _ eq_refl _ _ J)|]. destruct b; [|reflexivity]. cbn [astep negb] in H. rewrite andb_false_r in H. discriminate.
Qed.
Lemma replay_done : forall l ph L, replay (0, []) l = Some (ph, L) -> ph = 3 -> L = [].
Proof.
  intros l. induction l as [|e l IH] using rev_ind; intros ph L H P; [injection H as <- <-; discriminate|]. rewrite replay_snoc in H. destruct (replay (0, []) l) as [[p0 L0]|]; [|discriminate].
  specialize (IH _ _ eq_refl). destruct e as [x late [|]|x [|]| | |x|[|]]; cbn [astep] in H.
  - destruct ((p0 <=? 1) && negb late && negb (isin x L0)) eqn:E; [|discriminate]. injection H as <- <-. subst p0. discriminate.
  - destruct ((1 <=? p0) || isin x L0); [|discriminate]. injection H as <- <-. auto.
  - destruct ((p0 <=? 1) && isin x L0) eqn:E; [|discriminate]. injection H as <- <-. subst p0. discriminate.
  - destruct ((2 <=? p0) || negb (isin x L0)); [|discriminate]. injection H as <- <-. auto.
  - destruct (Nat.eqb_spec p0 0); [|discriminate]. injection H as <- <-. discriminate.
  - destruct (Nat.eqb_spec p0 1); [|discriminate]. injection H as <- <-. discriminate.
  - destruct L0 as [|y r]; [discriminate|]. destruct ((p0 =? 2) && (y =? x)) eqn:E; [|discriminate]. injection H as <- <-. subst p0. discriminate.
  - destruct L0; [|discriminate]. destruct (p0 =? 2); [|discriminate]. injection H as <- <-. reflexivity.
  - destruct (1 <=? p0); [|discriminate]. injection H as <- <-. auto.
Qed.

(** * C49 *)
(** Every run, for every behaviour of the handlers: the log is a run of the specification. *)
Theorem C49_refines_partial : forall n l s, run (init n) l = Some s -> exists ph L, replay (0, []) (log s) = Some (ph, L).
Proof. intros n l s H. destruct (reach_inv _ _ _ H) as (ph & L & I). exists ph, L. apply I. Qed.

(** No handler is called more often than it was successfully registered and not unregistered; at most
    one Cancel returns true; once it has, the handlers registered and not unregistered were called, each
    once per registration.  A Register that starts after cancellation was requested returns false. *)
Theorem C49_once_partial : forall n l s h, run (init n) l = Some s ->
  nunreg h (log s) + ncall h (log s) <= nreg h (log s) <= nunreg h (log s) + ncall h (log s) + 1 /\ ncancel (log s) <= 1 /\
  (ncancel (log s) = 1 -> nreg h (log s) = nunreg h (log s) + ncall h (log s)) /\
  (forall b, In (EReg h true b) (log s) -> b = false).
Proof.
  intros n l s h H. destruct (reach_inv _ _ _ H) as (ph & L & I). pose proof (v_log _ _ _ I) as R. destruct (replay_count _ _ _ R h) as (C1 & C2 & C3 & C4).
  split; [lia|]. split; [destruct (ph =? 3); lia|]. split; [|apply (replay_late _ _ _ R h)]. intros E. destruct (Nat.eqb_spec ph 3); [|lia]. rewrite (replay_done _ _ _ R e) in C1. cbn in C1. lia.
Qed.

(** The lock does its work: two threads are in the middle of using a delegate only when one of them is
    in Unregister after the handlers have been taken, where there is nothing left to remove. *)
Theorem C49_exclusive : forall n l s i j ki kj, run (init n) l = Some s -> i <> j -> nth_error (ag s) i = Some ki -> nth_error (ag s) j = Some kj ->
  busy ki -> busy kj -> cb s = [] /\ ((exists h k, ki = URem h :: k) \/ (exists h k, kj = URem h :: k)).
Proof.
  intros n l s i j ki kj H NE NI NJ BI BJ. destruct (reach_inv _ _ _ H) as (ph & L & I). destruct (le_lt_dec ph 1) as [P|P].
  - exfalso. pose proof (v_low _ _ _ I P) as LO.
    assert (X : forall k, busy k -> insb k = true) by (intros [|[] k] B; cbn in *; try contradiction; reflexivity).
    pose proof (l_in _ _ LO _ _ NI (X _ BI)). pose proof (l_in _ _ LO _ _ NJ (X _ BJ)). congruence.
  - split; [apply (v_high _ _ _ I); lia|].
    destruct ki as [|f k]; [contradiction|]. destruct kj as [|g k']; [contradiction|].
    pose proof (v_f _ _ _ I _ _ f NI (or_introl eq_refl)) as F. pose proof (v_f _ _ _ I _ _ g NJ (or_introl eq_refl)) as G.
    destruct f; cbn in BI, F; try contradiction; try lia; [left; eauto|]. destruct g; cbn in BJ, G; try contradiction; try lia; [right; eauto|].
    exfalso. pose proof (cf_other _ _ _ _ _ _ _ (CLoop pend0) I NE NI NJ) as Q. cbn in Q. specialize (Q ltac:(lia) (or_introl eq_refl)). discriminate.
Qed.

(** ** Every call ends *)
Definition W (h : nat) : nat := 2 + 6 * length (prog h).
Definition wt (f : frame) : nat :=
  match f with
  | RLock h late => if late then 3 else W h + 4
  | RChk h late => if late then 2 else W h + 3
  | RAdd h _ => W h + 2
  | RRel | URel | CRel => 1
  | URem _ => 2 | ULock _ => 3
  | CXchg => 5 | CLock => 4 | CMove => 3
  | CLoop p => 2 + suml W p
  | Script l => 1 + 6 * length l
  end.
Definition measure (s : st) : nat := suml (suml wt) (ag s) + suml W (cb s).
Lemma suml_remove : forall (f : nat -> nat) h l, suml f (remove Nat.eq_dec h l) <= suml f l.
Proof. intros f h l. induction l as [|x l IH]; cbn; [lia|]. destruct (Nat.eq_dec h x); cbn; lia. Qed.
Lemma suml_snoc : forall (f : nat -> nat) l x, suml f (l ++ [x]) = suml f l + f x.
Proof. intros f l x. induction l; cbn; lia. Qed.
Lemma step_measure : forall s ph L i s', Inv s ph L -> exec s (Step i) = Some s' -> measure s' < measure s.
Proof.
  intros s ph L i s' I E. cbn [CancelModel.exec] in E. destruct (nth_error (ag s) i) as [[|f k]|] eqn:N; try discriminate.
  assert (G : forall k', suml (suml wt) (set (ag s) i k') + (wt f + suml wt k) = suml (suml wt) (ag s) + suml wt k') by (intros k'; apply (suml_set _ (suml wt) _ _ _ k' N)).
  pose proof (v_f _ _ _ I _ _ f N (or_introl eq_refl)) as F. pose proof (v_canc _ _ _ I) as CN. unfold measure.
  destruct f as [h b|h b|h b| |h|h| | | | |p| |l]; cbn [call_step fok] in E, F.
  - destruct (acquire first s i) as [s1|] eqn:A; [|discriminate]. injection E as <-. destruct (acquire_same _ _ _ A) as (A1 & A2 & A3 & A4). cbn [put ag cb]. rewrite A1, A4.
    specialize (G (RChk h b :: k)). cbn [suml wt] in G. destruct b; lia.
  - destruct (canc s) eqn:C; injection E as <-; cbn [say put ag cb].
    + specialize (G (RRel :: k)). cbn [suml wt] in G. destruct b; lia.
    + specialize (G (RAdd h b :: k)). cbn [suml wt] in G. destruct b; [|lia]. specialize (F eq_refl). destruct ph; [lia|discriminate].
  - specialize (G (RRel :: k)). cbn [suml wt] in G. destruct (linked s h).
    + assert (E' : s' = say (put s i (RRel :: k)) (EReg h b false)) by (destruct (cb s) as [|? [|? ?]]; congruence). subst s'. cbn [say put ag cb]. lia.
    + injection E as <-. cbn [say put set_cb ag cb]. rewrite suml_snoc. lia.
  - injection E as <-. destruct (release_same s) as (A1 & A2 & A3 & A4). cbn [put ag cb]. rewrite A1, A4. specialize (G k). cbn [suml wt] in G. lia.
  - destruct (acquire first s i) as [s1|] eqn:A; [|discriminate]. injection E as <-. destruct (acquire_same _ _ _ A) as (A1 & A2 & A3 & A4). cbn [put ag cb]. rewrite A1, A4.
    specialize (G (URem h :: k)). cbn [suml wt] in G. lia.
  - injection E as <-. cbn [say put set_cb ag cb]. specialize (G (URel :: k)). cbn [suml wt] in G. pose proof (suml_remove W h (cb s)). lia.
  - injection E as <-. destruct (release_same s) as (A1 & A2 & A3 & A4). cbn [put ag cb]. rewrite A1, A4. specialize (G k). cbn [suml wt] in G. lia.
  - destruct (canc s); injection E as <-; cbn [say put set_canc ag cb]; [specialize (G k)|specialize (G (CLock :: k))]; cbn [suml wt] in G; lia.
  - destruct (acquire first s i) as [s1|] eqn:A; [|discriminate]. injection E as <-. destruct (acquire_same _ _ _ A) as (A1 & A2 & A3 & A4). cbn [put ag cb]. rewrite A1, A4.
    specialize (G (CMove :: k)). cbn [suml wt] in G. lia.
  - injection E as <-. cbn [say put set_cb ag cb suml]. specialize (G (CLoop (cb s) :: k)). cbn [suml wt] in G. lia.
  - destruct p as [|h p]; injection E as <-; cbn [say put ag cb].
    + specialize (G (CRel :: k)). cbn [suml wt] in G. lia.
    + specialize (G (Script (prog h) :: CLoop p :: k)). cbn [suml wt] in G. unfold W at 1 in G. lia.
  - injection E as <-. destruct (release_same s) as (A1 & A2 & A3 & A4). cbn [say put ag cb]. rewrite A1, A4. specialize (G k). cbn [suml wt] in G. lia.
  - destruct l as [|c r]; injection E as <-; cbn [put ag cb].
    + specialize (G k). cbn [suml wt] in G. lia.
    + assert (C : canc s = true) by (rewrite CN; destruct ph; [lia|reflexivity]). specialize (G (enter s c :: Script r :: k)). cbn [suml wt length] in G. destruct c; cbn [enter wt] in *; rewrite ?C in *; lia.
Qed.
(** From every reachable state, the calls in progress (and the handlers they call) take a bounded
    number of steps, however they are interleaved. *)
Theorem C49_bounded : forall n l s, run (init n) l = Some s -> exists m, forall is s', run s (map Step is) = Some s' -> length is <= m.
Proof.
  intros n l s H. destruct (reach_inv _ _ _ H) as (ph & L & I). exists (measure s). intros is. clear H. revert s ph L I. induction is as [|i is IH]; intros s ph L I s' E; cbn [length]; [lia|].
  cbn [map CancelModel.run] in E. destruct (exec s (Step i)) as [s1|] eqn:X; [|discriminate]. pose proof (step_measure _ _ _ _ _ I X). destruct (exec_inv _ _ _ _ _ I X) as (ph1 & L1 & I1).
  specialize (IH _ _ _ I1 _ E). lia.
Qed.
End Proofs.

(** ** The code's lock *)
(** With the CriticalSection of the code (counter 0 after the first Lock): once thread [i] has used the
    token, a Cancel on another thread [j] waits for ever: in every continuation it still waits for the
    lock, and no handler is ever called. *)
Lemma stuck_step : forall prog s L i j a s', i <> j -> Inv 0 s 1 L -> own s = Some i -> nth_error (ag s) j = Some [CLock] -> exec prog 0 s a = Some s' ->
  exists L', Inv 0 s' 1 L' /\ own s' = Some i /\ nth_error (ag s') j = Some [CLock].
Proof.
  intros prog s L i j a s' NE I O N E. pose proof (v_low _ _ _ _ I (le_n 1)) as LO. pose proof (v_canc _ _ _ _ I) as CN. cbn in CN.
  destruct (exec_inv _ _ _ _ _ _ _ I E) as (ph' & L' & I').
  assert (K : own s' = Some i /\ nth_error (ag s') j = Some [CLock]).
  { destruct a as [t c|t]; cbn [exec] in E.
    - destruct (nth_error (ag s) t) as [[|? ?]|] eqn:M; try discriminate. injection E as <-. cbn. split; [assumption|]. rewrite nth_set_neq; [assumption|congruence].
    - destruct (nth_error (ag s) t) as [[|f k]|] eqn:M; try discriminate.
      assert (FL : k = []) by (pose proof (l_flat _ _ _ LO _ _ M) as G; destruct k; [reflexivity|contradiction]). subst k.
      destruct (Nat.eq_dec t j) as [->|NT].
      { rewrite N in M. injection M as <-. cbn [call_step] in E. unfold acquire in E. rewrite O in E. destruct (Nat.eqb_spec i j); [contradiction|discriminate]. }
      assert (CF : cf f = 0) by (eapply cf_other; [exact I| |exact N|exact M|cbn; lia|left; reflexivity]; congruence).
      assert (AQ : forall s1 k', acquire 0 s t = Some s1 -> own (put s1 t k') = Some i /\ nth_error (ag (put s1 t k')) j = Some [CLock]).
      { intros s1 k' A. destruct (acquire_same _ _ _ _ A) as (A1 & _). unfold acquire in A. rewrite O in A. destruct (Nat.eqb_spec i t); [|discriminate]. injection A as <-. cbn. split; [reflexivity|]. rewrite nth_set_neq by assumption. assumption. }
      assert (RL : ins f = true -> own (put (release s) t []) = Some i /\ nth_error (ag (put (release s) t [])) j = Some [CLock]).
      { intros B. destruct (release_same s) as (A1 & _). assert (Q : own s = Some t) by (apply (l_in _ _ _ LO _ _ M); cbn; rewrite B; reflexivity).
        destruct (l_cnt _ _ _ LO _ Q) as (d & D & C). rewrite M in D. injection D as <-. cbn in C. rewrite B in C. cbn in C. cbn [put own ag]. rewrite A1. split; [|rewrite nth_set_neq by assumption; assumption].
        unfold release. rewrite C. cbn. assumption. }
      assert (PU : forall k' x y z c0, own (ST c0 (own s) x y (set (ag s) t k') z) = Some i /\ nth_error (ag (ST c0 (own s) x y (set (ag s) t k') z)) j = Some [CLock]).
      { intros. cbn. split; [assumption|]. rewrite nth_set_neq by assumption. assumption. }
      pose proof (v_f _ _ _ _ I _ _ f M (or_introl eq_refl)) as F.
      destruct f as [h b|h b|h b| |h|h| | | | |p| |l]; cbn [call_step cf fok] in E, CF, F; try discriminate.
      + destruct (acquire 0 s t) as [s1|] eqn:A; [|discriminate]. injection E as <-. apply AQ. reflexivity.
      + destruct (canc s); injection E as <-; apply PU.
      + destruct (linked s h); [|injection E as <-; apply PU]. assert (E' : s' = say (put s t [RRel]) (EReg h b false)) by (destruct (cb s) as [|? [|? ?]]; congruence). subst s'. apply PU.
      + injection E as <-. apply RL. reflexivity.
      + destruct (acquire 0 s t) as [s1|] eqn:A; [|discriminate]. injection E as <-. apply AQ. reflexivity.
      + injection E as <-. apply PU.
      + injection E as <-. apply RL. reflexivity.
      + rewrite CN in E. injection E as <-. apply PU.
      + lia. }
  destruct K as [K1 K2]. exists L'. pose proof (v_f _ _ _ _ I' _ _ CLock K2 (or_introl eq_refl)) as F. cbn in F. subst ph'. auto.
Qed.
Theorem C49_stuck : forall prog n l s i j, run prog 0 (init n) l = Some s -> i <> j -> own s = Some i -> nth_error (ag s) j = Some [CLock] ->
  forall l' s', run prog 0 s l' = Some s' -> nth_error (ag s') j = Some [CLock] /\ forall h, ~ In (ECall h) (log s').
Proof.
  intros prog n l s i j H NE O N l'. destruct (reach_inv _ _ _ _ _ H) as (ph & L & I). pose proof (v_f _ _ _ _ I _ _ CLock N (or_introl eq_refl)) as F. cbn in F. subst ph.
  clear H. revert s L I O N. induction l' as [|a l' IH]; intros s L I O N s' E; cbn [run] in E.
  - injection E as <-. split; [assumption|]. intros h J. pose proof (v_log _ _ _ _ I) as R.
    assert (Q : forall m ph L0, replay (0, []) m = Some (ph, L0) -> ph <= 1 -> ~ In (ECall h) m).
    { clear. intros m. induction m as [|e m IH] using rev_ind; intros ph L0 H P J; [contradiction|]. rewrite replay_snoc in H. destruct (replay (0, []) m) as [[p1 L1]|]; [|discriminate].
      assert (p1 <= ph).
      { destruct e as [x late [|]|x [|]| | |x|[|]]; cbn [astep] in H;
          repeat match goal with H : (if ?c =? ?d then _ else _) = _ |- _ => destruct (Nat.eqb_spec c d); try discriminate | H : (if ?c then _ else _) = _ |- _ => destruct c; try discriminate | H : match ?c with [] => _ | _ => _ end = _ |- _ => destruct c; try discriminate end;
          injection H as <- <-; lia. }
      apply in_app_or in J. destruct J as [J|[->|[]]]; [apply (IH _ _ eq_refl ltac:(lia) J)|]. cbn [astep] in H. destruct L1; [discriminate|]. destruct (Nat.eqb_spec p1 2); [lia|discriminate]. }
    apply (Q _ _ _ R (le_n 1) J).
  - destruct (exec prog 0 s a) as [s1|] eqn:X; [|discriminate]. destruct (stuck_step _ _ _ _ _ _ _ NE I O N X) as (L1 & I1 & O1 & N1). eapply IH; eassumption.
Qed.

(** The scenario of the finding: thread 0 registers handler 5, thread 1 cancels. *)
Theorem C49_refuted : forall prog n, 2 <= n -> exists l s, run prog 0 (init n) l = Some s /\ log s = [EReg 5 false true; EReq] /\ nth_error (ag s) 0 = Some [] /\
  forall l' s', run prog 0 s l' = Some s' -> nth_error (ag s') 1 = Some [CLock] /\ forall h, ~ In (ECall h) (log s').
Proof.
  intros prog n H. destruct n as [|[|n]]; [lia|lia|].
  exists [Start 0 (OReg 5); Step 0; Step 0; Step 0; Step 0; Start 1 OCancel; Step 1]. assert (R : existsb (fun k : list frame => existsb (fun f : frame => isin 5 (pending f)) k) (repeat [] n) = false) by (clear; induction n; [reflexivity|assumption]).
  match goal with |- exists s, ?r = Some s /\ _ => let x := fresh in assert (x : exists s, r = Some s /\ log s = [EReg 5 false true; EReq] /\ nth_error (ag s) 0 = Some [] /\ nth_error (ag s) 1 = Some [CLock] /\ own s = Some 0) by (cbn; rewrite R; cbn; eauto 8); destruct x as (s & E & E1 & E2 & E3 & E4) end.
  exists s. split; [exact E|]. split; [exact E1|]. split; [exact E2|].
  apply (C49_stuck prog (S (S n)) [Start 0 (OReg 5); Step 0; Step 0; Step 0; Step 0; Start 1 OCancel; Step 1] s 0 1 E ltac:(discriminate) E4 E3).
Qed.

(** Registering the only registered handler again is accepted, and Cancel then calls it twice
    (list 0 is oCallbacks, 1 _oPendingCallbacks, 2 the temporary of operator+=; C70_AddHandler_refuted). *)
Theorem C49_twice_refuted : exists e,
  let (s1, b1) := AddHandler dl_init 0 (Some e) in let (s2, b2) := AddHandler s1 0 (Some e) in
  b1 = true /\ b2 = true /\ match Invoke 2 (AddDelegate s2 1 0 2) 1 (fun _ => []) with Some (_, l) => l = [e; e] | None => False end.
Proof.
  exists 5. vm_compute. auto.
Qed.

(** ** A corrected lock (counter 1 after the first Lock) *)
Definition insn (f : frame) : nat := if ins f then 1 else 0.
Record Lk (s : st) : Prop := {
  k_cnt : forall i k, nth_error (ag s) i = Some k -> Z.of_nat (suml insn k) = match own s with Some j => if j =? i then cnt s else 0%Z | None => 0%Z end;
  k_own : forall j, own s = Some j -> (1 <= cnt s)%Z /\ exists k, nth_error (ag s) j = Some k }.
Lemma Lk_put : forall s i k k' s', Lk s -> nth_error (ag s) i = Some k -> ag s' = set (ag s) i k' -> own s' = own s -> cnt s' = cnt s -> suml insn k' = suml insn k -> Lk s'.
Proof.
  intros s i k k' s' I N EA E1 E2 E3. assert (LT : i < length (ag s)) by (apply nth_error_Some; congruence). split; rewrite ?E1, ?E2.
  - intros j d. rewrite EA. intros M. apply nth_set in M. destruct M as [[<- ->]|[NE M]]; [rewrite E3|]; apply (k_cnt _ I); assumption.
  - intros j O. destruct (k_own _ I _ O) as (C & d & M). split; [assumption|]. rewrite EA. destruct (Nat.eq_dec i j) as [<-|NE]; [exists k'; apply nth_set_eq; assumption|exists d; rewrite nth_set_neq by assumption; assumption].
Qed.
Lemma Lk_acquire : forall s i k k' s1, Lk s -> nth_error (ag s) i = Some k -> acquire 1 s i = Some s1 -> suml insn k' = S (suml insn k) -> Lk (put s1 i k').
Proof.
  intros s i k k' s1 I N A E. assert (LT : i < length (ag s)) by (apply nth_error_Some; congruence). unfold acquire in A. pose proof (k_cnt _ I _ _ N) as C. destruct (own s) as [j|] eqn:O.
  - destruct (Nat.eqb_spec j i) as [->|]; [|discriminate]. injection A as <-. destruct (k_own _ I _ O) as (C1 & _). split; cbn.
    + intros j d M. apply nth_set in M. destruct M as [[<- ->]|[NE M]]; [rewrite Nat.eqb_refl; lia|]. pose proof (k_cnt _ I _ _ M) as D. rewrite O in D. destruct (Nat.eqb_spec i j); [congruence|assumption].
    + intros j Q. injection Q as <-. split; [lia|]. exists k'. apply nth_set_eq. assumption.
  - injection A as <-. split; cbn.
    + intros j d M. apply nth_set in M. destruct M as [[<- ->]|[NE M]]; [rewrite Nat.eqb_refl; lia|]. pose proof (k_cnt _ I _ _ M) as D. rewrite O in D. destruct (Nat.eqb_spec i j); [congruence|assumption].
    + intros j Q. injection Q as <-. split; [lia|]. exists k'. apply nth_set_eq. assumption.
Qed.
Lemma Lk_release : forall s i f k s', Lk s -> nth_error (ag s) i = Some (f :: k) -> ins f = true -> ag s' = set (ag s) i k -> own s' = own (release s) -> cnt s' = cnt (release s) -> Lk s'.
Proof.
  intros s i f k s' I N B EA E1 E2. assert (LT : i < length (ag s)) by (apply nth_error_Some; congruence). pose proof (k_cnt _ I _ _ N) as C. cbn [suml] in C. unfold insn at 1 in C. rewrite B in C.
  destruct (own s) as [j|] eqn:O; [|lia]. destruct (Nat.eqb_spec j i) as [->|]; [|lia]. unfold release in E1, E2. destruct (Z.eqb_spec (cnt s - 1) 0) as [Z0|Z0]; cbn in E1, E2.
  - split; rewrite E1; [|discriminate]. intros j d. rewrite EA. intros M. apply nth_set in M. destruct M as [[<- ->]|[NE M]]; [lia|]. pose proof (k_cnt _ I _ _ M) as D. rewrite O in D. destruct (Nat.eqb_spec i j); [congruence|assumption].
  - split; rewrite E1, ?E2, ?O.
    + intros j d. rewrite EA. intros M. apply nth_set in M. destruct M as [[<- ->]|[NE M]]; [rewrite Nat.eqb_refl; lia|]. pose proof (k_cnt _ I _ _ M) as D. rewrite O in D. destruct (Nat.eqb_spec i j); [congruence|assumption].
    + intros j Q. injection Q as <-. split; [lia|]. exists k. rewrite EA. apply nth_set_eq. assumption.
Qed.
Lemma Lk_exec : forall prog s a s', Lk s -> exec prog 1 s a = Some s' -> Lk s'.
Proof.
  intros prog s [i c|i] s' I E; cbn [exec] in E.
  - destruct (nth_error (ag s) i) as [[|? ?]|] eqn:N; try discriminate. injection E as <-. eapply Lk_put; [exact I|exact N|reflexivity|reflexivity|reflexivity|]. destruct c; reflexivity.
  - destruct (nth_error (ag s) i) as [[|f k]|] eqn:N; try discriminate.
    destruct f as [h b|h b|h b| |h|h| | | | |p| |l]; cbn [call_step] in E;
      try (destruct (acquire 1 s i) as [s1|] eqn:A; [|discriminate]; injection E as <-; eapply Lk_acquire; [exact I|exact N|exact A|reflexivity]);
      try (injection E as <-; destruct (release_same s) as (A1 & _); eapply Lk_release; [exact I|exact N|reflexivity|cbn; rewrite A1; reflexivity|reflexivity|reflexivity]).
    + destruct (canc s); injection E as <-; (eapply Lk_put; [exact I|exact N|reflexivity|reflexivity|reflexivity|reflexivity]).
    + destruct (linked s h).
      * assert (E' : s' = say (put s i (RRel :: k)) (EReg h b false)) by (destruct (cb s) as [|? [|? ?]]; congruence). subst s'. eapply Lk_put; [exact I|exact N|reflexivity|reflexivity|reflexivity|reflexivity].
      * injection E as <-. eapply Lk_put; [exact I|exact N|reflexivity|reflexivity|reflexivity|reflexivity].
    + injection E as <-. eapply Lk_put; [exact I|exact N|reflexivity|reflexivity|reflexivity|reflexivity].
    + destruct (canc s); injection E as <-; (eapply Lk_put; [exact I|exact N|reflexivity|reflexivity|reflexivity|reflexivity]).
    + injection E as <-. eapply Lk_put; [exact I|exact N|reflexivity|reflexivity|reflexivity|reflexivity].
    + destruct p; injection E as <-; (eapply Lk_put; [exact I|exact N|reflexivity|reflexivity|reflexivity|reflexivity]).
    + destruct l as [|c r]; injection E as <-; (eapply Lk_put; [exact I|exact N|reflexivity|reflexivity|reflexivity|]); [reflexivity|]. destruct c; reflexivity.
Qed.
Lemma Lk_run : forall prog l s s', Lk s -> run prog 1 s l = Some s' -> Lk s'.
Proof.
  intros prog l. induction l as [|a l IH]; intros s s' I H; cbn [run] in H; [injection H as <-; assumption|]. destruct (exec prog 1 s a) eqn:E; [|discriminate].
  eapply IH; [|exact H]. eapply Lk_exec; eassumption.
Qed.
Lemma Lk_init : forall n, Lk (init n).
Proof. intros n. split; cbn; [|discriminate]. intros i k N. apply nth_error_In in N. apply repeat_spec in N. subst. reflexivity. Qed.
(** With the corrected lock no set of calls can block: as long as a call is in progress some thread can
    take a step, unless a thread is registering the only registered handler again.  With C49_bounded:
    every call returns, and C49_once says that then every registered handler was called once. *)
Theorem C49_fixed_progress : forall prog n l s, run prog 1 (init n) l = Some s -> (exists i f k, nth_error (ag s) i = Some (f :: k)) ->
  (exists i s', exec prog 1 s (Step i) = Some s') \/ (exists i h b k, nth_error (ag s) i = Some (RAdd h b :: k) /\ cb s = [h]).
Proof.
  intros prog n l s H (i & f & k & N). pose proof (Lk_run _ _ _ _ (Lk_init n) H) as I. destruct (reach_inv _ _ _ _ _ H) as (ph & L & V).
  assert (G : forall t f k, nth_error (ag s) t = Some (f :: k) -> (own s = None \/ own s = Some t) -> (exists i s', exec prog 1 s (Step i) = Some s') \/ (exists i h b k, nth_error (ag s) i = Some (RAdd h b :: k) /\ cb s = [h])).
  { clear i f k N. intros t f k N O.
    assert (AQ : exists s1, acquire 1 s t = Some s1) by (unfold acquire; destruct O as [-> | ->]; rewrite ?Nat.eqb_refl; eauto). destruct AQ as [s1 AQ].
    destruct f as [h b|h b|h b| |h|h| | | | |p| |r];
      try (left; exists t; cbn [exec]; rewrite N; cbn [call_step]; rewrite ?AQ; eauto; fail).
    - left; exists t; cbn [exec]; rewrite N; cbn [call_step]. destruct (canc s); eauto.
    - destruct (linked s h) eqn:LK.
      + pose proof (v_f _ _ _ _ V _ _ _ N (or_introl eq_refl)) as F. cbn in F. destruct F as [_ P]. pose proof (l_cb _ _ _ (v_low _ _ _ _ V P)) as CB. pose proof LK as LK2. rewrite (linked_low _ _ _ _ h V P) in LK2. apply isin_iff in LK2.
        destruct L as [|x [|y L]].
        * contradiction.
        * destruct LK2 as [->|[]]. right. exists t, h, b, k. auto.
        * left. exists t. cbn [exec]. rewrite N. cbn [call_step]. rewrite LK, CB. eauto.
      + left; exists t; cbn [exec]; rewrite N; cbn [call_step]. rewrite LK. eauto.
    - left; exists t; cbn [exec]; rewrite N; cbn [call_step]. destruct (canc s); eauto.
    - left; exists t; cbn [exec]; rewrite N; cbn [call_step]. destruct p; eauto.
    - left; exists t; cbn [exec]; rewrite N; cbn [call_step]. destruct r; eauto. }
  destruct (own s) as [j|] eqn:O.
  - destruct (k_own _ I _ O) as (C & d & M). pose proof (k_cnt _ I _ _ M) as D. rewrite O, Nat.eqb_refl in D. destruct d as [|g d]; [cbn in D; lia|]. apply (G j g d M). auto.
  - apply (G i f k N). auto.
Qed.
Print Assumptions C49_refines_partial.
Print Assumptions C49_once_partial.
Print Assumptions C49_exclusive.
Print Assumptions C49_bounded.
Print Assumptions C49_stuck.
Print Assumptions C49_refuted.
Print Assumptions C49_twice_refuted.
Print Assumptions C49_fixed_progress.

(** * Examples *)
(** Handler 5 unregisters handler 6 and registers handler 8 when it is called; 6 is called all the same,
    8 is refused.  Thread 0 registers 5 and 6 and cancels; thread 1 cancels too. *)
Definition prog1 (h : nat) : list call := if h =? 5 then [OUnreg 6; OReg 8; OCancel] else [].
Definition sched1 : list act :=
  Start 0 (OReg 5) :: repeat (Step 0) 4 ++ Start 0 (OReg 6) :: repeat (Step 0) 4 ++ Start 0 OCancel :: Step 0 :: Start 1 OCancel :: Step 1 :: repeat (Step 0) 18.
Example C49_example : match run prog1 0 (init 2) sched1 with
  | Some s => log s = [EReg 5 false true; EReg 6 false true; EReq; ECancel false; EMove; ECall 5; EUnreg 6 false; EReg 8 true false; ECancel false; ECall 6; ECancel true] /\ ag s = [[]; []]
  | None => False
  end.
Proof. vm_compute. auto. Qed.
(** The same with the corrected lock, cancelled by another thread. *)
Definition sched2 : list act :=
  Start 0 (OReg 5) :: repeat (Step 0) 4 ++ Start 0 (OReg 6) :: repeat (Step 0) 4 ++ Start 1 OCancel :: repeat (Step 1) 19.
Example C49_example_fixed : match run prog1 1 (init 2) sched2 with Some s => nreg 6 (log s) = 1 /\ ncall 6 (log s) = 1 /\ ncancel (log s) = 1 /\ ag s = [[]; []] /\ own s = None | None => False end.
Proof. vm_compute. auto. Qed.
