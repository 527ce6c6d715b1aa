(** Property C52: WhenAll. *)
From Coq Require Import List Arith ZArith Bool Lia.
From Verif Require Import Slots SlotsProofs Threads AsyncModel WhenAllModel.
Import ListNotations.

(** * Specification *)
Definition bad (o : status * Z) : bool := match fst o with Completed => false | _ => true end.
(** The code of the failing task with the lowest index, S_OK when there is none. *)
Definition first_error (l : list (status * Z)) : Z := match find bad l with Some o => snd o | None => S_OK end.
(** How the given tasks ended; an empty one counts as completed. *)
Definition outs (s : st) : list (status * Z) := map (fun t => if nul t then (Completed, S_OK) else (ost t, ohr t)) (ts s).
Definition nres (l : list event) : nat := length (filter (fun e => match e with ERes _ | ELost => true | _ => false end) l).
Definition idle (s : st) : Prop := forall i k, nth_error (ag s) i = Some k -> k = [].
(** Every task that is not empty has called its handlers. *)
Definition all_called (s : st) : Prop := forall t, In t (ts s) -> nul t = true \/ ph t = 3.
(** Frames that use cchPendingTasks, hrFirstError or pAsyncOperations. *)
Definition af (f : frame) : nat := match f with Rel => 0 | _ => 1 end.

(** * Proofs *)
Arguments nres : simpl never.
Lemma fe_app_bad : forall l o, (forall x, In x l -> bad x = true -> snd x <> S_OK) -> first_error l <> S_OK -> first_error (l ++ [o]) = first_error l.
Proof.
  unfold first_error. induction l as [|x l IH]; intros o G H; cbn in *; [congruence|]. destruct (bad x) eqn:B; [reflexivity|]. apply IH; [auto|assumption].
Qed.
Lemma fe_app_ok : forall l o, (forall x, In x l -> bad x = true -> snd x <> S_OK) -> first_error l = S_OK -> first_error (l ++ [o]) = if bad o then snd o else S_OK.
Proof.
  unfold first_error. induction l as [|x l IH]; intros o G H; cbn in *; [destruct (bad o); reflexivity|]. destruct (bad x) eqn:B; [exfalso; apply (G x); auto|]. apply IH; [auto|assumption].
Qed.
Lemma firstn_S : forall A (l : list A) p x, nth_error l p = Some x -> firstn (S p) l = firstn p l ++ [x].
Proof.
  induction l as [|y l IH]; intros [|p] x N; cbn in *; try discriminate; [congruence|]. rewrite <- (IH _ _ N). reflexivity.
Qed.
Lemma firstn_set : forall A (l : list A) p k x, p <= k -> firstn p (set l k x) = firstn p l.
Proof. induction l as [|y l IH]; intros [|p] [|k] x L; cbn; try reflexivity; [lia|]. f_equal. apply IH. lia. Qed.

Definition rf (f : frame) : nat := match f with Rel | Add _ | Sta _ => 1 | _ => 0 end.
Definition b1 (b : bool) : nat := if b then 1 else 0.
Definition lr (r : option nat) : nat := match r with Some _ => 1 | None => 0 end.
Definition Rv (l : list event) (v e : Z) : Prop := v = e \/ (v = E_PENDING /\ e <> S_OK /\ exists k, In (ESee k E_PENDING) l).
Definition dec1 (t : task) : Prop := nul t = true \/ 1 <= ph t.
Definition outs' (l : list task) : list (status * Z) := map (fun t => if nul t then (Completed, S_OK) else (ost t, ohr t)) l.
Record upto (s : st) (p : nat) : Prop := {
  u_d : forall k t, k < p -> nth_error (ts s) k = Some t -> dec1 t;
  u_v : Rv (log s) (hr1 s) (first_error (firstn p (outs' (ts s)))) }.
Definition cur (s : st) (j : nat) (t : task) : Prop := 0 < cch s <= length (ts s) /\ j = length (ts s) - cch s /\ nth_error (ts s) j = Some t /\ upto s j.
Definition fok (s : st) (f : frame) : Prop :=
  match f with
  | I1 => exists t, cur s (length (ts s) - cch s) t
  | Add j => exists t, cur s j t /\ nul t = false
  | Sta j => exists t, cur s j t /\ nul t = false /\ 1 <= ph t
  | On j x => exists t, cur s j t /\ ((nul t = true /\ x = Completed) \/ (nul t = false /\ 1 <= ph t /\ x = ost t))
  | Hr j => exists t, cur s j t /\ nul t = false /\ 1 <= ph t /\ ost t <> Completed /\ ost t <> Canceled
  | Cas c => exists j t, cur s j t /\ nul t = false /\ 1 <= ph t /\ ost t <> Completed /\ (c = ohr t \/ (c = E_PENDING /\ In (ESee j E_PENDING) (log s)))
  | Dec => 0 < cch s <= length (ts s) /\ upto s (S (length (ts s) - cch s))
  | Res => cch s = 0 /\ upto s (length (ts s))
  | Rel => True
  end.
Definition tok (t : task) : Prop := (nul t = true -> ph t = 0) /\ (1 <= ph t -> ok (ost t) (ohr t) = true) /\ ph t <= 3.
Definition logok (s : st) : Prop := forall l1 v l2, log s = l1 ++ ERes v :: l2 -> cch s = 0 /\ Rv (log s) v (first_error (outs' (ts s))) /\ forall k t, nth_error (ts s) k = Some t -> nul t = true \/ In (EDec k) l1.
Record Inv (s : st) : Prop := {
  v_len : length (ag s) = S (length (ts s));
  v_tok : suml (suml af) (ag s) + lr (reg s) + nres (log s) = 1;
  v_ref : refs s = b1 (usr s) + suml (suml rf) (ag s) + lr (reg s);
  v_t : forall k t, nth_error (ts s) k = Some t -> tok t;
  v_dec : forall k t, nth_error (ts s) k = Some t -> 1 <= ph t -> In (EDec k) (log s);
  v_f : forall i k f, nth_error (ag s) i = Some k -> In f k -> fok s f;
  v_reg : forall j, reg s = Some j -> exists t, cur s j t /\ nul t = false /\ ph t <= 2;
  v_tl : forall i k f, nth_error (ag s) i = Some k -> In f (tl k) -> f = Rel;
  v_log : logok s;
  v_all : nres (log s) = 1 -> forall k t, nth_error (ts s) k = Some t -> dec1 t;
  v_done : nres (log s) = 1 -> done s = true;
  v_ag : forall i k, nth_error (ag s) (S i) = Some k -> k <> [] -> exists t, nth_error (ts s) i = Some t /\ ph t = 3;
  v_0 : usr s = true \/ nth_error (ag s) 0 = Some [];
  v_rl : forall i k, nth_error (ag s) (S i) = Some k -> k <> [] -> In Rel k }.

Lemma suml_in : forall A (f : A -> nat) l x, In x l -> f x <= suml f l.
Proof. intros A f l x I. apply In_nth_error in I. destruct I as [i N]. apply (suml_ge _ _ _ _ _ N). Qed.
Lemma suml_app : forall A (f : A -> nat) a b, suml f (a ++ b) = suml f a + suml f b.
Proof. intros A f a b. induction a as [|x a IH]; cbn; [reflexivity|]. lia. Qed.
Lemma excl : forall s i f k, Inv s -> nth_error (ag s) i = Some (f :: k) -> af f = 1 ->
  reg s = None /\ nres (log s) = 0 /\ suml af k = 0 /\ forall j k' g, i <> j -> nth_error (ag s) j = Some k' -> In g k' -> g = Rel.
Proof.
  intros s i f k I N A. pose proof (v_tok _ I) as T. pose proof (suml_ge _ (suml af) _ _ _ N) as G. cbn [suml] in G. rewrite A in G.
  split; [destruct (reg s); [cbn in T; lia|reflexivity]|]. split; [lia|]. split; [lia|]. intros j k' g NE M J.
  pose proof (suml_two _ (suml af) _ _ _ _ _ NE N M) as H. cbn [suml] in H. rewrite A in H. pose proof (suml_in _ af _ _ J) as Q. destruct g; cbn [af] in Q; try lia. reflexivity.
Qed.
Lemma nres_snoc : forall l e, nres (l ++ [e]) = nres l + match e with ERes _ | ELost => 1 | _ => 0 end.
Proof. intros l e. unfold nres. rewrite filter_app, app_length. destruct e; reflexivity. Qed.
Lemma nres_0 : forall l1 v l2, nres (l1 ++ ERes v :: l2) = 0 -> False.
Proof. intros l1 v l2. unfold nres. rewrite filter_app, app_length. cbn. lia. Qed.
Lemma Rv_mono : forall l l' v e, Rv l v e -> incl l l' -> Rv l' v e.
Proof. intros l l' v e [E|(E1 & E2 & k & E3)] I; [left; assumption|right]. eauto. Qed.
(** A step of the active thread. *)
Lemma Inv_act : forall s i f k s' k',
  Inv s -> nth_error (ag s) i = Some (f :: k) -> af f = 1 -> ag s' = set (ag s) i (k' ++ k) -> ts s' = ts s -> usr s' = usr s ->
  suml af k' + lr (reg s') + nres (log s') = 1 -> refs s' + rf f = refs s + suml rf k' + lr (reg s') ->
  (forall g, In g k' -> fok s' g) -> (forall g, In g (tl k') -> g = Rel) ->
  (forall j, reg s' = Some j -> exists t, cur s' j t /\ nul t = false /\ ph t <= 2) -> incl (log s) (log s') -> logok s' ->
  (nres (log s') = 1 -> done s' = true /\ forall k t, nth_error (ts s) k = Some t -> dec1 t) -> Inv s'.
Proof.
  intros s i f k s' k' I N A EA ET EU T R F TL RG IL LG DN. destruct (excl _ _ _ _ I N A) as (X1 & X2 & X3 & X4).
  pose proof (suml_set _ (suml af) _ _ _ (k' ++ k) N) as G1. pose proof (suml_set _ (suml rf) _ _ _ (k' ++ k) N) as G2. rewrite suml_app in G1, G2. cbn [suml] in G1, G2.
  pose proof (v_tok _ I) as T0. pose proof (v_ref _ I) as R0. rewrite X1 in T0, R0. cbn [lr] in T0, R0.
  assert (KR : forall g, In g k -> g = Rel) by (intros g J; apply (v_tl _ I _ _ g N J)).
  split.
  - rewrite EA, set_length, ET. apply I.
  - rewrite EA. lia.
  - rewrite EA, EU. lia.
  - rewrite ET. apply I.
  - rewrite ET. intros k0 t M P. apply IL. apply (v_dec _ I _ _ M P).
  - intros j d g M J. rewrite EA in M. apply nth_set in M. destruct M as [[<- ->]|[NE M]].
    + apply in_app_or in J. destruct J as [J|J]; [auto|]. rewrite (KR _ J). exact Logic.I.
    + rewrite (X4 _ _ _ NE M J). exact Logic.I.
  - assumption.
  - intros j d g M J. rewrite EA in M. apply nth_set in M. destruct M as [[<- ->]|[NE M]]; [|apply (v_tl _ I _ _ _ M J)].
    destruct k' as [|x k']; cbn in J; [apply KR; destruct k; [destruct J|right; exact J]|]. apply in_app_or in J. destruct J as [J|J]; auto.
  - assumption.
  - rewrite ET. intros Q. apply (DN Q).
  - intros Q. apply (DN Q).
  - rewrite ET. intros j d M NZ. rewrite EA in M. apply nth_set in M. destruct M as [[EQ ->]|[NE M]]; [subst i; apply (v_ag _ I _ _ N); discriminate|apply (v_ag _ I _ _ M NZ)].
  - rewrite EU, EA. destruct (v_0 _ I) as [U|U]; [left; assumption|right]. destruct i as [|i]; [rewrite U in N; discriminate|]. destruct (ag s); [discriminate|exact U].
  - intros j d M NZ. rewrite EA in M. apply nth_set in M. destruct M as [[EQ ->]|[NE M]]; [|apply (v_rl _ I _ _ M NZ)]. subst i. apply in_or_app. right.
    destruct (v_rl _ I _ _ N) as [Q|Q]; [discriminate|subst f; discriminate|assumption].
Qed.
Lemma logok_none : forall s, nres (log s) = 0 -> logok s.
Proof. intros s N l1 v l2 E. exfalso. rewrite E in N. apply (nres_0 _ _ _ N). Qed.
Lemma upto_same : forall s s' p, upto s p -> ts s' = ts s -> hr1 s' = hr1 s -> incl (log s) (log s') -> upto s' p.
Proof. intros s s' p [D V] E1 E2 E3. split; rewrite E1; [assumption|]. rewrite E2. eapply Rv_mono; eassumption. Qed.
Lemma cur_same : forall s s' j t, cur s j t -> ts s' = ts s -> hr1 s' = hr1 s -> cch s' = cch s -> incl (log s) (log s') -> cur s' j t.
Proof. intros s s' j t (C1 & C2 & C3 & C4) E1 E2 E3 E4. unfold cur. rewrite E1, E3. split; [assumption|]. split; [assumption|]. split; [assumption|]. eapply upto_same; eassumption. Qed.
Lemma fok_same : forall s s' f, fok s f -> ts s' = ts s -> hr1 s' = hr1 s -> cch s' = cch s -> incl (log s) (log s') -> fok s' f.
Proof.
  intros s s' f F E1 E2 E3 E4. assert (C : forall j t, cur s j t -> cur s' j t) by (intros j t Q; eapply cur_same; eassumption). assert (U : forall p, upto s p -> upto s' p) by (intros p Q; eapply upto_same; eassumption).
  destruct f; cbn [fok] in *; rewrite ?E1, ?E3.
  - destruct F as (t & F). eauto.
  - destruct F as (t & F & G). eauto.
  - destruct F as (t & F & G). eauto.
  - destruct F as (t & F & G). eauto.
  - destruct F as (t & F & G). eauto.
  - destruct F as (j & t & F & G1 & G2 & G3 & G4). exists j, t. split; [auto|]. split; [assumption|]. split; [assumption|]. split; [assumption|]. destruct G4 as [G4|[G4 G5]]; [left; assumption|right; auto].
  - destruct F. auto.
  - destruct F. auto.
  - exact Logic.I.
Qed.
Lemma logok_same : forall s s', logok s -> ts s' = ts s -> cch s' = cch s -> log s' = log s -> logok s'.
Proof. intros s s' L E1 E2 E3 l1 v l2. rewrite E1, E2, E3. apply L. Qed.
(** Steps that touch neither the tasks nor the private fields. *)
Lemma Inv_same : forall s s', Inv s -> ts s' = ts s -> hr1 s' = hr1 s -> cch s' = cch s -> log s' = log s -> reg s' = reg s -> (done s = true -> done s' = true) ->
  length (ag s') = length (ag s) -> suml (suml af) (ag s') = suml (suml af) (ag s) -> refs s' = b1 (usr s') + suml (suml rf) (ag s') + lr (reg s) ->
  (forall i k', nth_error (ag s') i = Some k' -> exists k, nth_error (ag s) i = Some k /\ (k' = k \/ exists f, k = f :: k')) -> (usr s' = true \/ nth_error (ag s') 0 = Some []) -> Inv s'.
Proof.
  intros s s' I E1 E2 E3 E4 E5 E6 E7 E8 E9 AG U. destruct I. split.
  - rewrite E7, E1. assumption.
  - rewrite E8, E5, E4. assumption.
  - rewrite E5. assumption.
  - rewrite E1. assumption.
  - rewrite E1, E4. assumption.
  - intros j d g M J. destruct (AG _ _ M) as (k & M' & Q). apply (fok_same s); auto; [|rewrite E4; apply incl_refl]. apply (v_f0 _ _ _ M'). destruct Q as [->|(f & ->)]; [assumption|right; assumption].
  - rewrite E5. intros j R. destruct (v_reg0 _ R) as (t & C & Q). exists t. split; [|assumption]. eapply cur_same; eauto. rewrite E4. apply incl_refl.
  - intros j d g M J. destruct (AG _ _ M) as (k & M' & Q). apply (v_tl0 _ _ _ M'). destruct Q as [->|(f & ->)]; [assumption|]. cbn. destruct d; [destruct J|right; assumption].
  - eapply logok_same; eauto.
  - rewrite E1, E4. assumption.
  - rewrite E4. auto.
  - rewrite E1. intros j d M NZ. destruct (AG _ _ M) as (k & M' & Q). apply (v_ag0 _ _ M'). destruct Q as [->|(f & ->)]; [assumption|discriminate].
  - assumption.
  - intros j d M NZ. destruct (AG _ _ M) as (k & M' & Q). destruct Q as [->|(f & ->)]; [apply (v_rl0 _ _ M' NZ)|]. destruct d as [|g d]; [contradiction|]. left. apply (v_tl0 _ _ _ M'). left. reflexivity.
Qed.
Lemma outs_nth : forall l p t, nth_error l p = Some t -> nth_error (outs' l) p = Some (if nul t then (Completed, S_OK) else (ost t, ohr t)).
Proof. intros l p t N. unfold outs'. erewrite map_nth_error by exact N. reflexivity. Qed.
Lemma ok_code : forall x e, ok x e = true -> x <> Completed -> e <> S_OK.
Proof.
  intros [] e H N Q; subst e; try discriminate H. contradiction.
Qed.
Lemma bad_code : forall s p, Inv s -> (forall k t, k < p -> nth_error (ts s) k = Some t -> dec1 t) -> forall x, In x (firstn p (outs' (ts s))) -> bad x = true -> snd x <> S_OK.
Proof.
  intros s p I D x J B. apply In_nth_error in J. destruct J as [k N]. assert (L : k < p).
  { assert (nth_error (firstn p (outs' (ts s))) k <> None) as Q by congruence. apply nth_error_Some in Q. pose proof (firstn_le_length p (outs' (ts s))). rewrite firstn_length in Q. lia. }
  assert (M : nth_error (outs' (ts s)) k = Some x).
  { rewrite <- (firstn_skipn p (outs' (ts s))). rewrite nth_error_app1; [assumption|]. apply nth_error_Some. congruence. }
  unfold outs' in M. rewrite nth_error_map in M. destruct (nth_error (ts s) k) as [t|] eqn:NT; [|discriminate]. cbn in M. injection M as <-. specialize (D _ _ L NT). destruct (v_t _ I _ _ NT) as (T1 & T2 & _).
  unfold dec1 in D. destruct (nul t); cbn in *; [discriminate|]. destruct D as [D|D]; [discriminate|]. apply (ok_code (ost t)); [auto|]. unfold bad in B. cbn in B. destruct (ost t); congruence.
Qed.
Lemma upto_ok : forall s p t s', Inv s -> upto s p -> nth_error (ts s) p = Some t -> dec1 t -> (nul t = true \/ ost t = Completed) -> ts s' = ts s -> hr1 s' = hr1 s -> incl (log s) (log s') -> upto s' (S p).
Proof.
  intros s p t s' I [D V] N D1 C E1 E2 E3. split; rewrite E1.
  - intros k t' L M. destruct (Nat.eq_dec k p) as [->|NE]; [congruence|]. apply (D k); [lia|assumption].
  - rewrite E2. apply (Rv_mono _ _ _ _ V) in E3. rewrite (firstn_S _ _ _ _ (outs_nth _ _ _ N)).
    set (o := if nul t then (Completed, S_OK) else (ost t, ohr t)). assert (B : bad o = false) by (unfold o; destruct (nul t); [reflexivity|]; destruct C as [C|C]; [discriminate|rewrite C; reflexivity]).
    pose proof (bad_code s p I D) as G. destruct (Z.eq_dec (first_error (firstn p (outs' (ts s)))) S_OK) as [Z|Z]; [rewrite fe_app_ok, B by assumption; rewrite Z in E3; exact E3|rewrite fe_app_bad by assumption; exact E3].
Qed.
Lemma upto_cas : forall s p t s' c, Inv s -> upto s p -> nth_error (ts s) p = Some t -> nul t = false -> 1 <= ph t -> ost t <> Completed ->
  (c = ohr t \/ (c = E_PENDING /\ In (ESee p E_PENDING) (log s))) -> ts s' = ts s -> hr1 s' = (if (hr1 s =? S_OK)%Z then c else hr1 s) -> log s' = log s -> upto s' (S p).
Proof.
  intros s p t s' c I [D V] N NU P C CC E1 E2 E3. split; rewrite E1.
  - intros k t' L M. destruct (Nat.eq_dec k p) as [->|NE]; [right; congruence|]. apply (D k); [lia|assumption].
  - rewrite E2, E3. rewrite (firstn_S _ _ _ _ (outs_nth _ _ _ N)). rewrite NU. pose proof (bad_code s p I D) as G. destruct (v_t _ I _ _ N) as (T1 & T2 & _). pose proof (ok_code _ _ (T2 P) C) as K.
    assert (B : bad (ost t, ohr t) = true) by (unfold bad; cbn; destruct (ost t); congruence).
    destruct (Z.eqb_spec (hr1 s) S_OK) as [Z|Z].
    + assert (F : first_error (firstn p (outs' (ts s))) = S_OK) by (destruct V as [V|(V & _)]; [congruence|rewrite Z in V; discriminate]). rewrite fe_app_ok, B by assumption. cbn [snd]. destruct CC as [->|[-> J]]; [left; reflexivity|right; eauto].
    + assert (F : first_error (firstn p (outs' (ts s))) <> S_OK) by (destruct V as [V|(_ & V & _)]; congruence). rewrite fe_app_bad by assumption. assumption.
Qed.
Lemma incl_snoc : forall (l : list event) e, incl l (l ++ [e]).
Proof. intros l e x J. apply in_or_app. left. assumption. Qed.
Lemma step_inv : forall s i f k s', Inv s -> nth_error (ag s) i = Some (f :: k) -> step s i f k = Some s' -> Inv s'.
Proof.
  intros s i f k s' I N E. pose proof (v_f _ I _ _ f N (or_introl eq_refl)) as F.
  destruct f as [|j|j|j x|j|c| | |]; cbn [step fok] in *.
  9:{ (* Rel *) injection E as <-. pose proof (suml_set _ (suml af) _ _ _ k N) as G1. pose proof (suml_set _ (suml rf) _ _ _ k N) as G2. cbn [suml af rf] in G1, G2. pose proof (v_ref _ I) as R0.
    eapply (Inv_same s); try reflexivity; [exact I|auto| | | | |].
    - cbn [put w_refs ag]. rewrite set_length. reflexivity.
    - cbn [put w_refs ag]. lia.
    - cbn [put w_refs ag refs usr]. lia.
    - cbn [put w_refs ag]. intros j k' M. apply nth_set in M. destruct M as [[<- ->]|[NE M]]; eauto.
    - cbn [put w_refs ag usr]. destruct (v_0 _ I) as [U|U]; [left; assumption|right]. destruct i as [|i]; [rewrite U in N; discriminate|]. destruct (ag s); [discriminate|exact U]. }
  all: destruct (excl _ _ _ _ I N eq_refl) as (X1 & X2 & X3 & X4).
  - (* I1 *) destruct F as (t & C). pose proof C as (C1 & C2 & C3 & C4). destruct (Nat.eqb_spec (cch s) 0) as [|_]; [lia|]. rewrite C3 in E. destruct (nul t) eqn:NU; injection E as <-.
    + eapply (Inv_act s i I1 k _ [_; Rel]); try reflexivity; [exact I|exact N|cbn; rewrite X1, X2; reflexivity|cbn; rewrite X1; cbn; lia| | |cbn; congruence|apply incl_refl|apply logok_none; exact X2|cbn; lia].
      * intros g [<-|[<-|[]]]; [|exact Logic.I]. exists t. split; [eapply (cur_same s); try reflexivity; [exact C|apply incl_refl]|]. left. auto.
      * intros g [<-|[]]. reflexivity.
    + eapply (Inv_act s i I1 k _ [_]); try reflexivity; [exact I|exact N|cbn; rewrite X1, X2; reflexivity|cbn; rewrite X1; cbn; lia| |intros g []|cbn; congruence|apply incl_refl|apply logok_none; exact X2|cbn; lia].
      intros g [<-|[]]. exists t. split; [eapply (cur_same s); try reflexivity; [exact C|apply incl_refl]|assumption].
  - (* Add *) destruct F as (t & C & NU). pose proof C as (C1 & C2 & C3 & C4). rewrite C3 in E. destruct (Nat.eqb_spec (ph t) 0) as [P|P]; injection E as <-.
    + eapply (Inv_act s i (Add j) k _ []); try reflexivity; [exact I|exact N|cbn; rewrite X2; reflexivity|cbn; lia|intros g []|intros g []| |apply incl_refl|apply logok_none; exact X2|cbn; lia].
      cbn. intros j0 [= <-]. exists t. split; [eapply (cur_same s); try reflexivity; [exact C|apply incl_refl]|]. split; [assumption|lia].
    + eapply (Inv_act s i (Add j) k _ [_]); try reflexivity; [exact I|exact N|cbn; rewrite X1, X2; reflexivity|cbn; rewrite X1; cbn; lia| |intros g []|cbn; congruence|apply incl_refl|apply logok_none; exact X2|cbn; lia].
      intros g [<-|[]]. exists t. split; [eapply (cur_same s); try reflexivity; [exact C|apply incl_refl]|]. split; [assumption|lia].
  - (* Sta *) destruct F as (t & C & NU & P). pose proof C as (C1 & C2 & C3 & C4). rewrite C3 in E. injection E as <-.
    eapply (Inv_act s i (Sta j) k _ [_; Rel]); try reflexivity; [exact I|exact N|cbn; rewrite X1, X2; reflexivity|cbn; rewrite X1; cbn; lia| | |cbn; congruence|apply incl_refl|apply logok_none; exact X2|cbn; lia].
    + intros g [<-|[<-|[]]]; [|exact Logic.I]. exists t. split; [eapply (cur_same s); try reflexivity; [exact C|apply incl_refl]|]. right. auto.
    + intros g [<-|[]]. reflexivity.
  - (* On *) destruct F as (t & C & Q). pose proof C as (C1 & C2 & C3 & C4).
    assert (HR : x <> Completed -> x <> Canceled -> Inv (put s i (Hr j :: k))).
    { intros Q1 Q2. eapply (Inv_act s i (On j x) k _ [_]); try reflexivity; [exact I|exact N|cbn; rewrite X1, X2; reflexivity|cbn; rewrite X1; cbn; lia| |intros g []|cbn; congruence|apply incl_refl|apply logok_none; exact X2|cbn; lia].
      intros g [<-|[]]. exists t. split; [eapply (cur_same s); try reflexivity; [exact C|apply incl_refl]|]. destruct Q as [(Q & ->)|(Q & P & ->)]; [contradiction|auto]. }
    destruct x; injection E as <-; [apply HR; discriminate| | |apply HR; discriminate].
    + eapply (Inv_act s i (On j Completed) k _ [_]); try reflexivity; [exact I|exact N|cbn; rewrite X1, X2; reflexivity|cbn; rewrite X1; cbn; lia| |intros g []|cbn; congruence|apply incl_refl|apply logok_none; exact X2|cbn; lia].
      intros g [<-|[]]. cbn. split; [assumption|]. rewrite <- C2. eapply (upto_ok s) with (t := t); try reflexivity; try eassumption; [| |apply incl_refl]; destruct Q as [(Q & _)|(Q & P & Q')]; unfold dec1; auto.
    + eapply (Inv_act s i (On j Canceled) k _ [_]); try reflexivity; [exact I|exact N|cbn; rewrite X1, X2; reflexivity|cbn; rewrite X1; cbn; lia| |intros g []|cbn; congruence|apply incl_refl|apply logok_none; exact X2|cbn; lia].
      intros g [<-|[]]. destruct Q as [(Q & Q')|(Q & P & Q')]; [discriminate|]. exists j, t. split; [eapply (cur_same s); try reflexivity; [exact C|apply incl_refl]|]. split; [assumption|]. split; [assumption|]. split; [congruence|]. left.
      destruct (v_t _ I _ _ C3) as (_ & T2 & _). specialize (T2 P). rewrite <- Q' in T2. cbn in T2. apply Z.eqb_eq in T2. congruence.
  - (* Hr *) destruct F as (t & C & NU & P & Q1 & Q2). pose proof C as (C1 & C2 & C3 & C4). rewrite C3 in E.
    assert (HH : forall c, c = ohr t \/ c = E_PENDING -> Inv (say (put s i (Cas c :: k)) (ESee j c))).
    { intros c CC. eapply (Inv_act s i (Hr j) k _ [_]); try reflexivity; [exact I|exact N|cbn [say put log reg suml af]; rewrite nres_snoc, X1, X2; reflexivity|cbn; rewrite X1; cbn; lia| |intros g []|cbn; congruence|apply incl_snoc|apply logok_none; cbn [say put log]; rewrite nres_snoc, X2; reflexivity|cbn [say put log]; rewrite nres_snoc; cbn; lia].
    intros g [<-|[]]. exists j, t. split; [eapply (cur_same s); try reflexivity; [exact C|apply incl_snoc]|]. split; [assumption|]. split; [assumption|]. split; [assumption|].
      destruct CC as [->| ->]; [left; reflexivity|right]. split; [reflexivity|]. cbn [say put log]. apply in_or_app. right. left. reflexivity. }
    injection E as <-. apply HH. destruct (ph t) as [|[|]]; auto.
  - (* Cas *) destruct F as (j & t & C & NU & P & Q1 & Q2). pose proof C as (C1 & C2 & C3 & C4). injection E as <-.
    eapply (Inv_act s i (Cas c) k _ [_]); try reflexivity; [exact I|exact N|destruct (_ =? _)%Z; reflexivity|destruct (_ =? _)%Z; reflexivity|destruct (_ =? _)%Z; reflexivity| | | |intros g []| | | | ].
    + destruct (_ =? _)%Z; cbn; rewrite X1, X2; reflexivity.
    + destruct (_ =? _)%Z; cbn; rewrite X1; cbn; lia.
    + intros g [<-|[]]. assert (U : upto (put (if (hr1 s =? S_OK)%Z then w_hr1 s c else s) i (Dec :: k)) (S j)).
      { eapply upto_cas with (t := t) (c := c); try eassumption; destruct (_ =? _)%Z; reflexivity. }
      cbn [fok]. destruct (hr1 s =? S_OK)%Z; cbn [put w_hr1 cch ts] in *; rewrite <- C2; auto.
    + destruct (_ =? _)%Z; cbn; congruence.
    + destruct (_ =? _)%Z; apply incl_refl.
    + apply logok_none. destruct (_ =? _)%Z; exact X2.
    + destruct (_ =? _)%Z; cbn; lia.
  - (* Dec *) destruct F as (C1 & C2). cbn [w_cch cch] in E. destruct (Nat.eqb_spec (cch s - 1) 0) as [Z|Z]; injection E as <-.
    + eapply (Inv_act s i Dec k _ [_]); try reflexivity; [exact I|exact N|cbn; rewrite X1, X2; reflexivity|cbn; rewrite X1; cbn; lia| |intros g []|cbn; congruence|apply incl_refl|apply logok_none; exact X2|cbn; lia].
      intros g [<-|[]]. cbn. split; [assumption|]. replace (length (ts s)) with (S (length (ts s) - cch s)) by lia. eapply (upto_same s); try reflexivity; [exact C2|apply incl_refl].
    + eapply (Inv_act s i Dec k _ [_]); try reflexivity; [exact I|exact N|cbn; rewrite X1, X2; reflexivity|cbn; rewrite X1; cbn; lia| |intros g []|cbn; congruence|apply incl_refl|apply logok_none; exact X2|cbn; lia].
      intros g [<-|[]]. cbn [fok put w_cch ts cch]. destruct (nth_error (ts s) (length (ts s) - (cch s - 1))) as [t|] eqn:NT; [|apply nth_error_None in NT; lia]. exists t. unfold cur. cbn [put w_cch ts cch]. split; [lia|]. split; [reflexivity|]. split; [assumption|].
      replace (length (ts s) - (cch s - 1)) with (S (length (ts s) - cch s)) by lia. eapply (upto_same s); try reflexivity; [exact C2|apply incl_refl].
  - (* Res *) destruct F as (C1 & [C2 C3]). assert (AL : forall k t, nth_error (ts s) k = Some t -> dec1 t).
    { intros k0 t M. apply (C2 k0); [|assumption]. apply nth_error_Some. congruence. }
    destruct (done s) eqn:D; injection E as <-.
    + eapply (Inv_act s i Res k _ []); try reflexivity; [exact I|exact N|cbn [say put log reg suml af]; rewrite nres_snoc, X1, X2; reflexivity|cbn; rewrite X1; cbn; lia|intros g []|intros g []|cbn; congruence|apply incl_snoc| |cbn [say put log done]; auto].
      intros l1 v l2 E. cbn [say put log] in E. exfalso. assert (Q : In (ERes v) (log s ++ [ELost])) by (rewrite E; apply in_or_app; right; left; reflexivity). apply in_app_or in Q. destruct Q as [Q|[Q|[]]]; [|discriminate].
      apply in_split in Q. destruct Q as (a & b & Q). rewrite Q in X2. apply (nres_0 _ _ _ X2).
    + eapply (Inv_act s i Res k _ []); try reflexivity; [exact I|exact N|cbn [say put w_done log reg suml af]; rewrite nres_snoc, X1, X2; reflexivity|cbn; rewrite X1; cbn; lia|intros g []|intros g []|cbn; congruence|apply incl_snoc| |cbn [say put log done w_done]; auto].
      intros l1 v l2 E. cbn [say put w_done log] in E.
      assert (Q : l1 = log s /\ v = hr1 s).
      { destruct l2 as [|e l2]; [apply app_inj_tail in E; destruct E as [-> E]; split; congruence|]. exfalso. destruct (exists_last (l := ERes v :: e :: l2)) as (q & z & Q); [discriminate|]. rewrite Q, app_assoc in E. apply app_inj_tail in E. destruct E as [E _].
        destruct q as [|y q]; [destruct l2; discriminate|]. injection Q as <- Q. rewrite E in X2. apply (nres_0 _ _ _ X2). }
      destruct Q as [-> ->]. split; [exact C1|]. split.
      * cbn [say put w_done log ts]. eapply Rv_mono; [|apply incl_snoc]. rewrite firstn_all2 in C3; [exact C3|]. unfold outs'. rewrite map_length. lia.
      * intros k0 t M. cbn [say put w_done ts] in M. destruct (AL _ _ M) as [A|A]; [left; assumption|right]. apply (v_dec _ I _ _ M A).
Qed.

(** A task goes on. *)
Definition ext (t t' : task) : Prop := nul t = false /\ nul t' = false /\ ph t <= ph t' /\ (1 <= ph t -> ost t' = ost t /\ ohr t' = ohr t).
Lemma firstn_out : forall l p k t t', nth_error l k = Some t -> ext t t' -> (k < p -> 1 <= ph t) -> firstn p (outs' (set l k t')) = firstn p (outs' l).
Proof.
  induction l as [|x l IH]; intros p k t t' N E P; [destruct k; discriminate|]. destruct p as [|p]; [reflexivity|]. destruct k as [|k]; cbn in *.
  - injection N as ->. destruct E as (E1 & E2 & _ & E3). destruct (E3 (P ltac:(lia))) as [-> ->]. rewrite E1, E2. reflexivity.
  - f_equal. eapply IH; [exact N|exact E|]. intros Q. apply P. lia.
Qed.
Lemma upto_ext : forall s s' k t t' p, upto s p -> nth_error (ts s) k = Some t -> ext t t' -> ts s' = set (ts s) k t' -> hr1 s' = hr1 s -> incl (log s) (log s') -> upto s' p.
Proof.
  intros s s' k t t' p [D V] N E E1 E2 E3. split; rewrite E1.
  - intros j u L M. apply nth_set in M. destruct M as [[-> ->]|[_ M]]; [|apply (D _ _ L M)]. destruct E as (Q1 & Q2 & Q3 & _). destruct (D _ _ L N) as [Q|Q]; [congruence|right; lia].
  - rewrite E2. erewrite firstn_out; [eapply Rv_mono; eassumption|exact N|exact E|]. intros L. destruct (D _ _ L N) as [Q|Q]; [|assumption]. destruct E. congruence.
Qed.
Lemma cur_ext : forall s s' k t t' j u, cur s j u -> nth_error (ts s) k = Some t -> ext t t' -> ts s' = set (ts s) k t' -> hr1 s' = hr1 s -> cch s' = cch s -> incl (log s) (log s') ->
  exists u', cur s' j u' /\ ((j = k /\ u = t /\ u' = t') \/ (j <> k /\ u' = u)).
Proof.
  intros s s' k t t' j u (C1 & C2 & C3 & C4) N E E1 E2 E3 E4. assert (U : upto s' j) by (eapply upto_ext; eassumption).
  destruct (Nat.eq_dec j k) as [->|NE].
  - exists t'. split; [|left; split; [reflexivity|split; [congruence|reflexivity]]]. unfold cur. rewrite E1, E3, set_length. split; [assumption|]. split; [assumption|]. split; [|assumption]. apply nth_set_eq. apply nth_error_Some. congruence.
  - exists u. split; [|auto]. unfold cur. rewrite E1, E3, set_length. split; [assumption|]. split; [assumption|]. split; [|assumption]. rewrite nth_set_neq; [assumption|congruence].
Qed.
Lemma fok_ext : forall s s' k t t' f, fok s f -> nth_error (ts s) k = Some t -> ext t t' -> ts s' = set (ts s) k t' -> hr1 s' = hr1 s -> cch s' = cch s -> incl (log s) (log s') -> fok s' f.
Proof.
  intros s s' k t t' f F N E E1 E2 E3 E4. assert (C : forall j u, cur s j u -> exists u', cur s' j u' /\ ((j = k /\ u = t /\ u' = t') \/ (j <> k /\ u' = u))) by (intros; eapply cur_ext; eassumption).
  assert (U : forall p, upto s p -> upto s' p) by (intros p Q; eapply upto_ext; eassumption).
  pose proof E as (Q1 & Q2 & Q3 & Q4). assert (LN : length (ts s') = length (ts s)) by (rewrite E1; apply set_length).
  destruct f as [|j|j|j x|j|c| | |]; cbn [fok] in *; rewrite ?LN, ?E3.
  - destruct F as (u & F). destruct (C _ _ F) as (u' & C' & _). eauto.
  - destruct F as (u & F & G). destruct (C _ _ F) as (u' & C' & [(-> & -> & ->)|(_ & ->)]); eauto.
  - destruct F as (u & F & G & P). destruct (C _ _ F) as (u' & C' & [(-> & -> & ->)|(_ & ->)]); [|eauto]. exists t'. split; [assumption|]. split; [assumption|lia].
  - destruct F as (u & F & G). destruct (C _ _ F) as (u' & C' & [(-> & -> & ->)|(_ & ->)]); [|eauto]. exists t'. split; [assumption|]. destruct G as [(G & _)|(G1 & G2 & G3)]; [congruence|]. right. split; [assumption|]. split; [lia|]. destruct (Q4 G2). congruence.
  - destruct F as (u & F & G1 & G2 & G3 & G4). destruct (C _ _ F) as (u' & C' & [(-> & -> & ->)|(_ & ->)]); [|eauto 7]. exists t'. destruct (Q4 G2) as [-> _]. split; [assumption|]. split; [assumption|]. split; [lia|auto].
  - destruct F as (j & u & F & G1 & G2 & G3 & G4). destruct (C _ _ F) as (u' & C' & Q). exists j, u'. split; [assumption|].
    assert (G5 : c = ohr u \/ (c = E_PENDING /\ In (ESee j E_PENDING) (log s'))) by (destruct G4 as [G4|[G4 G5]]; auto).
    destruct Q as [(-> & -> & ->)|(_ & ->)]; [|auto]. destruct (Q4 G2) as [-> ->]. split; [assumption|]. split; [lia|auto].
  - destruct F. auto.
  - destruct F. auto.
  - exact Logic.I.
Qed.
Lemma logok_ext : forall s s' k t t' e, Inv s -> nth_error (ts s) k = Some t -> ext t t' -> ts s' = set (ts s) k t' -> cch s' = cch s -> (log s' = log s \/ log s' = log s ++ [e] /\ match e with ERes _ => False | _ => True end) -> logok s'.
Proof.
  intros s s' k t t' e I N E E1 E2 E3 l1 v l2 Q.
  assert (Q' : exists l3, log s = l1 ++ ERes v :: l3).
  { destruct E3 as [E3|[E3 E4]]; [rewrite <- E3; eauto|]. rewrite E3 in Q. destruct l2 as [|x l2]; [apply app_inj_tail in Q; destruct Q as [_ ->]; contradiction|].
    destruct (exists_last (l := x :: l2)) as (q & z & R); [discriminate|]. rewrite R in Q. rewrite app_comm_cons, app_assoc in Q. apply app_inj_tail in Q. destruct Q. eauto. }
  destruct Q' as (l3 & Q'). destruct (v_log _ I _ _ _ Q') as (R1 & R2 & R3). split; [congruence|]. split.
  - rewrite E1. assert (P : 1 <= ph t).
    { assert (NR : nres (log s) = 1) by (pose proof (v_tok _ I); rewrite Q'; rewrite Q' in *; unfold nres in *; rewrite filter_app, app_length in *; cbn in *; lia). destruct (v_all _ I NR _ _ N) as [D|D]; [destruct E; congruence|assumption]. }
    rewrite <- (firstn_all2 (n := S (length (ts s))) (outs' (set (ts s) k t'))); [|unfold outs'; rewrite map_length, set_length; lia].
    erewrite firstn_out; [|exact N|exact E|auto]. rewrite firstn_all2; [|unfold outs'; rewrite map_length; lia]. eapply Rv_mono; [exact R2|]. destruct E3 as [->|[-> _]]; [apply incl_refl|apply incl_snoc].
  - rewrite E1. intros j u M. apply nth_set in M. destruct M as [[-> ->]|[_ M]]; [|apply (R3 _ _ M)]. destruct (R3 _ _ N) as [D|D]; [destruct E; congruence|auto].
Qed.
Lemma tok_ext : forall t k x e, ok x e = true -> t = TK false k x e -> k <= 3 -> tok t.
Proof. intros t k x e O -> L. split; cbn; [discriminate|]. auto. Qed.
Lemma exec_inv : forall s a s', Inv s -> exec s a = Some s' -> Inv s'.
Proof.
  intros s [i|k x e|k|k| |] s' I E; cbn [exec] in E.
  - destruct (nth_error (ag s) i) as [[|f k]|] eqn:N; try discriminate. eapply step_inv; eassumption.
  - (* Decide *) destruct (nth_error (ts s) k) as [t|] eqn:N; [|discriminate]. destruct (negb (nul t) && (ph t =? 0) && ok x e) eqn:G; [|discriminate]. injection E as <-.
    apply andb_true_iff in G. destruct G as [G OK]. apply andb_true_iff in G. destruct G as [NU P]. apply negb_true_iff in NU. apply Nat.eqb_eq in P.
    assert (X : ext t (TK false 1 x e)) by (split; [assumption|]; split; [reflexivity|]; cbn; split; [lia|lia]).
    split; cbn [say w_ts ts reg cch hr1 done refs usr ag log].
    + rewrite set_length. apply I.
    + rewrite nres_snoc. pose proof (v_tok _ I). lia.
    + apply I.
    + intros j u M. apply nth_set in M. destruct M as [[-> ->]|[_ M]]; [|apply (v_t _ I _ _ M)]. eapply tok_ext; [exact OK|reflexivity|lia].
    + intros j u M Q. apply in_or_app. apply nth_set in M. destruct M as [[-> ->]|[_ M]]; [right; left; reflexivity|left; apply (v_dec _ I _ _ M Q)].
    + intros j d g M J. eapply (fok_ext s); try reflexivity; [apply (v_f _ I _ _ _ M J)|exact N|exact X|apply incl_snoc].
    + intros j R. destruct (v_reg _ I _ R) as (u & C & Q1 & Q2). destruct (cur_ext s (say (w_ts s (set (ts s) k (TK false 1 x e))) (EDec k)) k t _ j u C N X eq_refl eq_refl eq_refl (incl_snoc _ _)) as (u' & C' & Q).
      exists u'. split; [assumption|]. destruct Q as [(_ & _ & ->)|(_ & ->)]; [cbn; auto|auto].
    + apply I.
    + eapply (logok_ext s) with (e := EDec k); try reflexivity; [exact I|exact N|exact X|right; split; [reflexivity|exact Logic.I]].
    + rewrite nres_snoc. intros Q j u M. apply nth_set in M. destruct M as [[-> ->]|[_ M]]; [right; cbn; lia|]. apply (v_all _ I) with j; [lia|assumption].
    + rewrite nres_snoc. intros Q. apply I. lia.
    + intros j d M NZ. destruct (v_ag _ I _ _ M NZ) as (u & N' & P'). destruct (Nat.eq_dec j k) as [->|NE]; [rewrite N in N'; injection N' as <-; lia|]. exists u. rewrite nth_set_neq; [auto|congruence].
    + apply I.
    + apply I.
  - (* Write *) destruct (nth_error (ts s) k) as [t|] eqn:N; [|discriminate]. destruct (Nat.eqb_spec (ph t) 1) as [P|]; [|discriminate]. injection E as <-.
    destruct (v_t _ I _ _ N) as (T1 & T2 & T3). assert (NU : nul t = false) by (destruct (nul t); [specialize (T1 eq_refl); lia|reflexivity]). rewrite NU.
    assert (X : ext t (TK false 2 (ost t) (ohr t))) by (split; [assumption|]; split; [reflexivity|]; cbn; split; [lia|auto]).
    split; cbn [say w_ts ts reg cch hr1 done refs usr ag log].
    + rewrite set_length. apply I.
    + apply I.
    + apply I.
    + intros j u M. apply nth_set in M. destruct M as [[-> ->]|[_ M]]; [|apply (v_t _ I _ _ M)]. eapply tok_ext; [apply T2; lia|reflexivity|lia].
    + intros j u M Q. apply nth_set in M. destruct M as [[-> ->]|[_ M]]; [apply (v_dec _ I _ _ N); lia|apply (v_dec _ I _ _ M Q)].
    + intros j d g M J. eapply (fok_ext s); try reflexivity; [apply (v_f _ I _ _ _ M J)|exact N|exact X|apply incl_refl].
    + intros j R. destruct (v_reg _ I _ R) as (u & C & Q1 & Q2). destruct (cur_ext s (w_ts s (set (ts s) k (TK false 2 (ost t) (ohr t)))) k t _ j u C N X eq_refl eq_refl eq_refl (incl_refl _)) as (u' & C' & Q).
      exists u'. split; [assumption|]. destruct Q as [(_ & _ & ->)|(_ & ->)]; [cbn; auto|auto].
    + apply I.
    + eapply (logok_ext s) with (e := ELost); try reflexivity; [exact I|exact N|exact X|left; reflexivity].
    + intros Q j u M. apply nth_set in M. destruct M as [[-> ->]|[_ M]]; [right; cbn; lia|]. apply (v_all _ I) with j; assumption.
    + apply I.
    + intros j d M NZ. destruct (v_ag _ I _ _ M NZ) as (u & N' & P'). destruct (Nat.eq_dec j k) as [->|NE]; [rewrite N in N'; injection N' as <-; lia|]. exists u. rewrite nth_set_neq; [auto|congruence].
    + apply I.
    + apply I.
  - (* Move *) destruct (nth_error (ts s) k) as [t|] eqn:N; [|discriminate]. destruct (Nat.eqb_spec (ph t) 2) as [P|]; [|discriminate].
    destruct (v_t _ I _ _ N) as (T1 & T2 & T3). assert (NU : nul t = false) by (destruct (nul t); [specialize (T1 eq_refl); lia|reflexivity]). rewrite NU in E.
    assert (X : ext t (TK false 3 (ost t) (ohr t))) by (split; [assumption|]; split; [reflexivity|]; cbn; split; [lia|auto]).
    assert (AE : exists k0, nth_error (ag s) (S k) = Some k0 /\ k0 = []).
    { destruct (nth_error (ag s) (S k)) as [k0|] eqn:NA; [|apply nth_error_None in NA; rewrite (v_len _ I) in NA; assert (k < length (ts s)) by (apply nth_error_Some; congruence); lia]. exists k0. split; [reflexivity|].
      destruct k0; [reflexivity|]. destruct (v_ag _ I _ _ NA) as (u & N' & P'); [discriminate|]. rewrite N in N'. injection N' as <-. lia. }
    destruct AE as (k0 & NA & ->).
    assert (B : forall s1, ts s1 = set (ts s) k (TK false 3 (ost t) (ohr t)) -> hr1 s1 = hr1 s -> cch s1 = cch s -> log s1 = log s -> done s1 = done s -> usr s1 = usr s ->
      ((reg s = Some k /\ reg s1 = None /\ refs s1 = refs s /\ ag s1 = set (ag s) (S k) [On k (ost t); Rel]) \/ (reg s <> Some k /\ reg s1 = reg s /\ refs s1 = refs s /\ ag s1 = ag s)) -> Inv s1).
    { intros s1 E1 E2 E3 E4 E5 E6 Q. assert (IL : incl (log s) (log s1)) by (rewrite E4; apply incl_refl).
      pose proof (suml_set _ (suml af) _ _ _ [On k (ost t); Rel] NA) as G1. pose proof (suml_set _ (suml rf) _ _ _ [On k (ost t); Rel] NA) as G2. cbn [suml af rf] in G1, G2.
      pose proof (v_tok _ I) as T0. pose proof (v_ref _ I) as R0.
      split.
      + rewrite E1, set_length. destruct Q as [(_ & _ & _ & ->)|(_ & _ & _ & ->)]; rewrite ?set_length; apply I.
      + rewrite E4. destruct Q as [(Q0 & -> & _ & ->)|(_ & -> & _ & ->)]; [rewrite Q0 in T0; cbn [lr] in *; lia|assumption].
      + rewrite E6. destruct Q as [(Q0 & -> & -> & ->)|(_ & -> & -> & ->)]; [rewrite Q0 in R0; cbn [lr] in *; lia|assumption].
      + rewrite E1. intros j u M. apply nth_set in M. destruct M as [[-> ->]|[_ M]]; [|apply (v_t _ I _ _ M)]. eapply tok_ext; [apply T2; lia|reflexivity|lia].
      + rewrite E1, E4. intros j u M Z. apply nth_set in M. destruct M as [[-> ->]|[_ M]]; [apply (v_dec _ I _ _ N); lia|apply (v_dec _ I _ _ M Z)].
      + intros j d g M J. assert (OLD : forall i k' f, nth_error (ag s) i = Some k' -> In f k' -> fok s1 f) by (intros; eapply fok_ext; try eassumption; eapply (v_f _ I); eassumption).
        destruct Q as [(Q0 & _ & _ & EA)|(_ & _ & _ & EA)]; rewrite EA in M; [|eapply OLD; eassumption]. apply nth_set in M. destruct M as [[EQ ->]|[_ M]]; [|eapply OLD; eassumption].
        destruct J as [<-|[<-|[]]]; [|exact Logic.I]. destruct (v_reg _ I _ Q0) as (u & C & Q1 & Q2). destruct (cur_ext s s1 k t _ k u C N X E1 E2 E3 IL) as (u' & C' & [(_ & _ & ->)|(F & _)]); [|contradiction].
        exists (TK false 3 (ost t) (ohr t)). split; [assumption|]. right. cbn. auto.
      + intros j R. destruct Q as [(_ & Q & _)|(Q0 & Q & _)]; [congruence|]. rewrite Q in R. destruct (v_reg _ I _ R) as (u & C & Q1 & Q2). destruct (cur_ext s s1 k t _ j u C N X E1 E2 E3 IL) as (u' & C' & [(-> & _)|(_ & ->)]); [congruence|]. eauto.
      + intros j d g M J. destruct Q as [(Q0 & _ & _ & EA)|(_ & _ & _ & EA)]; rewrite EA in M; [|apply (v_tl _ I _ _ _ M J)]. apply nth_set in M. destruct M as [[EQ ->]|[_ M]]; [|apply (v_tl _ I _ _ _ M J)]. destruct J as [<-|[]]. reflexivity.
      + eapply (logok_ext s) with (e := ELost); [exact I|exact N|exact X|exact E1|exact E3|left; exact E4].
      + rewrite E1, E4. intros Z j u M. apply nth_set in M. destruct M as [[-> ->]|[_ M]]; [right; cbn; lia|]. apply (v_all _ I) with j; assumption.
      + rewrite E4, E5. apply I.
      + rewrite E1. intros j d M NZ. destruct (Nat.eq_dec j k) as [->|NE]; [eexists; split; [apply nth_set_eq; apply nth_error_Some; congruence|reflexivity]|]. rewrite nth_set_neq by congruence.
        destruct Q as [(Q0 & _ & _ & EA)|(_ & _ & _ & EA)]; rewrite EA in M; [|apply (v_ag _ I _ _ M NZ)]. apply nth_set in M. destruct M as [[EQ _]|[_ M]]; [congruence|apply (v_ag _ I _ _ M NZ)].
      + rewrite E6. destruct (v_0 _ I) as [U|U]; [left; assumption|right]. destruct Q as [(Q0 & _ & _ & EA)|(_ & _ & _ & EA)]; rewrite EA; [|assumption]. destruct (ag s); [discriminate|exact U].
      + intros j d M NZ. destruct Q as [(Q0 & _ & _ & EA)|(_ & _ & _ & EA)]; rewrite EA in M; [|apply (v_rl _ I _ _ M NZ)]. apply nth_set in M. destruct M as [[EQ ->]|[_ M]]; [right; left; reflexivity|apply (v_rl _ I _ _ M NZ)]. }
    destruct (reg s) as [j|] eqn:R; [destruct (Nat.eqb_spec j k) as [->|NE]|]; injection E as <-; apply B; try reflexivity.
    + left. auto.
    + right. split; [congruence|]. auto.
    + right. split; [congruence|]. auto.
  - (* Cancel *) destruct (usr s) eqn:U; [|discriminate]. injection E as <-. eapply (Inv_same s); try reflexivity; [exact I|apply (v_ref _ I)| |left; exact U]. cbn [w_done ag]. eauto.
  - (* Drop *) destruct (usr s) eqn:U; [|discriminate]. destruct (nth_error (ag s) 0) as [[|]|] eqn:Z; try discriminate. injection E as <-. pose proof (v_ref _ I) as R0. rewrite U in R0. eapply (Inv_same s); try reflexivity; [exact I|auto| | |].
    + cbn [w_refs w_usr refs usr ag b1] in *. lia.
    + cbn [w_refs w_usr ag]. eauto.
    + right. exact Z.
Qed.

Lemma init_inv : forall nuls, nuls <> [] -> Inv (init nuls).
Proof.
  intros nuls NZ. assert (LN : length (map (fun b => TK b 0 Started E_PENDING) nuls) = length nuls) by apply map_length.
  assert (P : 0 < length nuls) by (destruct nuls; [contradiction|cbn; lia]).
  assert (T : forall k t, nth_error (map (fun b => TK b 0 Started E_PENDING) nuls) k = Some t -> ph t = 0) by (intros k t N; rewrite nth_error_map in N; destruct (nth_error nuls k); [injection N as <-; reflexivity|discriminate]).
  assert (A : forall i k, nth_error (repeat (@nil frame) (length nuls)) i = Some k -> k = []) by (intros i k N; apply nth_error_In in N; apply repeat_spec in N; assumption).
  split; cbn [init ts reg cch hr1 done refs usr ag log].
  - cbn. rewrite repeat_length, LN. reflexivity.
  - cbn [suml af]. rewrite suml_repeat by reflexivity. reflexivity.
  - cbn [suml rf]. rewrite suml_repeat by reflexivity. reflexivity.
  - intros k t N. specialize (T _ _ N). split; [auto|]. split; lia.
  - intros k t N Q. specialize (T _ _ N). lia.
  - intros [|i] k f N J; cbn in N; [injection N as <-; destruct J as [<-|[]]|rewrite (A _ _ N) in J; destruct J].
    cbn [fok init ts cch]. rewrite LN, Nat.sub_diag. destruct (nth_error (map (fun b => TK b 0 Started E_PENDING) nuls) 0) as [t|] eqn:N0; [|apply nth_error_None in N0; lia].
    exists t. unfold cur. cbn [init ts cch]. rewrite LN. split; [lia|]. split; [lia|]. split; [assumption|]. split; [intros k u Q; lia|]. left. reflexivity.
  - discriminate.
  - intros [|i] k f N J; cbn in N; [injection N as <-; destruct J|rewrite (A _ _ N) in J; destruct J].
  - apply logok_none. reflexivity.
  - discriminate.
  - discriminate.
  - intros i k N Q. cbn in N. contradiction (Q (A _ _ N)).
  - left. reflexivity.
  - intros i k N Q. cbn in N. contradiction (Q (A _ _ N)).
Qed.
Lemma run_inv : forall l s s', Inv s -> run s l = Some s' -> Inv s'.
Proof.
  induction l as [|a l IH]; intros s s' I H; cbn [run] in H; [injection H as <-; assumption|]. destruct (exec s a) as [s1|] eqn:E; [|discriminate]. eapply IH; [eapply exec_inv; eassumption|exact H].
Qed.
Lemma reach_inv : forall nuls l s, nuls <> [] -> run (init nuls) l = Some s -> Inv s.
Proof. intros nuls l s NZ H. eapply run_inv; [apply init_inv; exact NZ|exact H]. Qed.
Lemma outs_eq : forall s, outs s = outs' (ts s).
Proof. reflexivity. Qed.

(** ** Termination *)
Definition wt (f : frame) : nat :=
  match f with I1 => 12 | Add _ => 10 | Sta _ => 9 | On _ _ => 6 | Hr _ => 5 | Cas _ => 4 | Dec => 3 | Res => 1 | Rel => 1 end.
Definition measure (s : st) : nat := suml (suml wt) (ag s) + 20 * cch s + 8 * lr (reg s).
Lemma step_measure : forall s i f k s', Inv s -> nth_error (ag s) i = Some (f :: k) -> step s i f k = Some s' -> measure s' < measure s.
Proof.
  intros s i f k s' I N E. pose proof (v_f _ I _ _ f N (or_introl eq_refl)) as F. unfold measure.
  assert (G : forall k', suml (suml wt) (set (ag s) i k') + (wt f + suml wt k) = suml (suml wt) (ag s) + suml wt k') by (intros k'; apply (suml_set _ (suml wt) _ _ _ k' N)).
  destruct f as [|j|j|j x|j|c| | |]; cbn [step fok] in *.
  - destruct F as (t & C1 & C2 & C3 & C4). destruct (cch s =? 0); [injection E as <-; specialize (G k); cbn [suml wt] in G; cbn [put ag cch reg]; lia|]. rewrite C3 in E.
    destruct (nul t); injection E as <-; cbn [put w_refs ag cch reg]; [specialize (G (On (length (ts s) - cch s) Completed :: Rel :: k))|specialize (G (Add (length (ts s) - cch s) :: k))]; cbn [suml wt] in G; lia.
  - destruct (excl _ _ _ _ I N eq_refl) as (X1 & _). destruct F as (t & (C1 & C2 & C3 & C4) & NU). rewrite C3 in E. destruct (ph t =? 0); injection E as <-; cbn [put w_reg ag cch reg]; rewrite ?X1; cbn [lr].
    + specialize (G k); cbn [suml wt] in G; lia.
    + specialize (G (Sta j :: k)); cbn [suml wt] in G; lia.
  - destruct F as (t & (C1 & C2 & C3 & C4) & NU). rewrite C3 in E. injection E as <-. specialize (G (On j (ost t) :: Rel :: k)). cbn [suml wt] in G. cbn [put ag cch reg]. lia.
  - destruct x; injection E as <-; cbn [put ag cch reg]; [specialize (G (Hr j :: k))|specialize (G (Dec :: k))|specialize (G (Cas E_CANCELLED :: k))|specialize (G (Hr j :: k))]; cbn [suml wt] in G; lia.
  - destruct (nth_error (ts s) j); [|discriminate]. injection E as <-. cbn [say put ag cch reg]. match goal with |- context [Cas ?c :: k] => specialize (G (Cas c :: k)) end. cbn [suml wt] in G. lia.
  - injection E as <-. specialize (G (Dec :: k)). cbn [suml wt] in G. destruct (_ =? _)%Z; cbn [put w_hr1 ag cch reg]; lia.
  - destruct F as (C & _). cbn [w_cch cch] in E. destruct (cch s - 1 =? 0); injection E as <-; cbn [put w_cch ag cch reg]; [specialize (G (Res :: k))|specialize (G (I1 :: k))]; cbn [suml wt] in G; lia.
  - specialize (G k). cbn [suml wt] in G. destruct (done s); injection E as <-; cbn [say put w_done ag cch reg]; lia.
  - specialize (G k). cbn [suml wt] in G. injection E as <-; cbn [put w_refs ag cch reg]; lia.
Qed.
Definition isstep (a : act) : bool := match a with Step _ => true | _ => false end.
Lemma other_measure : forall s a s', Inv s -> exec s a = Some s' -> isstep a = false -> measure s' <= measure s.
Proof.
  intros s [i|k x e|k|k| |] s' I E Q; cbn [exec isstep] in *; try discriminate; unfold measure.
  - destruct (nth_error (ts s) k); [|discriminate]. destruct (_ && _); [|discriminate]. injection E as <-. cbn [say w_ts ag cch reg]. lia.
  - destruct (nth_error (ts s) k); [|discriminate]. destruct (_ =? _); [|discriminate]. injection E as <-. cbn [w_ts ag cch reg]. lia.
  - destruct (nth_error (ts s) k) as [t|] eqn:N; [|discriminate]. destruct (Nat.eqb_spec (ph t) 2) as [P|]; [|discriminate].
    assert (B : suml (suml wt) (set (ag s) (S k) [On k (ost t); Rel]) <= suml (suml wt) (ag s) + 7).
    { destruct (nth_error (ag s) (S k)) as [k0|] eqn:NA; [pose proof (suml_set _ (suml wt) _ _ _ [On k (ost t); Rel] NA) as G; cbn [suml wt] in G; lia|]. apply nth_error_None in NA. rewrite (v_len _ I) in NA. assert (k < length (ts s)) by (apply nth_error_Some; congruence). lia. }
    destruct (reg s) as [j|] eqn:R; [destruct (j =? k)|]; injection E as <-; cbn [put w_reg w_ts ag cch reg]; rewrite ?R; cbn [lr]; lia.
  - destruct (usr s); [|discriminate]. injection E as <-. cbn [w_done ag cch reg]. lia.
  - destruct (usr s); [|discriminate]. destruct (nth_error (ag s) 0) as [[|]|]; try discriminate. injection E as <-. cbn [w_refs w_usr ag cch reg]. lia.
Qed.
Lemma steps_bound : forall l s s', Inv s -> run s l = Some s' -> length (filter isstep l) + measure s' <= measure s.
Proof.
  induction l as [|a l IH]; intros s s' I H; cbn [run filter] in *; [injection H as <-; cbn; lia|]. destruct (exec s a) as [s1|] eqn:E; [|discriminate]. specialize (IH _ _ (exec_inv _ _ _ I E) H).
  destruct (isstep a) eqn:Q; [|pose proof (other_measure _ _ _ I E Q); lia]. destruct a as [i| | | | |]; try discriminate. cbn [exec] in E. destruct (nth_error (ag s) i) as [[|f k]|] eqn:N; try discriminate.
  pose proof (step_measure _ _ _ _ _ I N E). cbn [length]. lia.
Qed.

(** * Theorems *)
(** At most one thread at a time uses the private fields, and the handler is then in no delegate. *)
Theorem C52_exclusive : forall nuls l s, nuls <> [] -> run (init nuls) l = Some s -> suml (suml af) (ag s) + lr (reg s) <= 1.
Proof. intros nuls l s NZ H. pose proof (v_tok _ (reach_inv _ _ _ NZ H)). lia. Qed.
(** The object is alive whenever a thread is in its code, a task may still call it or its user holds it;
    it is freed when all that is over. *)
Theorem C52_alive : forall nuls l s, nuls <> [] -> run (init nuls) l = Some s ->
  ((exists i f k, nth_error (ag s) i = Some (f :: k)) \/ reg s <> None \/ usr s = true -> 0 < refs s) /\
  (idle s -> reg s = None -> usr s = false -> refs s = 0).
Proof.
  intros nuls l s NZ H. pose proof (reach_inv _ _ _ NZ H) as I. rewrite (v_ref _ I). split.
  - intros [(i & f & k & N)|[R|U]]; [|destruct (reg s); [cbn; lia|contradiction]|rewrite U; cbn; lia].
    destruct i as [|i]; [destruct (v_0 _ I) as [U|U]; [rewrite U; cbn; lia|congruence]|]. assert (J : In Rel (f :: k)) by (apply (v_rl _ I _ _ N); discriminate).
    pose proof (suml_in _ rf _ _ J) as G. pose proof (suml_ge _ (suml rf) _ _ _ N) as G'. cbn [rf] in G. lia.
  - intros D R U. rewrite R, U. cbn [b1 lr]. destruct (suml (suml rf) (ag s)) eqn:E; [reflexivity|]. destruct (suml_pos _ (suml rf) (ag s)) as (i & k & N & Q); [lia|]. rewrite (D _ _ N) in Q. cbn in Q. lia.
Qed.
(** Resolve is called at most once, after every task was decided. *)
Theorem C52_after : forall nuls l s, nuls <> [] -> run (init nuls) l = Some s -> nres (log s) <= 1 /\
  forall l1 v l2, log s = l1 ++ ERes v :: l2 -> forall k, nth_error nuls k = Some false -> In (EDec k) l1.
Proof.
  intros nuls l s NZ H. pose proof (reach_inv _ _ _ NZ H) as I. split; [pose proof (v_tok _ I); lia|]. intros l1 v l2 E k N. destruct (v_log _ I _ _ _ E) as (_ & _ & R).
  assert (B : forall l s s', run s l = Some s' -> map nul (ts s') = map nul (ts s)).
  { clear. assert (S1 : forall l k t t', nth_error l k = Some t -> nul t' = nul t -> map nul (set l k t') = map nul l) by (induction l as [|x l IH]; intros [|k] t t' N E; cbn in *; try discriminate; [injection N as ->; congruence|f_equal; eapply IH; eassumption]).
    induction l as [|a l IH]; intros s s' H; cbn [run] in H; [injection H as <-; reflexivity|]. destruct (exec s a) as [s1|] eqn:E; [|discriminate]. rewrite (IH _ _ H). clear IH H.
    destruct a as [i|k x e|k|k| |]; cbn [exec] in E.
    - destruct (nth_error (ag s) i) as [[|f k]|]; try discriminate. destruct f; cbn [step] in E;
        repeat match goal with H : context [match ?x with _ => _ end] |- _ => destruct x; try discriminate end; injection E as <-; reflexivity.
    - destruct (nth_error (ts s) k) as [t|] eqn:N; [|discriminate]. destruct (negb (nul t)) eqn:U; [|discriminate]. destruct (_ && _); [|discriminate]. injection E as <-. cbn. eapply S1; [exact N|]. apply negb_true_iff in U. cbn. congruence.
    - destruct (nth_error (ts s) k) as [t|] eqn:N; [|discriminate]. destruct (_ =? _); [|discriminate]. injection E as <-. cbn. eapply S1; [exact N|reflexivity].
    - destruct (nth_error (ts s) k) as [t|] eqn:N; [|discriminate]. destruct (_ =? 2); [|discriminate]. destruct (match reg s with Some _ => _ | None => _ end); injection E as <-; cbn; (eapply S1; [exact N|reflexivity]).
    - destruct (usr s); [|discriminate]. injection E as <-. reflexivity.
    - destruct (usr s); [|discriminate]. destruct (nth_error (ag s) 0) as [[|]|]; try discriminate. injection E as <-. reflexivity. }
  specialize (B _ _ _ H). cbn [init ts] in B. rewrite map_map in B. cbn in B. rewrite map_id in B. rewrite <- B, nth_error_map in N. destruct (nth_error (ts s) k) as [t|] eqn:NT; [|discriminate]. cbn in N. injection N as N.
  destruct (R _ _ NT) as [Q|Q]; [congruence|assumption].
Qed.
(** The value is S_OK exactly when all tasks completed; it is the error of the failing task with the
    lowest index unless the code of some failed task was read before it was written. *)
Theorem C52_partial : forall nuls l s v, nuls <> [] -> run (init nuls) l = Some s -> In (ERes v) (log s) ->
  (v = S_OK <-> forall o, In o (outs s) -> fst o = Completed) /\
  ((forall k, ~ In (ESee k E_PENDING) (log s)) -> v = first_error (outs s)).
Proof.
  intros nuls l s v NZ H J. pose proof (reach_inv _ _ _ NZ H) as I. apply in_split in J. destruct J as (l1 & l2 & E). destruct (v_log _ I _ _ _ E) as (_ & R & D). rewrite outs_eq.
  assert (NR : nres (log s) = 1) by (pose proof (v_tok _ I); rewrite E in *; unfold nres in *; rewrite filter_app, app_length in *; cbn in *; lia).
  assert (BC : forall x, In x (outs' (ts s)) -> bad x = true -> snd x <> S_OK).
  { intros x J. rewrite <- (firstn_all2 (n := length (ts s)) (outs' (ts s))) in J; [|unfold outs'; rewrite map_length; lia]. revert x J. apply (bad_code s _ I). intros k t _ M. apply (v_all _ I NR _ _ M). }
  assert (FE : first_error (outs' (ts s)) = S_OK <-> forall o, In o (outs' (ts s)) -> fst o = Completed).
  { unfold first_error. destruct (find bad (outs' (ts s))) as [o|] eqn:F.
    - apply find_some in F. destruct F as [F1 F2]. split; [intros Q; contradiction (BC _ F1 F2 Q)|]. intros Q. unfold bad in F2. rewrite (Q _ F1) in F2. discriminate.
    - split; [|reflexivity]. intros _ o J. pose proof (find_none _ _ F o J) as Q. unfold bad in Q. destruct (fst o); congruence. }
  split.
  - rewrite <- FE. destruct R as [->|(-> & R & _)]; [reflexivity|]. split; [discriminate|contradiction].
  - intros Q. destruct R as [R|(_ & _ & k & R)]; [assumption|]. contradiction (Q k R).
Qed.
(** When every task has called its handlers and no call is in progress, the result is there. *)
Theorem C52_complete : forall nuls l s, nuls <> [] -> run (init nuls) l = Some s -> idle s -> all_called s -> nres (log s) = 1 /\ done s = true.
Proof.
  intros nuls l s NZ H D A. pose proof (reach_inv _ _ _ NZ H) as I. assert (R : reg s = None).
  { destruct (reg s) as [j|] eqn:R; [|reflexivity]. destruct (v_reg _ I _ R) as (t & (_ & _ & N & _) & NU & P). apply nth_error_In in N. destruct (A _ N); [congruence|lia]. }
  assert (Z : suml (suml af) (ag s) = 0) by (destruct (suml (suml af) (ag s)) eqn:E; [reflexivity|]; destruct (suml_pos _ (suml af) (ag s)) as (i & k & N & Q); [lia|]; rewrite (D _ _ N) in Q; cbn in Q; lia).
  pose proof (v_tok _ I) as T. rewrite R in T. cbn [lr] in T. assert (NR : nres (log s) = 1) by lia. split; [assumption|apply (v_done _ I NR)].
Qed.
(** The handler code runs a bounded number of steps. *)
Theorem C52_bounded : forall nuls l s, nuls <> [] -> run (init nuls) l = Some s -> length (filter isstep l) <= 20 * length nuls + 12.
Proof.
  intros nuls l s NZ H. pose proof (steps_bound _ _ _ (init_inv _ NZ) H) as B. unfold measure in B at 2. cbn [init ag cch reg suml lr] in B. rewrite suml_repeat in B by reflexivity. cbn [suml wt] in B. lia.
Qed.
(** A task that fails while WhenAll attaches to it is reported as E_PENDING. *)
Theorem C52_refuted : forall e, e <> S_OK -> e <> E_PENDING -> exists l, match run (init [false]) l with
  | Some s => idle s /\ all_called s /\ In (ERes E_PENDING) (log s) /\ outs s = [(Error, e)] /\ first_error (outs s) = e
  | None => False end.
Proof.
  intros e E1 E2. exists [Decide 0 Error e; Step 0; Step 0; Step 0; Step 0; Step 0; Step 0; Step 0; Step 0; Step 0; Write 0; Move 0].
  assert (O : ok Error e = true) by (unfold ok; destruct (Z.eqb_spec e S_OK); [contradiction|]; destruct (Z.eqb_spec e E_PENDING); [contradiction|reflexivity]).
  assert (S1 : exec (init [false]) (Decide 0 Error e) = Some (ST [TK false 1 Error e] None 1 S_OK false 1 true [[I1]; []] [EDec 0])) by (cbn [exec init ts nth_error map nul ph]; rewrite O; reflexivity).
  cbn [run]. rewrite S1. clear S1 O E1 E2.
  match goal with |- match ?r with Some _ => _ | None => _ end => let v := eval vm_compute in r in change r with v end.
  split; [intros [|[|[|i]]] k N; cbn in N; congruence|]. split; [intros t [<-|[]]; right; reflexivity|]. split; [cbn [log]; do 2 right; left; reflexivity|]. split; reflexivity.
Qed.
Print Assumptions C52_exclusive.
Print Assumptions C52_alive.
Print Assumptions C52_after.
Print Assumptions C52_partial.
Print Assumptions C52_complete.
Print Assumptions C52_bounded.
Print Assumptions C52_refuted.
(** Four tasks, the second empty; the fourth is cancelled first, the third fails before WhenAll looks at
    it and the first completes last. *)
Example ex_C52 : match run (init [false; true; false; false])
    ([Decide 3 Canceled E_CANCELLED; Step 0; Decide 2 Error 7; Write 2; Move 2; Step 0; Decide 0 Completed S_OK; Write 3; Write 0; Move 3; Move 0] ++ map Step (repeat 1 23) ++ [Drop]) with
  | Some s => forallb (fun k => match k with [] => true | _ => false end) (ag s) = true /\ refs s = 0 /\ In (ERes 7) (log s) /\ first_error (outs s) = 7%Z
  | None => False end.
Proof. vm_compute. auto 12. Qed.
