(** The thread's token, the privileges, and the processes that are created. *)
From Coq Require Import List Bool Arith Lia.
From Verif Require Import Slots SlotsProofs Threads TokenModel TokenProofs.
Import ListNotations.

Lemma nth_set : forall A (l : list A) i j x y, nth_error l i <> None -> nth_error (set l i x) j = Some y -> (i = j /\ y = x) \/ (i <> j /\ nth_error l j = Some y).
Proof.
  intros A l i j x y N H. destruct (Nat.eq_dec i j) as [->|D].
  - left. split; [reflexivity|]. rewrite nth_set_eq in H by (apply nth_error_Some; exact N). congruence.
  - right. split; [exact D|]. rewrite nth_set_neq in H by exact D. exact H.
Qed.
(** The frames of another thread keep their kinds. *)
Lemma held_kd : forall s s' i a h, INV s -> INV s' -> Mono s s' -> nth_error (ag s) i = Some a -> nth_error (ag s') i = Some a -> In h (hsl (stk a)) -> kd (opn s') h = kd (opn s) h.
Proof. intros s s' i a h I I' M G G' H. destruct M as (_ & _ & _ & _ & _ & _ & _ & K). apply K; eapply held_open; eassumption. Qed.
Lemma in_hsl : forall f k h, In f k -> In h (hs f) -> In h (hsl k).
Proof. intros f k h F H. unfold hsl. apply in_flat_map. exists f. auto. Qed.
Lemma fk_stable : forall s s' f, el s' = el s -> (forall h, In h (hs f) -> kd (opn s') h = kd (opn s) h) -> fk s f -> fk s' f.
Proof. intros s s' f E H F. destruct f; cbn in *; auto; rewrite ?E, ?H; cbn; auto. Qed.
Lemma exec_KI : forall s a s', INV s -> KI s -> exec s a = Some s' -> KI s'.
Proof.
  intros s a s' I (K & F) E. pose proof (exec_INV _ _ _ I E) as I'. pose proof (exec_Mono _ _ _ I E) as M. destruct a as [c u|i a].
  - injection E as <-. split; [exact K|]. intros j b f G X. cbn in G.
    destruct (Nat.lt_ge_cases j (length (ag s))) as [Lt|Ge].
    + rewrite nth_error_app1 in G by exact Lt. exact (F j b f G X).
    + rewrite nth_error_app2 in G by exact Ge. destruct (j - length (ag s)) as [|[|?]]; cbn in G; try discriminate. injection G as <-. cbn in X. destruct X as [<-|[]]. destruct c; exact Logic.I.
  - destruct (step_inv _ _ _ _ E) as (o & c & f & k & s1 & c' & l & G & Bd & ->). pose proof (inv_pre _ _ _ _ _ _ I G) as P.
    destruct (body_kinds _ _ _ _ _ _ _ _ P K (F i _ f G (or_introl eq_refl)) Bd) as (K' & F'). split; [exact K'|].
    assert (NG : nth_error (ag s) i <> None) by (rewrite G; discriminate).
    intros j b x X Y. destruct (nth_set _ _ _ _ _ _ NG X) as [(-> & ->)|(D & Z)].
    + cbn in Y. apply in_app_or in Y. destruct Y as [Y|Y]; [exact (F' x Y)|].
      apply (fk_stable s); [exact (proj1 M)| |exact (F j _ x G (or_intror Y))].
      intros h H. apply (proj2 (proj2 (proj2 (proj2 (proj2 (proj2 (proj2 M))))))).
      * eapply held_open; [exact I|exact G|]. cbn. apply in_or_app. right. eapply in_hsl; eassumption.
      * eapply held_open; [exact I'|exact X|]. cbn [stk]. eapply in_hsl; [apply in_or_app; right; exact Y|exact H].
    + apply (fk_stable s); [exact (proj1 M)| |exact (F j b x Z Y)].
      intros h H. eapply held_kd; try eassumption. eapply in_hsl; eassumption.
Qed.
Lemma init_KI : forall e, KI (init e).
Proof. intros e. split; [split; [|split]; discriminate|]. intros i a f G. destruct i; discriminate. Qed.

(** Getters, and calls of LowPrivilegeCreateProcessW. *)
Definition isget (f : frame) : bool := match f with Q0 | Q1 | Q2 | Q3 _ | Q4 _ _ | Q5 _ _ | Q6 _ _ | Q7 _ _ _ | Q8 _ _ _ | Q9 => false | _ => true end.
Definition isact (e : event) : bool := match e with EProc _ _ | ERet _ => true | _ => false end.
(** What thread [i] did, as far as it can be seen from outside. *)
Fixpoint acts (i : nat) (l : list (nat * event)) : list event := match l with [] => [] | (j, e) :: r => if Nat.eqb j i && isact e then e :: acts i r else acts i r end.
Lemma acts_app : forall i a b, acts i (a ++ b) = acts i a ++ acts i b.
Proof. induction a as [|[j e] a IH]; intros b; cbn; [reflexivity|]. rewrite IH. destruct (Nat.eqb j i && isact e); reflexivity. Qed.
Definition scope (s : st) (i : nat) (o c : option tk) (p : option nat) (b : bool) : Prop :=
  if b then (exists g, c = Some (Sys g)) /\ tok_of (opn s) p = o else c = o /\ In (i, EFail) (log s).
Definition qok (s : st) (i : nat) (o c : option tk) (q : list frame) : Prop :=
  match q with
  | [] => (c = o \/ In (i, EKeep) (log s)) /\ (acts i (log s) = [] \/ acts i (log s) = [ERet false] \/ exists l t, acts i (log s) = [EProc l t; ERet true])
  | [Q0] | [Q1] | [Q2] => c = o /\ acts i (log s) = []
  | [Q3 m] => c = o /\ ci s = Some m /\ acts i (log s) = []
  | [Q4 m p] => c = o /\ ci s = Some m /\ tok_of (opn s) p = o /\ acts i (log s) = []
  | [Q5 p b] | [Q6 p b] | [Q7 p b _] | [Q8 p b Fallback] | [Q8 p b (Return false)] => scope s i o c p b /\ acts i (log s) = []
  | [Q8 p b (Return true)] => scope s i o c p b /\ exists l t, acts i (log s) = [EProc l t]
  | [Q9] => (c = o \/ In (i, EKeep) (log s)) /\ acts i (log s) = []
  | _ => False
  end.
Definition agok (s : st) (i : nat) (a : agent) : Prop :=
  exists g q, stk a = g ++ q /\ forallb isget g = true /\ qok s i (own a) (cur a) q /\ exists u, own a = option_map User u.
(** Every event tells the truth about the thread's token. *)
Definition evok (s : st) (i : nat) (o : option tk) (e : event) : Prop :=
  match e with
  | EPriv c => (exists g, c = Some (Sys g)) \/ (c = o /\ In (i, EFail) (log s))
  | EProc true c => (exists g, c = Some (Sys g)) \/ c = o \/ In (i, EKeep) (log s)
  | EProc false c => c = o \/ In (i, EKeep) (log s)
  | _ => True
  end.
Lemma getter : forall s i c f a s' c' l, isget f = true -> body s i c f a = Some (s', c', l) -> forallb isget l = true /\ c' = c.
Proof.
  intros s i c f a s' c' l G E. destruct f; try discriminate G; destruct a; cbn in E; try discriminate;
  repeat match type of E with
      | context [match ?x with _ => _ end] => (match x with close' _ _ ?p => fail 1 | _ => idtac end); destruct x eqn:?; try discriminate
      end; injection E as <- <- <-; auto.
Qed.
Lemma closes_log : forall l s i, (forall g, cn s g <= 1) -> (forall g, ch g l <= cn s g) -> log (closes s i l) = log s.
Proof. intros l s i A B. destruct (closes_ok l s i A B) as (o & -> & _). reflexivity. Qed.
Lemma getter_log : forall s i c f a s' c' l, Pre s f -> isget f = true -> body s i c f a = Some (s', c', l) ->
  exists new, log s' = log s ++ new /\ forall j e, In (j, e) new -> j = i /\ (e = EFail \/ (e = EPlain /\ is_sys c = false /\ exists h, f = L3 h) \/ e = EFake).
Proof.
  intros s i c f a s' c' l (U & C & N) G E. destruct f; try discriminate G; destruct a; cbn in E; try discriminate;
  repeat match type of E with
      | context [match ?x with _ => _ end] => (match x with close' _ _ ?p => fail 1 | _ => idtac end); destruct x eqn:?; try discriminate
      end; injection E as <- <- <-; cbn [hs ol ch] in C; unfold close';
  repeat match goal with |- context [match ?p with Some _ => _ | None => _ end] => is_var p; destruct p end; cbn [hs ol ch] in C;
  repeat match goal with
       | |- context [log (close (close ?s0 ?j ?x) ?j ?y)] =>
           change (close (close s0 j x) j y) with (closes s0 j [x; y]);
           rewrite (closes_log [x; y] s0 j); [|exact U| intros g; specialize (C g); unfold cn in *; cbn in *; lia]
       | |- context [log (close ?s0 ?j ?x)] =>
           change (close s0 j x) with (closes s0 j [x]);
           rewrite (closes_log [x] s0 j); [|exact U| intros g; specialize (C g); unfold cn in *; cbn in *; lia]
       end;
  first [exists []; split; [symmetry; apply app_nil_r|intros ? ? []]
        |eexists [_]; split; [reflexivity|intros ? ? [X|[]]; injection X as <- <-; eauto 8]].
Qed.
Lemma acts_quiet : forall i new, (forall j e, In (j, e) new -> isact e = false \/ j <> i) -> acts i new = [].
Proof.
  induction new as [|[j e] r IH]; intros H; cbn; [reflexivity|]. rewrite IH by (intros; apply H; right; assumption).
  destruct (H j e (or_introl eq_refl)) as [X|X]; [rewrite X, andb_false_r; reflexivity|]. destruct (Nat.eqb_spec j i); [contradiction|reflexivity].
Qed.
(** A thread's own condition survives what others do, and what its own getters do. *)
Lemma qok_stable : forall s s' i o c q, (forall h, ci s = Some h -> ci s' = Some h) -> (exists new, log s' = log s ++ new) -> acts i (log s') = acts i (log s) ->
  (forall h, In h (hsl q) -> kd (opn s') h = kd (opn s) h) -> qok s i o c q -> qok s' i o c q.
Proof.
  intros s s' i o c q CI (new & L) A K Q.
  assert (T : forall p, (forall h, In h (ol p) -> kd (opn s') h = kd (opn s) h) -> tok_of (opn s') p = tok_of (opn s) p).
  { intros [h|] X; cbn; [rewrite X by (left; reflexivity); reflexivity|reflexivity]. }
  assert (M : forall e, In (i, e) (log s) -> In (i, e) (log s')) by (intros e X; rewrite L; apply in_or_app; left; exact X).
  assert (SC : forall p b, (forall h, In h (ol p) -> kd (opn s') h = kd (opn s) h) -> scope s i o c p b -> scope s' i o c p b).
  { intros p b X Y. unfold scope in *. destruct b; [rewrite T by exact X; exact Y|]. destruct Y as (Y1 & Y2). auto. }
  destruct q as [|f [|f2 q]]; [| |exfalso; destruct f; cbn in Q; try exact Q; destruct n as [|[]]; exact Q].
  - cbn in *. rewrite A. destruct Q as ([Q|Q] & Q2); auto.
  - unfold hsl in K. cbn in K. rewrite app_nil_r in K. destruct f; cbn in *; rewrite ?A; try exact Q; try tauto.
    + destruct Q as (Q1 & Q2 & Q3); auto.
    + destruct Q as (Q1 & Q2 & Q3 & Q4). rewrite T by exact K. auto.
    + destruct Q; auto.
    + destruct Q; auto.
    + destruct Q; split; [apply SC; [intros h X; apply K; right; exact X|assumption]|assumption].
    + destruct n as [|[]]; destruct Q; auto.
    + destruct Q as ([Q|Q] & Q2); auto.
Qed.
Lemma exec_agent : forall s i a s', INV s -> exec s (Step i a) = Some s' -> forall j b, nth_error (ag s') j = Some b -> i <> j -> nth_error (ag s) j = Some b /\ acts j (log s') = acts j (log s).
Proof.
  intros s i a s' I E j b G D. destruct (step_inv _ _ _ _ E) as (o & c & f & k & s1 & c' & l & G0 & Bd & ->). cbn in G. rewrite nth_set_neq in G by exact D. split; [exact G|].
  destruct (body_post _ _ _ _ _ _ _ _ (inv_pre _ _ _ _ _ _ I G0) Bd) as [_ _ _ _ _ _ _ _ _ _ _ (new & L & LN)]. cbn. rewrite L, acts_app, (acts_quiet j new); [apply app_nil_r|].
  intros j0 e X. right. destruct (LN _ _ X) as (-> & _). exact D.
Qed.
Lemma acts_say : forall i l e, acts i (l ++ [(i, e)]) = acts i l ++ (if isact e then [e] else []).
Proof. intros. rewrite acts_app. cbn. rewrite Nat.eqb_refl. cbn. destruct (isact e); reflexivity. Qed.
Ltac inl := repeat (apply in_or_app; right; left; reflexivity || (apply in_or_app; left)).
Lemma in_snoc : forall A (l : list A) x, In x (l ++ [x]).
Proof. intros. apply in_or_app. right. left. reflexivity. Qed.
Lemma in_more : forall A (l : list A) x y, In x l -> In x (l ++ [y]).
Proof. intros. apply in_or_app. left. assumption. Qed.
Lemma body_Q : forall s i o c f a s' c' l, Pre s f -> isget f = false -> qok s i o c [f] -> body s i c f a = Some (s', c', l) ->
  exists g q, l = g ++ q /\ forallb isget g = true /\ qok s' i o c' q /\ exists new, log s' = log s ++ new /\ forall j e, In (j, e) new -> j = i /\ evok s' i o e.
Proof.
  intros s i o c f a s' c' l (U & C & N) G Q E. destruct f; try discriminate G; clear G; destruct a; cbn in E; try discriminate.
  - (* Q0 *) exists [], l. assert (L : log s' = log s /\ c' = c /\ l = [Q1]) by (destruct (se s); injection E as <- <- <-; auto). destruct L as (L & -> & ->). cbn in *. rewrite L.
    split; [reflexivity|]. split; [reflexivity|]. split; [exact Q|]. exists []. split; [symmetry; apply app_nil_r|intros ? ? []].
  - destruct (se s) eqn:SE; [discriminate|]. injection E as <- <- <-. exists [], [Q1]. cbn in *. split; [reflexivity|]. split; [reflexivity|]. rewrite acts_say. cbn. rewrite app_nil_r. split; [exact Q|].
    eexists. split; [reflexivity|]. intros ? ? [X|[]]. injection X as <- <-. cbn. auto.
  - (* Q1 *) injection E as <- <- <-. cbn in Q. destruct Q as (Q1' & Q2').
    assert (Z : exists new, log s = log s ++ new /\ forall j e, In (j, e) new -> j = i /\ evok s i o e) by (exists []; split; [symmetry; apply app_nil_r|intros ? ? []]).
    destruct (se s) as [[| |]|]; [exists [I0], [Q2]|exists [], [Q9]|exists [], [Q9]|exists [], [Q9]]; cbn; auto 8.
  - (* Q2 *) injection E as <- <- <-. cbn in Q. destruct Q as (Q1' & Q2').
    assert (Z : exists new, log s = log s ++ new /\ forall j e, In (j, e) new -> j = i /\ evok s i o e) by (exists []; split; [symmetry; apply app_nil_r|intros ? ? []]).
    destruct (ci s) as [m|] eqn:CI; [exists [], [Q3 m]|exists [], [Q9]]; cbn; auto 8.
  - (* Q3 *) cbn in Q. destruct Q as (Q1' & Q2' & Q3').
    assert (Z : exists new, log s = log s ++ new /\ forall j e, In (j, e) new -> j = i /\ evok s' i o e) by (exists []; split; [symmetry; apply app_nil_r|intros ? ? []]).
    destruct c as [t|]; injection E as <- <- <-; eexists [], [_]; (split; [reflexivity|]); (split; [reflexivity|]); cbn; rewrite ?Nat.eqb_refl; auto 8.
  - destruct c as [t|]; [|discriminate]. injection E as <- <- <-. cbn in Q. destruct Q as (Q1' & Q2' & Q3'). exists [], [Q5 None false]. split; [reflexivity|]. split; [reflexivity|]. cbn. rewrite acts_say. cbn. rewrite app_nil_r.
    split; [split; [split; [exact Q1'|apply in_snoc]|exact Q3']|]. eexists. split; [reflexivity|]. intros ? ? [X|[]]. injection X as <- <-. cbn. auto.
  - (* Q4 *) injection E as <- <- <-. cbn in Q. destruct Q as (Q1' & Q2' & Q3' & Q4'). exists [], [Q5 p true]. cbn. split; [reflexivity|]. split; [reflexivity|]. split; [split; [split; [eexists; reflexivity|exact Q3']|exact Q4']|].
    exists []. split; [symmetry; apply app_nil_r|intros ? ? []].
  - injection E as <- <- <-. cbn in Q. destruct Q as (Q1' & Q2' & Q3' & Q4'). exists [], [Q5 p false]. split; [reflexivity|]. split; [reflexivity|]. cbn. rewrite acts_say. cbn. rewrite app_nil_r.
    split; [split; [split; [exact Q1'|apply in_snoc]|exact Q4']|]. eexists. split; [reflexivity|]. intros ? ? [X|[]]. injection X as <- <-. cbn. auto.
  - (* Q5 *) injection E as <- <- <-. cbn in Q. destruct Q as (Q1' & Q2'). exists [L0], [Q6 p b]. split; [reflexivity|]. split; [reflexivity|]. cbn. rewrite acts_say. cbn. rewrite app_nil_r.
    split; [split; [|exact Q2']|].
    + unfold scope in *. destruct b; [exact Q1'|]. cbn. destruct Q1'. split; [assumption|apply in_more; assumption].
    + eexists. split; [reflexivity|]. intros ? ? [X|[]]. injection X as <- <-. split; [reflexivity|]. cbn. unfold scope in Q1'. destruct b; [left; exact (proj1 Q1')|]. right. destruct Q1'. split; [assumption|apply in_more; assumption].
  - (* Q6 *) cbn in Q. destruct Q as (Q1' & Q2').
    assert (Z : exists new, log s = log s ++ new /\ forall j e, In (j, e) new -> j = i /\ evok s' i o e) by (exists []; split; [symmetry; apply app_nil_r|intros ? ? []]).
    destruct (cl s) as [h|] eqn:CL.
    + assert (X : s' = alloc s KDup /\ c' = c /\ l = [Q7 p b (nx s)]).
      { destruct (kd (opn s) h) as [k|]; [destruct k as [| | | | |[]| |]; try discriminate|]; injection E as <- <- <-; auto. }
      clear E. destruct X as (-> & -> & ->). exists [], [Q7 p b (nx s)]. split; [reflexivity|]. split; [reflexivity|]. split; [|exact Z]. cbn. split; [|exact Q2'].
      unfold scope in *. destruct b; [|exact Q1']. destruct Q1' as (Y1 & Y2). split; [exact Y1|]. rewrite <- Y2. destruct p as [x|]; [|reflexivity]. cbn.
      destruct (Nat.eqb_spec (nx s) x); [|reflexivity]. exfalso. subst x. specialize (C (nx s)). cbn in C. rewrite eq1_eq, (N (nx s)) in C; lia.
    + injection E as <- <- <-. exists [], [Q8 p b Fallback]. cbn. auto.
  - destruct (cl s) as [h|] eqn:CL; [|discriminate]. injection E as <- <- <-. cbn in Q. destruct Q as (Q1' & Q2'). exists [], [Q8 p b Fallback]. split; [reflexivity|]. split; [reflexivity|]. cbn. rewrite acts_say. cbn. rewrite app_nil_r.
    split; [split; [|exact Q2']|].
    + unfold scope in *. destruct b; [exact Q1'|]. cbn. destruct Q1'. split; [assumption|apply in_more; assumption].
    + eexists. split; [reflexivity|]. intros ? ? [X|[]]. injection X as <- <-. cbn. auto.
  - (* Q7 *) injection E as <- <- <-. cbn in Q. destruct Q as (Q1' & Q2'). exists [], [Q8 p b (Return true)].
    destruct (closes_ok [x] (say s i (EProc true c)) i) as (o1 & EQ & CN & KD); [exact U|intros g; specialize (C g); unfold cn in *; cbn in *; lia|]. cbn [closes] in EQ. rewrite EQ. clear EQ.
    split; [reflexivity|]. split; [reflexivity|]. cbn. rewrite acts_say. cbn. rewrite Q2'. cbn. split; [split; [|eauto]|].
    + unfold scope in *. destruct b.
      * destruct Q1' as (Y1 & Y2). split; [exact Y1|]. rewrite <- Y2. destruct p as [y|]; [|reflexivity]. cbn. rewrite KD; [reflexivity|]. specialize (C y). specialize (U y). cbn in C |- *. rewrite eq1_eq in C. lia.
      * destruct Q1'. split; [assumption|apply in_more; assumption].
    + eexists. split; [reflexivity|]. intros ? ? [X|[]]. injection X as <- <-. split; [reflexivity|]. cbn. unfold scope in Q1'. destruct b; [left; exact (proj1 Q1')|right; left; exact (proj1 Q1')].
  - injection E as <- <- <-. cbn in Q. destruct Q as (Q1' & Q2'). exists [], [Q8 p b (Return false)].
    destruct (closes_ok [x] (say s i EFail) i) as (o1 & EQ & CN & KD); [exact U|intros g; specialize (C g); unfold cn in *; cbn in *; lia|]. cbn [closes] in EQ. rewrite EQ. clear EQ.
    split; [reflexivity|]. split; [reflexivity|]. cbn. rewrite acts_say. cbn. rewrite Q2'. cbn. split; [split; [|reflexivity]|].
    + unfold scope in *. destruct b.
      * destruct Q1' as (Y1 & Y2). split; [exact Y1|]. rewrite <- Y2. destruct p as [y|]; [|reflexivity]. cbn. rewrite KD; [reflexivity|]. specialize (C y). specialize (U y). cbn in C |- *. rewrite eq1_eq in C. lia.
      * destruct Q1'. split; [assumption|apply in_more; assumption].
    + eexists. split; [reflexivity|]. intros ? ? [X|[]]. injection X as <- <-. cbn. auto.
  - injection E as <- <- <-. cbn in Q. destruct Q as (Q1' & Q2'). exists [], [Q8 p b Fallback].
    destruct (closes_ok [x] (say s i EFail) i) as (o1 & EQ & CN & KD); [exact U|intros g; specialize (C g); unfold cn in *; cbn in *; lia|]. cbn [closes] in EQ. rewrite EQ. clear EQ.
    split; [reflexivity|]. split; [reflexivity|]. cbn. rewrite acts_say. cbn. rewrite Q2'. cbn. split; [split; [|reflexivity]|].
    + unfold scope in *. destruct b.
      * destruct Q1' as (Y1 & Y2). split; [exact Y1|]. rewrite <- Y2. destruct p as [y|]; [|reflexivity]. cbn. rewrite KD; [reflexivity|]. specialize (C y). specialize (U y). cbn in C |- *. rewrite eq1_eq in C. lia.
      * destruct Q1'. split; [assumption|apply in_more; assumption].
    + eexists. split; [reflexivity|]. intros ? ? [X|[]]. injection X as <- <-. cbn. auto.
  - (* Q8 *) assert (SC : scope s i o c p b) by (destruct n as [|[]]; exact (proj1 Q)).
    assert (CL : log (close' s i p) = log s).
    { destruct p as [h|]; [|reflexivity]. change (close' s i (Some h)) with (closes s i [h]). apply closes_log; [exact U|]. intros g. specialize (C g). cbn in *. lia. }
    assert (CO : (if b then tok_of (opn s) p else c) = o) by (unfold scope in SC; destruct b; [exact (proj2 SC)|exact (proj1 SC)]).
    assert (E2 : Some (match n with Fallback => close' s i p | Return r => say (close' s i p) i (ERet r) end, (if b then tok_of (opn s) p else c), match n with Fallback => [Q9] | Return _ => [] end) = Some (s', c', l)) by (destruct b; exact E).
    clear E. injection E2 as <- <- <-. destruct n as [|r].
    + cbn in Q. exists [], [Q9]. cbn. rewrite CL. split; [reflexivity|]. split; [reflexivity|]. split; [split; [left; exact CO|exact (proj2 Q)]|]. exists []. split; [symmetry; apply app_nil_r|intros ? ? []].
    + exists [], []. cbn. rewrite CL. split; [reflexivity|]. split; [reflexivity|]. rewrite acts_say. cbn. split.
      * split; [left; exact CO|]. destruct r; cbn in Q; destruct Q as (_ & Q).
        -- destruct Q as (x & t & ->). right; right. exists x, t. reflexivity.
        -- rewrite Q. auto.
      * eexists. split; [reflexivity|]. intros ? ? [X|[]]. injection X as <- <-. cbn. auto.
  - destruct b; [|discriminate].
    assert (CL : log (close' (say s i EKeep) i p) = log s ++ [(i, EKeep)]).
    { destruct p as [h|]; [|reflexivity]. change (close' (say s i EKeep) i (Some h)) with (closes (say s i EKeep) i [h]). rewrite closes_log; [reflexivity|exact U|]. intros g. specialize (C g). unfold cn in *. cbn in *. lia. }
    injection E as <- <- <-. destruct n as [|r].
    + cbn in Q. exists [], [Q9]. cbn. rewrite CL. split; [reflexivity|]. split; [reflexivity|]. rewrite acts_say. cbn. rewrite app_nil_r. split; [split; [right; apply in_snoc|exact (proj2 Q)]|].
      eexists. split; [reflexivity|]. intros ? ? [X|[]]. injection X as <- <-. cbn. auto.
    + exists [], []. cbn. rewrite CL. split; [reflexivity|]. split; [reflexivity|]. rewrite !acts_say. cbn. rewrite app_nil_r. split.
      * split; [right; apply in_more, in_snoc|]. destruct r; cbn in Q; destruct Q as (_ & Q).
        -- destruct Q as (x & t & ->). right; right. exists x, t. reflexivity.
        -- rewrite Q. auto.
      * eexists. rewrite <- app_assoc. split; [reflexivity|]. intros ? ? [X|[X|[]]]; injection X as <- <-; cbn; auto.
  - destruct b; discriminate.
  - destruct b; discriminate.
  - (* Q9 *) injection E as <- <- <-. cbn in Q. destruct Q as (Q1' & Q2'). exists [], []. cbn. rewrite !acts_say. cbn. rewrite Q2'. cbn. split; [reflexivity|]. split; [reflexivity|].
    assert (MM : c = o \/ In (i, EKeep) ((log s ++ [(i, EProc match el s with Full => false | _ => true end c)]) ++ [(i, ERet true)])) by (destruct Q1' as [X|X]; [left; exact X|right; apply in_more, in_more; exact X]).
    split; [split; [exact MM|right; right; eauto]|].
    eexists. rewrite <- app_assoc in *. split; [reflexivity|]. intros ? ? [X|[X|[]]]; injection X as <- <-; cbn; (split; [reflexivity|]); [|exact Logic.I].
    destruct (el s); cbn in MM |- *; rewrite <- ?app_assoc in *; cbn in *; tauto.
  - injection E as <- <- <-. cbn in Q. destruct Q as (Q1' & Q2'). exists [], []. cbn. rewrite !acts_say. cbn. rewrite Q2'. cbn. split; [reflexivity|]. split; [reflexivity|].
    split; [split; [destruct Q1' as [X|X]; [left; exact X|right; apply in_more, in_more; exact X]|auto]|].
    eexists. rewrite <- app_assoc. split; [reflexivity|]. intros ? ? [X|[X|[]]]; injection X as <- <-; cbn; auto.
Qed.
Definition AGI (s : st) : Prop := forall j a, nth_error (ag s) j = Some a -> agok s j a.
Definition LV (s : st) : Prop := forall j e, In (j, e) (log s) -> exists a, nth_error (ag s) j = Some a /\ evok s j (own a) e.
Lemma evok_more : forall s s' i o e, (exists new, log s' = log s ++ new) -> evok s i o e -> evok s' i o e.
Proof.
  intros s s' i o e (new & L) H. assert (M : forall x, In (i, x) (log s) -> In (i, x) (log s')) by (intros; rewrite L; apply in_or_app; auto).
  destruct e; cbn in *; auto; [destruct limited|]; intuition auto.
Qed.
Lemma acts_fresh : forall s i, INV s -> length (ag s) <= i -> acts i (log s) = [].
Proof. intros s i (_ & _ & _ & _ & F) H. apply acts_quiet. intros j e X. right. specialize (F j e X). lia. Qed.
Lemma nonget_single : forall f k g q s i o c, f :: k = g ++ q -> forallb isget g = true -> qok s i o c q -> isget f = false -> g = [] /\ k = [] /\ q = [f].
Proof.
  intros f k g q s i o c E G Q N. destruct g as [|x g]; cbn in E.
  - split; [reflexivity|]. subst q. destruct k as [|y k]; [auto|]. exfalso. destruct f; cbn in Q; try exact Q; destruct n as [|[]]; exact Q.
  - injection E as <- _. cbn in G. rewrite N in G. discriminate.
Qed.
Lemma exec_AGI : forall s a s', INV s -> AGI s -> LV s -> exec s a = Some s' -> AGI s' /\ LV s'.
Proof.
  intros s a s' I A V E. pose proof (exec_INV _ _ _ I E) as I'. pose proof (exec_Mono _ _ _ I E) as M. destruct a as [c u|i a].
  - injection E as <-. split.
    + intros j b G. cbn in G. destruct (Nat.lt_ge_cases j (length (ag s))) as [Lt|Ge].
      * rewrite nth_error_app1 in G by exact Lt. exact (A j b G).
      * pose proof (acts_fresh s j I Ge) as F. rewrite nth_error_app2 in G by exact Ge. destruct (j - length (ag s)) as [|[|?]]; cbn in G; try discriminate. injection G as <-.
        destruct c; [exists [S0], []|exists [L0], []|exists [I0], []|exists [], [Q0]]; cbn; (split; [reflexivity|]); (split; [reflexivity|]); (split; [auto|eauto]).
    + intros j e J. destruct (V j e J) as (b & G & X). exists b. split; [|exact X]. cbn. rewrite nth_error_app1; [exact G|]. apply nth_error_Some. rewrite G. discriminate.
  - destruct (step_inv _ _ _ _ E) as (o & c & f & k & s1 & c' & l & G & Bd & ->). pose proof (inv_pre _ _ _ _ _ _ I G) as P.
    assert (NG : nth_error (ag s) i <> None) by (rewrite G; discriminate).
    destruct (A i _ G) as (g & q & SK & FG & Q & u & OU). cbn in SK, Q, OU. set (s' := w_ag s1 _) in *.
    assert (ME : agok s' i (AG o c' (l ++ k)) /\ exists new, log s' = log s ++ new /\ forall j e, In (j, e) new -> j = i /\ evok s' i o e).
    { destruct (isget f) eqn:GF.
      - destruct (getter _ _ _ _ _ _ _ _ GF Bd) as (FL & ->). destruct (getter_log _ _ _ _ _ _ _ _ P GF Bd) as (new & L & LN).
        destruct g as [|x g]; cbn in SK.
        { exfalso. subst q. cbn in Q. destruct f; try discriminate GF; exact Q. }
        injection SK as <- SK. cbn in FG. apply andb_true_iff in FG. destruct FG as (_ & FG). split.
        + exists (l ++ g), q. cbn. split; [rewrite SK; apply app_assoc|]. split; [rewrite forallb_app, FL, FG; reflexivity|]. split; [|eauto].
          apply (qok_stable s); [exact (proj1 (proj2 (proj2 (proj2 M))))|exists new; exact L| | |exact Q].
          * cbn. rewrite L, acts_app, (acts_quiet i new); [apply app_nil_r|]. intros j e J. left. destruct (LN j e J) as (_ & [-> |[(-> & _)| ->]]); reflexivity.
          * intros h H. apply (proj2 (proj2 (proj2 (proj2 (proj2 (proj2 (proj2 M))))))).
            -- eapply held_open; [exact I|exact G|]. cbn [stk]. rewrite SK. rewrite hsl_cons, hsl_app. apply in_or_app. right. apply in_or_app. right. exact H.
            -- eapply held_open; [exact I'| |]. { cbn. apply nth_set_eq. apply nth_error_Some. exact NG. } cbn [stk]. rewrite SK, !hsl_app. apply in_or_app. right. apply in_or_app. right. exact H.
        + exists new. split; [exact L|]. intros j e J. destruct (LN j e J) as (-> & X). split; [reflexivity|]. destruct X as [-> |[(-> & _)| ->]]; exact Logic.I.
      - destruct (nonget_single _ _ _ _ _ _ _ _ SK FG Q GF) as (-> & -> & ->). destruct (body_Q _ _ _ _ _ _ _ _ _ P GF Q Bd) as (g2 & q2 & -> & FG2 & Q2' & X). split; [|exact X].
        exists g2, q2. cbn. rewrite app_nil_r. split; [reflexivity|]. split; [exact FG2|]. split; [exact Q2'|eauto]. }
    destruct ME as (ME & new & L & LN). split.
    + intros j b X. destruct (nth_set _ _ _ _ _ _ NG X) as [(-> & ->)|(D & Z)]; [exact ME|].
      destruct (A j b Z) as (g2 & q2 & SK2 & FG2 & Q2' & u2). exists g2, q2. split; [exact SK2|]. split; [exact FG2|]. split; [|exact u2].
      apply (qok_stable s); [exact (proj1 (proj2 (proj2 (proj2 M))))|exists new; exact L| | |exact Q2'].
      * exact (proj2 (exec_agent _ _ _ _ I E _ _ X D)).
      * intros h H. eapply held_kd; try eassumption. rewrite SK2, hsl_app. apply in_or_app. right. exact H.
    + intros j e J. rewrite L in J. apply in_app_or in J. destruct J as [J|J].
      * destruct (V j e J) as (b & Gb & X). destruct (Nat.eq_dec i j) as [->|D].
        -- exists (AG o c' (l ++ k)). split; [cbn; apply nth_set_eq; apply nth_error_Some; exact NG|]. cbn. rewrite G in Gb. injection Gb as <-. cbn in X. eapply evok_more; [exists new; exact L|exact X].
        -- exists b. split; [cbn; rewrite nth_set_neq by exact D; exact Gb|]. eapply evok_more; [exists new; exact L|exact X].
      * destruct (LN j e J) as (-> & X). exists (AG o c' (l ++ k)). split; [cbn; apply nth_set_eq; apply nth_error_Some; exact NG|exact X].
Qed.

(** All of it, for every run. *)
Definition ALL (s : st) : Prop := INV s /\ KI s /\ AGI s /\ LV s.
Lemma run_ALL : forall l s s', ALL s -> run s l = Some s' -> ALL s'.
Proof.
  induction l as [|a l IH]; intros s s' (I & K & A & V) R; cbn in R; [injection R as <-; split; auto|].
  destruct (exec s a) as [s1|] eqn:E; [|discriminate]. apply (IH s1); [|exact R]. destruct (exec_AGI _ _ _ I A V E) as (A1 & V1).
  split; [eapply exec_INV; eassumption|]. split; [eapply exec_KI; eassumption|]. auto.
Qed.
Lemma init_ALL : forall e, ALL (init e).
Proof. intros e. split; [apply init_INV|]. split; [apply init_KI|]. split; [intros j a G; destruct j; discriminate|intros j x []]. Qed.
