(** Property C03: threads writing, copying and destroying arrays that share a buffer. *)
From Coq Require Import List Arith ZArith Bool Lia.
From Verif Require Import Slots SlotsProofs Threads CowConcModel.
Import ListNotations.

(** * Specification: every thread has its own list; nothing is shared. *)
Section Spec.
Context {V : Type}.
Definition world := list (option (list V)).
Definition has (w : world) (i : nat) (l : list V) : Prop := nth_error w i = Some (Some l).
Inductive astep : world -> event V -> world -> Prop :=
| A_set w i k v l : has w i l -> k < length l -> astep w (VSet i k v) (set w i (Some (firstn k l ++ v :: skipn (S k) l)))
| A_add w i v l : has w i l -> astep w (VAdd i v) (set w i (Some (l ++ [v])))
| A_copy w i l : has w i l -> astep w (VCopy i) (w ++ [Some l])
| A_destroy w i l : has w i l -> astep w (VDestroy i) (set w i None)
| A_read w i k l : has w i l -> astep w (VRead i k (nth_error l k)) w
| A_bounds w i k l : has w i l -> length l <= k -> astep w (VBounds i k) w
| A_oom w i l : has w i l -> astep w (VOom i) w.
Inductive replay (w : world) : list (event V) -> world -> Prop :=
| R_nil : replay w [] w
| R_snoc l e w' w'' : replay w l w' -> astep w' e w'' -> replay w (l ++ [e]) w''.
(** The agents whose next step touches the elements of block [c]: to write one, or to read one. *)
Definition writes (c : nat) (a : agent V) : Prop := exists e, a = AG (Some (Some c)) (Wr e).
Definition uses (c : nat) (a : agent V) : Prop :=
  (exists p, a = AG (Some (Some c)) p /\ match p with Fr _ | Sw _ _ => False | _ => True end) \/
  (exists o e, a = AG o (Cp e c)) \/ (exists o k, a = AG o (Fr k) /\ o = Some (Some c)).
End Spec.
Arguments world : clear implicits.

(** * Proofs *)
Section Proofs.
Context {V : Type}.
Notation ag' := (ag (V := V)).
Definition pts (o : option (option nat)) (c : nat) : nat := match o with Some p => pt p c | None => 0 end.
Definition live (c : place V) : bool := match c with Fr _ | Sw _ _ => false | _ => true end.
Definition newb (c : place V) : option nat :=
  match c with Cp _ b | Sw _ b | Rl (Some (_, b)) | Dc (Some (_, b)) | Fr (Some (_, b)) => Some b | _ => None end.
Definition hold (c : nat) (a : agent V) : nat :=
  (if live (pc a) then pts (obj a) c else 0) + pt (newb (pc a)) c + match pc a with KN => pts (obj a) c | _ => 0 end.
Definition tokf (c : nat) (a : agent V) : nat := match pc a with Fr _ => pts (obj a) c | _ => 0 end.
Definition heap := nat -> option (blk V).
Definition free (h : heap) (p : option nat) (l : list V) : Prop :=
  match p with None => l = [] | Some a => exists r, h a = Some (BL r l) /\ (0 < r)%Z end.
Definition efit (e : edit V) (l : list V) : Prop := match e with ESet k _ => k < length l | EAdd _ => True end.
Definition aok (h : heap) (a : agent V) (w : option (list V)) : Prop :=
  match pc a with
  | Idle => match obj a with None => w = None | Some p => exists l, w = Some l /\ free h p l end
  | Chk _ _ | KL | KA | KN => exists p l, obj a = Some p /\ w = Some l /\ free h p l
  | Shd e | Al e => exists p l, obj a = Some p /\ w = Some l /\ free h p l /\ efit e l
  | Cp e b => exists p d l2, obj a = Some p /\ w = Some (d ++ l2) /\ free h p (d ++ l2) /\ efit e (d ++ l2) /\ h b = Some (BL 1 d)
  | Rl (Some (e, b)) => exists p l, obj a = Some p /\ w = Some l /\ free h p l /\ efit e l /\ h b = Some (BL 1 l)
  | Dc (Some (e, b)) => exists p l, obj a = Some (Some p) /\ w = Some l /\ free h (Some p) l /\ efit e l /\ h b = Some (BL 1 l)
  | Fr (Some (e, b)) => exists p l, obj a = Some (Some p) /\ w = Some l /\ efit e l /\ h b = Some (BL 1 l)
  | Sw e b => exists l, w = Some l /\ efit e l /\ h b = Some (BL 1 l)
  | Rl None => exists p l, obj a = Some p /\ w = None /\ free h p l
  | Dc None => exists p l, obj a = Some (Some p) /\ w = None /\ free h (Some p) l
  | Fr None => exists p, obj a = Some (Some p) /\ w = None
  | Cap e | Lk e => exists p l, obj a = Some (Some p) /\ w = Some l /\ h p = Some (BL 1 l) /\ efit e l
  | Lw e r => exists p l, obj a = Some (Some p) /\ w = Some l /\ h p = Some (BL 1 l) /\ efit e l /\ r = (-1)%Z
  | Wr e => exists p l, obj a = Some (Some p) /\ w = Some l /\ h p = Some (BL (-1) l) /\ efit e l
  | Ul => exists p l, obj a = Some (Some p) /\ w = Some l /\ h p = Some (BL (-1) l)
  | Uw r => exists p l, obj a = Some (Some p) /\ w = Some l /\ h p = Some (BL (-1) l) /\ r = 1%Z
  | KI => exists p l, obj a = Some (Some p) /\ w = Some l /\ free h (Some p) l
  end.
Definition bok (b : option (blk V)) (n t : nat) : Prop :=
  match b with
  | None => n = 0 /\ t = 0
  | Some b => (t = 0 /\ ((0 < ref b /\ Z.of_nat n = ref b)%Z \/ (ref b = (-1)%Z /\ n = 1))) \/ (t = 1 /\ n = 0)
  end.
Record Inv (n0 : nat) (s : st V) (w : world V) : Prop := {
  i_log : replay (repeat (Some []) n0) (log s) w;
  i_len : length w = length (ag s);
  i_blk : forall c, bok (hp s c) (suml (hold c) (ag s)) (suml (tokf c) (ag s));
  i_ag : forall i a, nth_error (ag s) i = Some a -> exists x, nth_error w i = Some x /\ aok (hp s) a x }.

Definition same (b b' : option (blk V)) : Prop :=
  b' = b \/ exists r r' l, b = Some (BL r l) /\ (1 < r)%Z /\ (0 < r')%Z /\ b' = Some (BL r' l).
Lemma free_ext : forall h h' p l, (forall c, p = Some c -> same (h c) (h' c)) -> free h p l -> free h' p l.
Proof.
  intros h h' [c|] l E F; cbn in *; [|assumption]. destruct F as (r & F & P). destruct (E c eq_refl) as [Q|(x & y & m & Q1 & Q2 & Q3 & Q4)].
  - exists r. rewrite Q. auto.
  - exists y. rewrite F in Q1. injection Q1 as <- <-. auto.
Qed.
Lemma fix_ext : forall (h h' : heap) c r l, same (h c) (h' c) -> (r <= 1)%Z -> h c = Some (BL r l) -> h' c = Some (BL r l).
Proof.
  intros h h' c r l [Q|(x & y & m & Q1 & Q2 & Q3 & Q4)] L F; [rewrite Q; assumption|]. rewrite F in Q1. injection Q1 as <- <-. lia.
Qed.
Lemma pt_same : forall c, pt (Some c) c = 1.
Proof. intros c. unfold pt. rewrite Nat.eqb_refl. reflexivity. Qed.
Lemma aok_ext : forall h h' a w, (forall c, 0 < hold c a -> same (h c) (h' c)) -> aok h a w -> aok h' a w.
Proof.
  intros h h' [o c] w E A. unfold hold in E. unfold aok in *. cbn [pc obj] in *.
  assert (OB : live c = true -> forall p, o = Some p -> forall l, free h p l -> free h' p l).
  { intros L p -> l F. apply (free_ext h); [|assumption]. intros d ->. apply E. rewrite L. cbn [pts]. rewrite pt_same. lia. }
  assert (OX : live c = true -> forall p, o = Some (Some p) -> forall r l, (r <= 1)%Z -> h p = Some (BL r l) -> h' p = Some (BL r l)).
  { intros L p -> r l RL F. apply (fix_ext h); [|assumption|assumption]. apply E. rewrite L. cbn [pts]. rewrite pt_same. lia. }
  assert (NX : forall b, newb c = Some b -> forall l, h b = Some (BL 1 l) -> h' b = Some (BL 1 l)).
  { intros b N l F. apply (fix_ext h); [|lia|assumption]. apply E. rewrite N. rewrite pt_same. lia. }
  destruct c as [| | | | |[[e b]|]|[[e b]|]|[[e b]|]| | | | | | | | | | |]; cbn [live newb] in OB, OX, NX;
    repeat match goal with H : exists _, _ |- _ => destruct H end; repeat match goal with H : _ /\ _ |- _ => destruct H end;
    try (destruct o as [p|]; [|assumption]; repeat match goal with H : exists _, _ |- _ => destruct H end; repeat match goal with H : _ /\ _ |- _ => destruct H end);
    repeat match goal with |- exists _, _ => eexists end; repeat split; eauto; try (eapply OX; eauto; lia).
Qed.
Lemma Inv_put : forall n0 s w i a b s' w',
  Inv n0 s w -> nth_error (ag s) i = Some a -> ag s' = set (ag s) i b -> replay (repeat (Some []) n0) (log s') w' ->
  length w' = length w -> (forall j, i <> j -> nth_error w' j = nth_error w j) ->
  (exists x, nth_error w' i = Some x /\ aok (hp s') b x) ->
  (forall c n t, hold c a <= n -> tokf c a <= t -> bok (hp s c) n t -> bok (hp s' c) (n - hold c a + hold c b) (t - tokf c a + tokf c b)) ->
  (forall c n t, hold c a < n -> tokf c a <= t -> bok (hp s c) n t -> same (hp s c) (hp s' c)) ->
  Inv n0 s' w'.
Proof.
  intros n0 s w i a b s' w' I N EA R LE W A K F. split; auto.
  - rewrite EA, set_length, LE. apply (i_len _ _ _ I).
  - intros c. rewrite EA. pose proof (suml_set _ (hold c) _ _ _ b N). pose proof (suml_set _ (tokf c) _ _ _ b N).
    pose proof (suml_ge _ (hold c) _ _ _ N). pose proof (suml_ge _ (tokf c) _ _ _ N). specialize (K c _ _ H1 H2 (i_blk _ _ _ I c)).
    replace (suml (hold c) (set (ag s) i b)) with (suml (hold c) (ag s) - hold c a + hold c b) by lia.
    replace (suml (tokf c) (set (ag s) i b)) with (suml (tokf c) (ag s) - tokf c a + tokf c b) by lia. exact K.
  - intros j d. rewrite EA. intros M. apply nth_set in M. destruct M as [[<- ->]|[NE M]]; [assumption|].
    destruct (i_ag _ _ _ I _ _ M) as (x & X & Y). exists x. split; [rewrite W by assumption; assumption|]. apply (aok_ext (hp s)); [|assumption].
    intros c H. apply (F c (suml (hold c) (ag s)) (suml (tokf c) (ag s))); [| |apply I].
    + pose proof (suml_two _ (hold c) _ _ _ _ _ NE N M). lia.
    + apply (suml_ge _ (tokf c) _ _ _ N).
Qed.
(** Only the place changes, the holdings do not. *)
Lemma Inv_pc : forall n0 s w i a b x, Inv n0 s w -> nth_error (ag s) i = Some a -> nth_error w i = Some x ->
  (forall c, hold c b = hold c a) -> (forall c, tokf c b = tokf c a) -> aok (hp s) b x -> Inv n0 (put s i b) w.
Proof.
  intros n0 s w i a b x I N X H T A. eapply Inv_put; [exact I|exact N|reflexivity|apply I|reflexivity|reflexivity|eauto| |].
  - intros c n t L1 L2 B. cbn [put hp]. rewrite H, T. replace (n - hold c a + hold c a) with n by lia. replace (t - tokf c a + tokf c a) with t by lia. exact B.
  - intros. left. reflexivity.
Qed.
Lemma Inv_say : forall n0 s w e, Inv n0 s w -> astep w e w -> Inv n0 (say s e) w.
Proof. intros n0 s w e I A. destruct I. split; auto. cbn. eapply R_snoc; eassumption. Qed.
Lemma init_inv : forall n, Inv n (init n) (repeat (Some []) n).
Proof.
  intros n. split; cbn.
  - constructor.
  - rewrite !repeat_length. reflexivity.
  - intros c. rewrite !suml_repeat by reflexivity. auto.
  - intros i a H. assert (i < n) by (rewrite <- (repeat_length (AG (Some None) Idle : agent V) n); apply nth_error_Some; congruence).
    apply nth_error_In in H. apply repeat_spec in H. subst a. exists (Some []). split; [apply nth_error_repeat; assumption|]. exists []. cbn. auto.
Qed.

Ltac ex := repeat match goal with H : exists _, _ |- _ => destruct H end; repeat match goal with H : _ /\ _ |- _ => destruct H end; subst.
Ltac blks := intros c n t L1 L2 B; unfold hold, tokf, cont in *; cbn [put seth say hp ag log pc obj live newb pts fst snd] in *; unfold upd, pt in *;
  repeat match goal with |- context [?x =? ?y] => destruct (Nat.eqb_spec x y); try congruence | H : context [?x =? ?y] |- _ => destruct (Nat.eqb_spec x y); try congruence end; subst;
  repeat match goal with H : hp _ _ = _ , B : context [hp _ _] |- _ => rewrite H in B | H : hp _ _ = _ |- context [hp _ _] => rewrite H end;
  unfold bok in *; cbn [ref dat] in *; try (left; reflexivity); try (right; eexists _, _, _; split; [reflexivity|]; split; [lia|]; split; [|reflexivity]; lia);
  try (match goal with |- context [hp ?s ?c] => destruct (hp s c) end); try lia.
Lemma set_other : forall (w : world V) i x j, i <> j -> nth_error (set w i x) j = nth_error w j.
Proof. intros. apply nth_set_neq. assumption. Qed.
Lemma start_inv : forall n0 s w i c, Inv n0 s w -> match start s i c with Next s' => exists w', Inv n0 s' w' | Bad => False | No => True end.
Proof.
  intros n0 s w i c I. unfold start. destruct (nth_error (ag s) i) as [[[p|] []]|] eqn:N; auto.
  destruct (i_ag _ _ _ I _ _ N) as (x & X & A). cbn in A. destruct A as (l & -> & F). destruct c as [k v|v| | |k].
  - exists w. eapply Inv_pc; [exact I|exact N|exact X|reflexivity|reflexivity|]. cbn. eauto.
  - exists w. eapply Inv_pc; [exact I|exact N|exact X|reflexivity|reflexivity|]. cbn. exists p, l. auto.
  - exists w. eapply Inv_pc; [exact I|exact N|exact X|reflexivity|reflexivity|]. cbn. eauto.
  - exists (set w i None). eapply Inv_put; [exact I|exact N|reflexivity| | | | | |].
    + cbn. eapply R_snoc; [apply I|]. econstructor. exact X.
    + apply set_length.
    + intros j NE. apply set_other. assumption.
    + exists None. split; [apply nth_set_eq; apply nth_error_Some; congruence|]. cbn. eauto.
    + blks.
    + blks.
  - destruct p as [a|].
    + cbn in F. destruct F as (r & F & P). rewrite F. exists w. apply Inv_say; [assumption|]. constructor. exact X.
    + cbn in F. subst l. exists w. apply Inv_say; [assumption|]. replace None with (nth_error ([] : list V) k) by (destruct k; reflexivity). constructor. exact X.
Qed.

Lemma suml_app : forall A (f : A -> nat) l m, suml f (l ++ m) = suml f l + suml f m.
Proof. intros A f l m. induction l; cbn; lia. Qed.
(** Adding the copy. *)
Lemma Inv_new : forall n0 s w i o l, Inv n0 s w -> nth_error (ag s) i = Some (AG (Some o) KN) -> nth_error w i = Some (Some l) -> free (hp s) o l ->
  Inv n0 (say (ST (hp s) (set (ag s) i (AG (Some o) Idle) ++ [AG (Some o) Idle]) (log s)) (VCopy i)) (w ++ [Some l]).
Proof.
  intros n0 s w i o l I N X F. pose proof (i_len _ _ _ I) as L. split; cbn [say hp ag log].
  - eapply R_snoc; [apply I|]. constructor. exact X.
  - rewrite !app_length, set_length. cbn. lia.
  - intros c. rewrite !suml_app. pose proof (suml_set _ (hold c) _ _ _ (AG (Some o) Idle) N). pose proof (suml_set _ (tokf c) _ _ _ (AG (Some o) Idle) N).
    pose proof (i_blk _ _ _ I c) as B. cbn [suml]. unfold hold, tokf in *. cbn [pc obj live newb pt] in *.
    replace (_ + (_ + 0 + 0 + 0)) with (suml (hold c) (ag s)). 2:{ unfold hold. lia. }
    replace (_ + (0 + 0)) with (suml (tokf c) (ag s)). 2:{ unfold tokf. lia. } exact B.
  - intros j a M. destruct (Nat.lt_ge_cases j (length (ag s))) as [LT|GE].
    + rewrite nth_error_app1 in M by (rewrite set_length; assumption). rewrite nth_error_app1 by lia. apply nth_set in M. destruct M as [[<- ->]|[NE M]].
      * exists (Some l). split; [assumption|]. cbn. eauto.
      * apply (i_ag _ _ _ I _ _ M).
    + rewrite nth_error_app2 in M by (rewrite set_length; assumption). rewrite nth_error_app2 by lia. rewrite set_length in M. rewrite L.
      destruct (j - length (ag s)) as [|[|m]]; cbn in *; try discriminate. injection M as <-. exists (Some l). split; [reflexivity|]. cbn. eauto.
Qed.
Lemma same_w : forall (w : world V) i (x : option (list V)), nth_error w i = Some x -> i < length w.
Proof. intros w i x H. apply nth_error_Some. congruence. Qed.
Lemma set_alter : forall (l : list V) k v, k < length l -> set l k v = firstn k l ++ v :: skipn (S k) l.
Proof. induction l as [|y l IH]; intros [|k] v H; cbn in *; try lia; [reflexivity|]. f_equal. apply IH. lia. Qed.

Lemma set_same : forall A (l : list A) i x, nth_error l i = Some x -> set l i x = l.
Proof. intros A l. induction l as [|y l IH]; intros [|i] x H; cbn in *; try discriminate; [congruence|]. f_equal. auto. Qed.
Lemma upd_eq : forall A (f : nat -> A) x v, upd f x v x = v.
Proof. intros. unfold upd. rewrite Nat.eqb_refl. reflexivity. Qed.
Lemma upd_ne : forall A (f : nat -> A) x y v, y <> x -> upd f x v y = f y.
Proof. intros. unfold upd. destruct (Nat.eqb_spec y x); [contradiction|reflexivity]. Qed.
Ltac pcs I N X := eapply Inv_pc; [exact I|exact N|exact X|reflexivity|reflexivity|].
Ltac puts I N X := eapply Inv_put; [exact I|exact N|reflexivity|apply I|reflexivity|reflexivity|eexists; split; [exact X|]|blks|blks].
Lemma step_inv : forall n0 s w i x oom grow, Inv n0 s w ->
  match step s i x oom grow with
  | Next s' => exists w', Inv n0 s' w'
  | Bad => False
  | No => (forall a, nth_error (ag s) i = Some a -> pc a = Idle) \/ hp s x <> None
  end.
Proof.
  intros n0 s w i x oom grow I. unfold step. destruct (nth_error (ag s) i) as [[o c]|] eqn:N; [|left; congruence].
  destruct (i_ag _ _ _ I _ _ N) as (y & X & A).
  destruct c as [| | | |e b|[[e b]|]|[[e b]|]|[[e b]|]|e b| | | | | | | | | |]; unfold aok in A; cbn [pc obj] in A; ex.
  - (* Idle *) destruct o as [[a|]|]; left; intros a' E; injection E as <-; reflexivity.
  - (* Chk *) destruct x0 as [a|]; cbn [free] in *; ex.
    + rewrite H. cbn [stepb dat]. destruct (Nat.ltb_spec k (length x1)).
      * exists w. pcs I N X. cbn. exists (Some a), x1. cbn. eauto 10.
      * exists w. apply Inv_say; [|econstructor; [exact X|assumption]]. pcs I N X. cbn. eauto.
    + cbn [step0]. exists w. apply Inv_say; [|econstructor; [exact X|cbn; lia]]. pcs I N X. cbn. eauto.
  - (* Shd *) destruct x0 as [a|]; cbn [free] in *; ex.
    + rewrite H. cbn [stepb dat ref]. destruct (Z.ltb_spec 1 x0).
      * exists w. pcs I N X. cbn. exists (Some a), x1. cbn. eauto 10.
      * exists w. pcs I N X. cbn. exists a, x1. assert (x0 = 1)%Z by lia. subst. auto.
    + cbn [step0]. exists w. pcs I N X. cbn. exists None, []. cbn. auto.
  - (* Al *) assert (G : (if oom then Next (say (put s i (AG (Some x0) Idle)) (VOom i)) else match hp s x with None => Next (put (seth s x (Some (BL 1 []))) i (AG (Some x0) (Cp e x))) | Some _ => No end) =
      match Some (AG (Some x0) (Al e)) with
      | Some (AG _ (Sw e b)) => Next (put s i (AG (Some (Some b)) (Lk e)))
      | Some (AG (Some (Some a)) c) => match c with Idle => No | _ => match hp s a with Some b => stepb s i a b c x oom grow | None => Bad end end
      | Some (AG (Some None) c) => step0 s i c x oom
      | _ => No
      end).
    { destruct x0 as [a|]; cbn [free] in *; ex; [rewrite H|]; reflexivity. }
    rewrite <- G. clear G. destruct oom.
    + exists w. apply Inv_say; [|econstructor; exact X]. pcs I N X. cbn. eauto.
    + destruct (hp s x) eqn:HX; [right; congruence|]. exists w. puts I N X. cbn. exists x0, [], x1. cbn [app]. repeat split; auto.
      * apply (free_ext (hp s)); [|assumption]. intros d ->. left. unfold upd. destruct (Nat.eqb_spec d x); [|reflexivity]. subst d. cbn in H1. destruct H1 as (? & ? & _). congruence.
      * unfold upd. rewrite Nat.eqb_refl. reflexivity.
  - (* Cp *)
    assert (BN : forall a, x0 = Some a -> a <> b).
    { intros a -> ->. pose proof (i_blk _ _ _ I b) as B. pose proof (suml_ge _ (hold b) _ _ _ N) as G. unfold hold at 1 in G. cbn [pc obj live newb pts] in G. rewrite pt_same in G.
      rewrite H3 in B. cbn in B. lia. }
    destruct x0 as [a|].
    + cbn [free] in H1. destruct H1 as (r & F & P). rewrite F. cbn [stepb dat]. rewrite H3. cbn [dat ref]. rewrite nth_error_app2, Nat.sub_diag by lia. destruct x2 as [|v l2]; cbn [nth_error].
      * exists w. pcs I N X. cbn. rewrite app_nil_r in *. exists (Some a), x1. cbn. eauto 10.
      * exists w. eapply Inv_put; [exact I|exact N|cbn; symmetry; apply set_same; exact N|apply I|reflexivity|reflexivity|eexists; split; [exact X|]|blks|blks].
        cbn. exists (Some a), (x1 ++ [v]), l2. rewrite <- app_assoc. cbn. rewrite upd_eq, upd_ne by auto. eauto 10.
    + cbn [free] in H1. apply app_eq_nil in H1. destruct H1 as [-> ->]. cbn [step0]. exists w. pcs I N X. cbn. exists None, []. cbn. auto.
  - (* Rl Some *) destruct x0 as [a|]; cbn [free] in *; ex.
    + rewrite H. cbn [stepb dat ref]. destruct (Z.ltb_spec 0 x0); [|lia]. exists w. pcs I N X. cbn. exists a, x1. cbn. eauto 10.
    + cbn [step0 cont]. exists w. pcs I N X. cbn. eauto.
  - (* Rl None *) destruct x0 as [a|]; cbn [free] in *; ex.
    + rewrite H. cbn [stepb dat ref]. destruct (Z.ltb_spec 0 x0); [|lia]. exists w. pcs I N X. cbn. exists a, x1. cbn. eauto 10.
    + cbn [step0 cont]. exists w. pcs I N X. reflexivity.
  - (* Dc Some *) cbn [free] in H1. destruct H1 as (r & F & P). rewrite F. cbn [stepb dat ref].
    assert (BN : x0 <> b).
    { intros ->. pose proof (i_blk _ _ _ I b) as B. pose proof (suml_ge _ (hold b) _ _ _ N) as G. unfold hold at 1 in G. cbn [pc obj live newb pts] in G. rewrite pt_same in G.
      rewrite H3 in B. cbn in B. lia. }
    destruct (Z.eqb_spec (r - 1) 0) as [Z0|Z0].
    + exists w. puts I N X. cbn. exists x0, x1. rewrite upd_ne by auto. auto.
    + exists w. puts I N X. cbn. exists x1. rewrite upd_ne by auto. auto.
  - (* Dc None *) cbn [free] in H1. destruct H1 as (r & F & P). rewrite F. cbn [stepb dat ref].
    destruct (Z.eqb_spec (r - 1) 0) as [Z0|Z0].
    + exists w. puts I N X. cbn. exists x0. auto.
    + exists w. puts I N X. reflexivity.
  - (* Fr Some *)
    pose proof (i_blk _ _ _ I x0) as B0. pose proof (suml_ge _ (tokf x0) _ _ _ N) as G. unfold tokf at 1 in G. cbn [pc obj pts] in G. rewrite pt_same in G.
    assert (BN : x0 <> b).
    { intros ->. pose proof (suml_ge _ (hold b) _ _ _ N) as G'. unfold hold at 1 in G'. cbn [pc obj live newb pts] in G'. rewrite pt_same in G'. rewrite H2 in B0. cbn in B0. lia. }
    destruct (hp s x0) as [bb|] eqn:HB; [|cbn in B0; lia]. cbn [stepb]. exists w. puts I N X. cbn. exists x1. rewrite upd_ne by auto. auto.
  - (* Fr None *)
    pose proof (i_blk _ _ _ I x0) as B0. pose proof (suml_ge _ (tokf x0) _ _ _ N) as G. unfold tokf at 1 in G. cbn [pc obj pts] in G. rewrite pt_same in G.
    destruct (hp s x0) as [bb|] eqn:HB; [|cbn in B0; lia]. cbn [stepb]. exists w. puts I N X. reflexivity.
  - (* Sw *) assert (G : Inv n0 (put s i (AG (Some (Some b)) (Lk e))) w).
    { eapply Inv_pc; [exact I|exact N|exact X|intros c; unfold hold; cbn [pc obj live newb pts]; rewrite ?pt_none; lia|reflexivity|]. cbn. eauto 10. }
    destruct o as [[a|]|]; eauto.
  - (* Cap *) rewrite H1. cbn [stepb dat ref Z.ltb Z.compare]. destruct grow; [|exists w; pcs I N X; cbn; eauto 10].
    destruct oom.
    + exists w. apply Inv_say; [|econstructor; exact X]. pcs I N X. cbn. exists x1. split; [reflexivity|]. exists 1%Z. split; [assumption|lia].
    + destruct (hp s x) eqn:HX; [right; congruence|]. assert (x <> x0) by congruence. exists w. puts I N X. cbn. exists x, x1. rewrite upd_eq. auto.
  - (* Lk *) rewrite H1. cbn [stepb dat ref Z.ltb Z.compare Z.eqb Pos.compare Pos.compare_cont Pos.eqb]. exists w. pcs I N X. cbn. eauto 10.
  - (* Lw *) rewrite H1. cbn [stepb dat ref]. exists w. puts I N X. cbn. exists x0, x1. rewrite upd_eq. auto.
  - (* Wr *) rewrite H1. cbn [stepb dat ref]. exists (set w i (Some (alter e x1))). eapply Inv_put; [exact I|exact N|reflexivity| | | | |blks|blks].
    + cbn. eapply R_snoc; [apply I|]. destruct e as [k v|v]; cbn [alter written].
      * cbn in H2. rewrite set_alter by assumption. constructor; assumption.
      * constructor. assumption.
    + apply set_length.
    + intros j NE. apply set_other. assumption.
    + exists (Some (alter e x1)). split; [apply nth_set_eq; apply (same_w _ _ _ X)|]. cbn. exists x0, (alter e x1). rewrite upd_eq. auto.
  - (* Ul *) rewrite H1. cbn [stepb dat ref Z.ltb Z.compare Z.eqb Pos.eqb]. exists w. pcs I N X. cbn. eauto 10.
  - (* Uw *) rewrite H1. cbn [stepb dat ref]. exists w. puts I N X. cbn. exists x1. split; [reflexivity|]. exists 1%Z. rewrite upd_eq. split; [reflexivity|lia].
  - (* KL *) destruct x0 as [a|]; cbn [free] in *; ex.
    + rewrite H. cbn [stepb dat ref]. destruct (Z.ltb_spec x0 0); [lia|]. exists w. pcs I N X. cbn. exists (Some a), x1. cbn. eauto 10.
    + cbn [step0]. exists w. pcs I N X. cbn. exists None, []. cbn. auto.
  - (* KA *) destruct x0 as [a|]; cbn [free] in *; ex.
    + rewrite H. cbn [stepb dat ref]. destruct (Z.ltb_spec x0 1); [lia|]. exists w. pcs I N X. cbn. exists a, x1. cbn. eauto 10.
    + cbn [step0]. exists w. pcs I N X. cbn. exists None, []. cbn. auto.
  - (* KI *) cbn [free] in H1. destruct H1 as (r & F & P). rewrite F. cbn [stepb dat ref]. exists w. puts I N X. cbn. exists (Some x0), x1. split; [reflexivity|]. split; [reflexivity|].
    cbn. rewrite upd_eq. exists (r + 1)%Z. split; [reflexivity|lia].
  - (* KN *) destruct x0 as [a|].
    + cbn [free] in H1. destruct H1 as (r & F & P). rewrite F. cbn [stepb]. eexists. apply Inv_new; [exact I|exact N|exact X|]. cbn. eauto.
    + cbn [step0]. eexists. apply Inv_new; [exact I|exact N|exact X|assumption].
Qed.
Lemma exec_inv : forall n0 s w a, Inv n0 s w -> match exec s a with Next s' => exists w', Inv n0 s' w' | Bad => False | No => True end.
Proof.
  intros n0 s w [i c|i x oom grow] I; cbn [exec]; [apply (start_inv _ _ _ _ _ I)|]. pose proof (step_inv _ _ _ i x oom grow I) as H. destruct (step s i x oom grow); auto.
Qed.
Lemma run_inv : forall n0 l s w, Inv n0 s w -> match run s l with Next s' => exists w', Inv n0 s' w' | Bad => False | No => True end.
Proof.
  intros n0 l. induction l as [|a l IH]; intros s w I; cbn [run]; [eauto|]. pose proof (exec_inv _ _ _ a I) as H. destruct (exec s a); auto. destruct H as [w' H]. eapply IH. exact H.
Qed.
Lemma reach_inv : forall n l s, run (init n) l = Next s -> exists w, Inv n s w.
Proof. intros n l s H. pose proof (run_inv _ l _ _ (init_inv n)) as R. rewrite H in R. exact R. Qed.

(** * C03 *)
(** Any number of threads, every interleaving: no thread touches a block that was freed (reading,
    writing, counting or freeing it a second time), and no exception is thrown. *)
Theorem C03_no_ub : forall n l, run (init n : st V) l <> Bad.
Proof. intros n l H. pose proof (run_inv _ l _ _ (init_inv n)) as R. rewrite H in R. exact R. Qed.

(** Every thread sees its own array as if nothing were shared: the log of all operations is a run of
    the specification, reads included, and at the end an idle thread's block holds its list. *)
Theorem C03_values : forall n l s, run (init n : st V) l = Next s ->
  exists w, replay (repeat (Some []) n) (log s) w /\
    forall i o, nth_error (ag s) i = Some (AG o Idle) ->
      match o with
      | None => nth_error w i = Some None
      | Some None => nth_error w i = Some (Some [])
      | Some (Some a) => exists b, hp s a = Some b /\ nth_error w i = Some (Some (dat b))
      end.
Proof.
  intros n l s H. destruct (reach_inv _ _ _ H) as (w & I). exists w. split; [apply I|]. intros i o N. destruct (i_ag _ _ _ I _ _ N) as (x & X & A). cbn in A.
  destruct o as [[a|]|]; cbn in A.
  - destruct A as (l' & -> & r & F & _). exists (BL r l'). auto.
  - destruct A as (l' & -> & ->). assumption.
  - subst x. assumption.
Qed.

(** A thread about to write an element is the only one that uses the block. *)
Theorem C03_exclusive : forall n l s i j ai aj c, run (init n : st V) l = Next s ->
  nth_error (ag s) i = Some ai -> nth_error (ag s) j = Some aj -> i <> j -> writes c ai -> ~ uses c aj.
Proof.
  intros n l s i j ai aj c H NI NJ NE [e ->] U. destruct (reach_inv _ _ _ H) as (w & I).
  destruct (i_ag _ _ _ I _ _ NI) as (x & X & A). cbn in A. ex. injection H0 as <-. pose proof (i_blk _ _ _ I c) as B. rewrite H2 in B. cbn in B.
  pose proof (suml_two _ (hold c) _ _ _ _ _ NE NI NJ) as T. pose proof (suml_two _ (tokf c) _ _ _ _ _ NE NI NJ) as T'.
  unfold hold at 1 in T. cbn [pc obj live newb pts] in T. rewrite pt_same in T.
  destruct U as [(p & -> & P)|[(o & e' & ->)|(o & k & -> & ->)]].
  - assert (L : live p = true) by (destruct p; cbn in *; auto; contradiction). unfold hold at 1 in T. cbn [pc obj] in T. rewrite L in T. cbn [pts] in T. rewrite pt_same in T. lia.
  - unfold hold at 1 in T. cbn [pc obj newb] in T. rewrite pt_same in T. lia.
  - unfold tokf in T' at 2. cbn [pc obj pts] in T'. rewrite pt_same in T'. lia.
Qed.

(** Nothing leaks: a block exists only while some array refers to it or some thread is working on it;
    once every thread has destroyed its array, every block was freed. *)
Theorem C03_no_leak : forall n l s, run (init n : st V) l = Next s -> (forall i a, nth_error (ag s) i = Some a -> a = AG None Idle) -> forall c, hp s c = None.
Proof.
  intros n l s H E c. destruct (reach_inv _ _ _ H) as (w & I). pose proof (i_blk _ _ _ I c) as B. destruct (hp s c); [|reflexivity]. exfalso.
  assert (Z1 : suml (hold c) (ag s) = 0).
  { destruct (suml (hold c) (ag s)) eqn:Q; [reflexivity|]. destruct (suml_pos _ (hold c) (ag s) ltac:(lia)) as (i & a & N & P). rewrite (E _ _ N) in P. cbn in P. lia. }
  assert (Z2 : suml (tokf c) (ag s) = 0).
  { destruct (suml (tokf c) (ag s)) eqn:Q; [reflexivity|]. destruct (suml_pos _ (tokf c) (ag s) ltac:(lia)) as (i & a & N & P). rewrite (E _ _ N) in P. cbn in P. lia. }
  rewrite Z1, Z2 in B. cbn in B. lia.
Qed.

(** The count is exact: for a block not being freed and not locked, iRef is the number of references. *)
Theorem C03_count : forall n l s c b, run (init n : st V) l = Next s -> (forall i a, nth_error (ag s) i = Some a -> pc a = Idle) -> hp s c = Some b ->
  ref b = Z.of_nat (length (filter (fun a => match obj a with Some (Some x) => x =? c | _ => false end) (ag s))) /\ (0 < ref b)%Z.
Proof.
  intros n l s c b H E HB. destruct (reach_inv _ _ _ H) as (w & I). pose proof (i_blk _ _ _ I c) as B. rewrite HB in B. cbn in B.
  assert (Z1 : forall m, (forall i a, nth_error m i = Some a -> pc a = Idle) -> suml (hold c) m = length (filter (fun a => match obj a with Some (Some x) => x =? c | _ => false end) m) /\ suml (tokf c) m = 0).
  { induction m as [|a m IH]; intros K; [split; reflexivity|]. destruct (IH (fun i a => K (S i) a)) as [I1 I2]. pose proof (K 0 a eq_refl) as P. destruct a as [o p]. cbn in P. subst p.
    cbn [suml filter obj]. rewrite I1, I2. unfold hold, tokf. cbn [pc obj live newb pt]. destruct o as [[x|]|]; cbn [pts pt]; try (split; [lia|reflexivity]). destruct (x =? c); cbn; split; lia. }
  destruct (Z1 _ E) as [Q1 Q2]. rewrite Q2 in B. rewrite <- Q1. destruct B as [[_ [[P1 P2]|[P1 P2]]]|[P _]]; [lia| |lia].
  exfalso. destruct (suml_pos _ (hold c) (ag s) ltac:(lia)) as (i & [o p] & N & P). pose proof (E _ _ N) as PI. cbn in PI. subst p.
  destruct (i_ag _ _ _ I _ _ N) as (x & X & A). unfold hold in P. cbn [pc obj live newb pt] in *. cbn in A. destruct o as [[a|]|]; cbn in P; try lia. destruct (Nat.eqb_spec a c); [|lia]. subst a.
  cbn in A. destruct A as (? & _ & r & F & PO). rewrite HB in F. injection F as ->. cbn in P1. lia.
Qed.

(** No thread is ever stuck in the middle of an operation, whatever the others do. *)
Theorem C03_progress : forall n l s i a x oom grow, run (init n : st V) l = Next s -> nth_error (ag s) i = Some a -> pc a <> Idle -> hp s x = None ->
  exists s', step s i x oom grow = Next s'.
Proof.
  intros n l s i a x oom grow H N P HX. destruct (reach_inv _ _ _ H) as (w & I). pose proof (step_inv _ _ _ i x oom grow I) as S. destruct (step s i x oom grow); [eauto|contradiction|].
  destruct S as [S|S]; [exfalso; apply P; eauto|contradiction].
Qed.
End Proofs.


Print Assumptions C03_no_ub.
Print Assumptions C03_values.
Print Assumptions C03_exclusive.
Print Assumptions C03_no_leak.
Print Assumptions C03_count.
Print Assumptions C03_progress.

(** * Example: thread 0 adds an element and copies its array; both then write at the same time, both
    seeing the block as shared, so that both clone it and the second one to release it frees it. *)
Definition go (i x k : nat) : list (act nat) := repeat (Step i x false false) k.
Definition sched : list (act nat) :=
  Start 0 (OAdd 7) :: go 0 0 10 ++ Start 0 OCopy :: go 0 0 4 ++ Start 0 (OSet 0 8) :: Start 1 (OSet 0 9) ::
  go 0 1 6 ++ go 1 2 6 ++ go 0 0 1 ++ go 1 0 8 ++ go 0 0 6 ++ [Start 0 (ORead 0); Start 1 (ORead 0)].
Example C03_example : match run (init 1) sched with
  | Next s => log s = [VAdd 0 7; VCopy 0; VSet 1 0 9; VSet 0 0 8; VRead 0 0 (Some 8); VRead 1 0 (Some 9)] /\ hp s 0 = None /\ hp s 1 = Some (BL 1 [8]) /\ hp s 2 = Some (BL 1 [9])
  | _ => False
  end.
Proof. vm_compute. auto. Qed.
(** In the middle both use block 0; later thread 1 is about to write its own block. *)
Example C03_example_middle : match run (init 1) (firstn 30 sched), run (init 1) (firstn 36 sched) with
  | Next s, Next s' => Forall (uses 0) (ag s) /\ (exists b, nth_error (ag s') 1 = Some b /\ writes 2 b)
  | _, _ => False
  end.
Proof.
  vm_compute. split.
  - constructor; [|constructor; [|constructor]]; left; eexists; (split; [reflexivity|exact Logic.I]).
  - eexists. split; [reflexivity|]. eexists. reflexivity.
Qed.
(** Afterwards both destroy their arrays: nothing is left. *)
Example C03_example_end : match run (init 1) (sched ++ Start 1 ODestroy :: go 1 0 3 ++ Start 0 ODestroy :: go 0 0 3) with
  | Next s => ag s = [AG None Idle; AG None Idle] /\ hp s 0 = None /\ hp s 1 = None /\ hp s 2 = None
  | _ => False
  end.
Proof. vm_compute. auto. Qed.
