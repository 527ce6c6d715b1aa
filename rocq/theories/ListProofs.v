(** Specification and representation lemmas for the intrusive lists (C09, C10, C70): the
    pointer structures hold exactly the entries pushed and not yet removed, in order. *)
From Coq Require Import Arith Lia Bool List.
From Verif Require Import ListModel.
Import ListNotations.

(** ** Specification: any number of lists, each a sequence of entries *)
Definition contents := nat -> list nat.
Definition put (c : contents) (l : nat) (xs : list nat) : contents :=
  fun k => if k =? l then xs else c k.
Definition nowhere (c : contents) (e : nat) : Prop := forall l, ~ In e (c l).
Definition last_error (xs : list nat) : option nat := hd_error (rev xs).

(** One operation.  Clients only push entries that are in no list and only remove entries
    that are in the list; [Flush] and the move constructor build a new, empty, object. *)
Inductive dspec (c : contents) : dop -> contents -> ptr -> Prop :=
| S_PushBack l e : nowhere c e -> dspec c (OPushBack l e) (put c l (c l ++ [e])) None
| S_PushSelf l : dspec c (OPushList l l) c None
| S_PushList l o : l <> o -> dspec c (OPushList l o) (put (put c l (c l ++ c o)) o []) None
| S_PopBackEmpty l : c l = [] -> dspec c (OPopBack l) c None
| S_PopBack l xs e : c l = xs ++ [e] -> dspec c (OPopBack l) (put c l xs) (Some e)
| S_PopFrontEmpty l : c l = [] -> dspec c (OPopFront l) c None
| S_PopFront l xs e : c l = e :: xs -> dspec c (OPopFront l) (put c l xs) (Some e)
| S_Insert l w e xs ys : nowhere c e -> c l = xs ++ w :: ys ->
    dspec c (OInsert l w e) (put c l (xs ++ e :: w :: ys)) None
| S_InsertFront l e : nowhere c e -> dspec c (OInsertFront l e) (put c l (e :: c l)) None
| S_Remove l e xs ys : c l = xs ++ e :: ys -> dspec c (ORemove l e) (put c l (xs ++ ys)) None
| S_Flush l d : l <> d -> c d = [] -> dspec c (OFlush l d) (put (put c d (c l)) l []) None.

Inductive dspecs (c : contents) : list dop -> contents -> list ptr -> Prop :=
| S_nil : dspecs c [] c []
| S_cons o c1 r ops c2 rs : dspec c o c1 r -> dspecs c1 ops c2 rs ->
    dspecs c (o :: ops) c2 (r :: rs).

(** ** Representation *)
Definition hd_or (xs : list nat) (q : ptr) : ptr := match xs with [] => q | y :: _ => Some y end.
Fixpoint last_or (p : ptr) (xs : list nat) : ptr :=
  match xs with [] => p | x :: t => last_or (Some x) t end.

(** The entries [xs] are linked in both directions, [p] before and [q] after them. *)
Fixpoint seg (P N : nat -> ptr) (p : ptr) (xs : list nat) (q : ptr) : Prop :=
  match xs with
  | [] => True
  | x :: t => P x = p /\ N x = hd_or t q /\ seg P N (Some x) t q
  end.

Definition Rep (s : dl) (c : contents) : Prop :=
  (forall l, seg (pr s) (nx s) None (c l) None)
  /\ (forall l, fi s l = hd_or (c l) None)
  /\ (forall l, la s l = last_or None (c l))
  /\ (forall l, NoDup (c l))
  /\ (forall l1 l2 x, In x (c l1) -> In x (c l2) -> l1 = l2)
  /\ (forall x, nowhere c x -> pr s x = None /\ nx s x = None).

Lemma hd_or_app : forall xs ys q, hd_or (xs ++ ys) q = hd_or xs (hd_or ys q).
Proof. intros [|x xs] ys q; reflexivity. Qed.

Lemma last_or_app : forall xs p ys, last_or p (xs ++ ys) = last_or (last_or p xs) ys.
Proof. induction xs as [|x xs IH]; intros p ys; cbn; [reflexivity|apply IH]. Qed.

Lemma hd_or_none : forall xs, hd_or xs None = None -> xs = [].
Proof. intros [|x xs] H; [reflexivity|discriminate]. Qed.

Lemma last_or_some : forall xs t, last_or None xs = Some t -> exists ys, xs = ys ++ [t].
Proof.
  intros xs t. induction xs as [|x xs IH] using rev_ind; [discriminate|].
  rewrite last_or_app. cbn. intros [= ->]. eauto.
Qed.

Lemma last_or_none : forall xs, last_or None xs = None -> xs = [].
Proof.
  intros xs. induction xs as [|x xs IH] using rev_ind; [reflexivity|].
  rewrite last_or_app. discriminate.
Qed.

Lemma last_or_error : forall xs, last_or None xs = last_error xs.
Proof.
  intros xs. unfold last_error. induction xs as [|x xs IH] using rev_ind; [reflexivity|].
  rewrite last_or_app, rev_app_distr. reflexivity.
Qed.

Lemma seg_app : forall P N xs p ys q,
  seg P N p (xs ++ ys) q <-> seg P N p xs (hd_or ys q) /\ seg P N (last_or p xs) ys q.
Proof.
  intros P N xs. induction xs as [|x xs IH]; intros p ys q; cbn; [tauto|].
  rewrite IH, hd_or_app. tauto.
Qed.

Lemma seg_ext : forall P N P' N' xs p q,
  (forall x, In x xs -> P' x = P x /\ N' x = N x) -> seg P N p xs q -> seg P' N' p xs q.
Proof.
  intros P N P' N' xs. induction xs as [|x xs IH]; intros p q H; cbn; [tauto|].
  intros (H1 & H2 & H3). destruct (H x) as [E1 E2]; [left; reflexivity|].
  rewrite E1, E2. repeat split; try assumption. apply IH; [|exact H3].
  intros y Hy. apply H. right. exact Hy.
Qed.

Lemma upd_same : forall f k v, upd f k v k = v.
Proof. intros. unfold upd. rewrite Nat.eqb_refl. reflexivity. Qed.
Lemma upd_other : forall f k v x, x <> k -> upd f k v x = f x.
Proof. intros f k v x H. unfold upd. destruct (Nat.eqb_spec x k); [contradiction|reflexivity]. Qed.
Lemma put_same : forall c l xs, put c l xs l = xs.
Proof. intros. unfold put. rewrite Nat.eqb_refl. reflexivity. Qed.
Lemma put_other : forall c l xs k, k <> l -> put c l xs k = c k.
Proof. intros c l xs k H. unfold put. destruct (Nat.eqb_spec k l); [contradiction|reflexivity]. Qed.

(** An operation on the single list [l]: what has to be shown for the other lists. *)
Lemma Rep_one : forall s c l xs s', Rep s c ->
  seg (pr s') (nx s') None xs None -> fi s' l = hd_or xs None -> la s' l = last_or None xs ->
  NoDup xs ->
  (forall x, In x xs -> In x (c l) \/ nowhere c x) ->
  (forall k, k <> l -> fi s' k = fi s k /\ la s' k = la s k) ->
  (forall x, ~ In x (c l) -> ~ In x xs -> pr s' x = pr s x /\ nx s' x = nx s x) ->
  (forall x, In x (c l) -> ~ In x xs -> pr s' x = None /\ nx s' x = None) ->
  Rep s' (put c l xs).
Proof.
  intros s c l xs s' (R1 & R2 & R3 & R4 & R5 & R6) H1 H2 H3 H4 H5 H6 H7 H8.
  assert (Out : forall k x, k <> l -> In x (c k) -> ~ In x (c l) /\ ~ In x xs).
  { intros k x Hk Hx. split; [intros Hx'; apply Hk; eapply R5; eassumption|].
    intros Hx'. destruct (H5 x Hx') as [I|I]; [apply Hk; eapply R5; eassumption|].
    exact (I k Hx). }
  unfold Rep. repeat split.
  - intros k. destruct (Nat.eq_dec k l) as [->|NE].
    + rewrite put_same. exact H1.
    + rewrite put_other by exact NE. apply seg_ext with (P := pr s) (N := nx s); [|apply R1].
      intros x Hx. destruct (Out k x NE Hx) as [O1 O2]. apply H7; assumption.
  - intros k. destruct (Nat.eq_dec k l) as [->|NE].
    + rewrite put_same. exact H2.
    + rewrite put_other by exact NE. rewrite <- R2. apply (H6 k NE).
  - intros k. destruct (Nat.eq_dec k l) as [->|NE].
    + rewrite put_same. exact H3.
    + rewrite put_other by exact NE. rewrite <- R3. apply (H6 k NE).
  - intros k. destruct (Nat.eq_dec k l) as [->|NE].
    + rewrite put_same. exact H4.
    + rewrite put_other by exact NE. apply R4.
  - intros l1 l2 x I1 I2. destruct (Nat.eq_dec l1 l) as [->|N1]; destruct (Nat.eq_dec l2 l) as [->|N2].
    + reflexivity.
    + rewrite put_same in I1. rewrite put_other in I2 by exact N2.
      destruct (Out l2 x N2 I2) as [_ O]. contradiction.
    + rewrite put_same in I2. rewrite put_other in I1 by exact N1.
      destruct (Out l1 x N1 I1) as [_ O]. contradiction.
    + rewrite put_other in I1, I2 by assumption. eapply R5; eassumption.
  - destruct (in_dec Nat.eq_dec x (c l)) as [I|I].
    + apply H8; [exact I|]. intros I'. apply (H l). rewrite put_same. exact I'.
    + assert (I' : ~ In x xs) by (intros I'; apply (H l); rewrite put_same; exact I').
      destruct (H7 x I I') as [E1 _]. rewrite E1. apply R6. intros k Hk.
      destruct (Nat.eq_dec k l) as [->|NE]; [contradiction|]. apply (H k). rewrite put_other by exact NE. exact Hk.
  - destruct (in_dec Nat.eq_dec x (c l)) as [I|I].
    + apply H8; [exact I|]. intros I'. apply (H l). rewrite put_same. exact I'.
    + assert (I' : ~ In x xs) by (intros I'; apply (H l); rewrite put_same; exact I').
      destruct (H7 x I I') as [_ E2]. rewrite E2. apply R6. intros k Hk.
      destruct (Nat.eq_dec k l) as [->|NE]; [contradiction|]. apply (H k). rewrite put_other by exact NE. exact Hk.
Qed.

Lemma Rep_init : Rep dl_init (fun _ => []).
Proof. unfold Rep. repeat split; intros; cbn in *; try constructor; try contradiction. Qed.

(** ** Automation *)
Lemma NoDup_app_iff' : forall (a b : list nat),
  NoDup (a ++ b) <-> NoDup a /\ NoDup b /\ (forall x, In x a -> ~ In x b).
Proof.
  induction a as [|z a IH]; intros b; cbn [app].
  - split; [intros H; repeat split; [constructor|exact H|intros x []]|tauto].
  - rewrite !NoDup_cons_iff, IH, in_app_iff. split.
    + intros (H1 & H2 & H3 & H4). repeat split; try tauto. intros x [->|I]; [tauto|apply H4, I].
    + intros ((H1 & H2) & H3 & H4). repeat split; try assumption.
      * intros [I|I]; [exact (H1 I)|]. apply (H4 z); [left; reflexivity|exact I].
      * intros x I. apply H4. right. exact I.
Qed.

Ltac norm_nodup :=
  repeat (rewrite NoDup_app_iff' in * || rewrite NoDup_cons_iff in *);
  repeat match goal with H : _ /\ _ |- _ => destruct H end.

(** Membership goals over explicit sequences. *)
Ltac spec_all :=
  repeat match goal with
  | H : forall x, In x _ -> ~ _, y : nat |- _ =>
      let T := type of (H y) in
      lazymatch goal with
      | _ : T |- _ => fail
      | _ => pose proof (H y)
      end
  end;
  repeat match goal with H : forall x, In x _ -> ~ _ |- _ => clear H end.

Ltac neq_sym :=
  repeat match goal with
  | H : ?x <> ?y |- _ => lazymatch goal with _ : y <> x |- _ => fail | _ => pose proof (not_eq_sym H) end
  end.

Ltac mem1 := subst; spec_all; rewrite ?in_app_iff in *; cbn [In app] in *; subst; neq_sym; tauto.
Ltac mem2 :=
  intros; try match goal with |- ~ _ => intro end; rewrite ?in_app_iff in *; cbn [In app] in *;
  repeat match goal with H : _ \/ _ |- _ => destruct H | H : False |- _ => destruct H end;
  mem1.
Ltac mem := first [mem1 | mem2].

Ltac cases_upd :=
  unfold upd; repeat match goal with
  | |- context [?x =? ?y] => destruct (Nat.eqb_spec x y); subst
  end.

Ltac pointwise := cases_upd; try reflexivity; try congruence; try tauto; try solve [exfalso; mem]; try solve [mem].

(** Split a segment goal into its pieces; unchanged pieces are framed. *)
Ltac segs :=
  repeat (rewrite seg_app || rewrite last_or_app || rewrite hd_or_app);
  cbn [seg hd_or last_or app];
  repeat match goal with |- _ /\ _ => split end;
  try solve [pointwise];
  try exact I;
  try solve [eapply seg_ext; [|eassumption]; intros; split; pointwise].

Ltac nodups :=
  repeat (rewrite NoDup_app_iff' || rewrite NoDup_cons_iff);
  repeat match goal with |- _ /\ _ => split end;
  try assumption; try solve [constructor]; intros; try solve [mem]; intro; try solve [mem].

Ltac rep_one R E :=
  eapply Rep_one; [exact R|..]; rewrite ?E; cbn [pr nx fi la set_pr set_nx set_fi set_la];
  rewrite ?hd_or_app, ?last_or_app, ?app_nil_r in *; cbn [hd_or last_or app] in *;
  try solve [intros; split; pointwise]; try solve [intros; pointwise];
  try solve [segs]; try solve [nodups];
  try solve [let I := fresh in intros ? I; rewrite ?in_app_iff in *; cbn [In] in *;
             decompose [or] I; subst; tauto].

Lemma Remove_ok : forall s c l e xs ys, Rep s c -> c l = xs ++ e :: ys ->
  Rep (Remove s l e) (put c l (xs ++ ys)).
Proof.
  intros s c l e xs ys R E. assert (R' := R). destruct R' as (R1 & R2 & R3 & R4 & _ & _).
  specialize (R1 l). specialize (R2 l). specialize (R3 l). specialize (R4 l).
  rewrite E in R1, R2, R3, R4. apply seg_app in R1. destruct R1 as [S1 S2].
  cbn [seg hd_or] in S2. destruct S2 as (Pe & Ne & S2). cbn [hd_or] in S1.
  rewrite hd_or_app in R2. cbn [hd_or] in R2. rewrite last_or_app in R3. cbn [last_or] in R3.
  unfold Remove. cbn [pr nx fi la set_pr set_nx set_fi set_la]. rewrite Pe, Ne.
  destruct (last_or None xs) as [t|] eqn:L;
  [destruct (last_or_some xs t L) as [xs' ->]; apply seg_app in S1; destruct S1 as [S1 S1'];
   cbn [seg hd_or] in S1, S1'; destruct S1' as (Pt & Nt & _)|apply last_or_none in L; subst xs];
  (destruct ys as [|y ys];
   [|cbn [seg hd_or] in S2; destruct S2 as (Py & Ny & S2)]);
  cbn [hd_or pr nx fi la set_pr set_nx set_fi set_la];
  try (rewrite R2; cbn [ptr_eqb hd_or]; rewrite Nat.eqb_refl; cbn [negb]);
  cbn [hd_or pr nx fi la set_pr set_nx set_fi set_la];
  try (rewrite R3; cbn [ptr_eqb last_or]; rewrite Nat.eqb_refl; cbn [negb]).
  all: rewrite ?last_or_app in *; cbn [last_or app] in *; norm_nodup.
  all: rep_one R E.
Qed.

(** [Rep] does not distinguish memories that agree everywhere. *)
Lemma Rep_ext : forall s s' c, (forall x, pr s' x = pr s x) -> (forall x, nx s' x = nx s x) ->
  (forall l, fi s' l = fi s l) -> (forall l, la s' l = la s l) -> Rep s c -> Rep s' c.
Proof.
  intros s s' c H1 H2 H3 H4 (R1 & R2 & R3 & R4 & R5 & R6). unfold Rep. repeat split; intros.
  - eapply seg_ext; [|apply R1]. intros; split; auto.
  - rewrite H3. apply R2.
  - rewrite H4. apply R3.
  - apply R4.
  - eapply R5; eassumption.
  - rewrite H1. apply R6. assumption.
  - rewrite H2. apply R6. assumption.
Qed.

Lemma Rep_cext : forall s c c', (forall l, c' l = c l) -> Rep s c -> Rep s c'.
Proof.
  intros s c c' H (R1 & R2 & R3 & R4 & R5 & R6). unfold Rep. repeat split; intros; rewrite ?H in *; auto.
  - eapply R5; eassumption.
  - apply R6. intros l I. apply (H0 l). rewrite H. exact I.
  - apply R6. intros l I. apply (H0 l). rewrite H. exact I.
Qed.

Lemma PopBack_ok : forall s c l xs e, Rep s c -> c l = xs ++ [e] ->
  snd (PopBack s l) = Some e /\ Rep (fst (PopBack s l)) (put c l xs).
Proof.
  intros s c l xs e R E. assert (R' := R). destruct R' as (R1 & R2 & R3 & R4 & _ & _).
  specialize (R1 l). specialize (R2 l). specialize (R3 l). specialize (R4 l).
  rewrite E in R1, R2, R3, R4. apply seg_app in R1. destruct R1 as [S1 S2].
  cbn [seg hd_or] in S2, S1. destruct S2 as (Pe & Ne & _).
  rewrite hd_or_app in R2. cbn [hd_or] in R2. rewrite last_or_app in R3. cbn [last_or] in R3.
  unfold PopBack. rewrite R3. split; [reflexivity|]. cbn [fst].
  cbn [pr nx fi la set_pr set_nx set_fi set_la]. rewrite upd_same, Pe.
  destruct (last_or None xs) as [t|] eqn:L;
  [destruct (last_or_some xs t L) as [xs' ->]; apply seg_app in S1; destruct S1 as [S1 S1'];
   cbn [seg hd_or] in S1, S1'; destruct S1' as (Pt & Nt & _)|apply last_or_none in L; subst xs].
  all: rewrite ?last_or_app in *; cbn [last_or app] in *; norm_nodup.
  all: rep_one R E.
Qed.

Lemma PopFront_ok : forall s c l xs e, Rep s c -> c l = e :: xs ->
  snd (PopFront s l) = Some e /\ Rep (fst (PopFront s l)) (put c l xs).
Proof.
  intros s c l xs e R E. assert (R' := R). destruct R' as (R1 & R2 & R3 & R4 & _ & _).
  specialize (R1 l). specialize (R2 l). specialize (R3 l). specialize (R4 l).
  rewrite E in R1, R2, R3, R4. cbn [seg hd_or last_or] in *. destruct R1 as (Pe & Ne & S2).
  unfold PopFront. rewrite R2. split; [reflexivity|]. cbn [fst].
  cbn [pr nx fi la set_pr set_nx set_fi set_la]. rewrite upd_same, Ne.
  destruct xs as [|y ys]; [|cbn [seg hd_or last_or] in *; destruct S2 as (Py & Ny & S2)].
  all: cbn [hd_or last_or] in *; norm_nodup.
  all: rep_one R E.
Qed.

