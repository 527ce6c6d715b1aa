(** Lemmas about the copy-on-write Array model. *)
From Coq Require Import Arith ZArith Lia Bool List.
From Verif Require Import MoveModel MoveThms CowModel.
Import ListNotations.

Section Proofs.
  Variable V : Type.
  Variable dflt : V.
  Variable moved : V -> V.
  Variable trivial : bool.
  Variable qs : list V -> list V.

  Notation st := (st V).
  Notation blk := (blk V).
  Notation mkst := (mkst V).
  Notation mkblk := (mkblk V).
  Notation hp := (hp V).
  Notation nx := (nx V).
  Notation ar := (ar V).
  Notation iref := (iref V).
  Notation cap := (cap V).
  Notation data := (data V).
  Notation GetLockedCount := (GetLockedCount V).

  (** How many of the handles below [n] refer to [a]. *)
  Fixpoint cnt (f : nat -> option nat) (a n : nat) : nat :=
    match n with
    | O => 0
    | S n' => cnt f a n' + match f n' with Some b => if b =? a then 1 else 0 | None => 0 end
    end.
  Definition at_ (f : nat -> option nat) (a i : nat) : nat :=
    match f i with Some b => if b =? a then 1 else 0 | None => 0 end.

  Lemma cnt_upd : forall f i x a n, i < n ->
    cnt (upd f i x) a n + at_ f a i = cnt f a n + match x with Some b => if b =? a then 1 else 0 | None => 0 end.
  Proof.
    intros f i x a n. induction n as [|n IH]; intros L; [lia|]. cbn [cnt].
    destruct (Nat.eq_dec i n) as [->|NE].
    - assert (E : cnt (upd f n x) a n = cnt f a n).
      { clear IH L. enough (H : forall k, k <= n -> cnt (upd f n x) a k = cnt f a k) by auto.
        induction k as [|k IH]; intros K; [reflexivity|]. cbn [cnt]. rewrite IH by lia.
        unfold upd at 1. destruct (Nat.eqb_spec k n); [lia|reflexivity]. }
      rewrite E. unfold upd at 1. rewrite Nat.eqb_refl. unfold at_. lia.
    - specialize (IH ltac:(lia)). unfold upd at 2. destruct (Nat.eqb_spec n i); [lia|]. unfold upd, at_ in *. lia.
  Qed.
  Lemma cnt_more : forall f a n m, n <= m -> (forall i, n <= i -> f i = None) -> cnt f a m = cnt f a n.
  Proof.
    intros f a n m L H. induction m as [|m IH]; [replace n with 0 by lia; reflexivity|].
    destruct (Nat.eq_dec n (S m)) as [->|]; [reflexivity|]. cbn [cnt]. rewrite IH by lia. rewrite H by lia. lia.
  Qed.
  Lemma cnt_in : forall f a n i, i < n -> f i = Some a -> 1 <= cnt f a n.
  Proof.
    intros f a n i. induction n as [|n IH]; intros L H; [lia|]. cbn [cnt].
    destruct (Nat.eq_dec i n) as [->|]; [rewrite H, Nat.eqb_refl; lia|]. specialize (IH ltac:(lia) H). lia.
  Qed.
  Lemma cnt_two : forall f a n i j, i < n -> j < n -> i <> j -> f i = Some a -> f j = Some a -> 2 <= cnt f a n.
  Proof.
    intros f a n i j. induction n as [|n IH]; intros Li Lj NE Hi Hj; [lia|]. cbn [cnt].
    destruct (Nat.eq_dec i n) as [->|]; [|destruct (Nat.eq_dec j n) as [->|]].
    - rewrite Hi, Nat.eqb_refl. pose proof (cnt_in f a n j ltac:(lia) Hj). lia.
    - rewrite Hj, Nat.eqb_refl. pose proof (cnt_in f a n i ltac:(lia) Hi). lia.
    - specialize (IH ltac:(lia) ltac:(lia) NE Hi Hj). lia.
  Qed.
  Lemma cnt_pos : forall f a n, 1 <= cnt f a n -> exists i, i < n /\ f i = Some a.
  Proof.
    intros f a n. induction n as [|n IH]; cbn [cnt]; intros L; [lia|].
    destruct (f n) as [b|] eqn:E; [destruct (Nat.eqb_spec b a) as [->|]; [exists n; auto with arith|]|];
      destruct IH as (i & Hi & Fi); try lia; exists i; split; auto with arith.
  Qed.

  Definition occ (ex : list nat) (a : nat) : nat := count_occ Nat.eq_dec ex a.
  Lemma occ_cons : forall x ex a, occ (x :: ex) a = (if x =? a then 1 else 0) + occ ex a.
  Proof. intros. unfold occ. cbn. destruct (Nat.eq_dec x a) as [E|E]; destruct (Nat.eqb_spec x a); try contradiction; reflexivity. Qed.

  (** References to [a]: handles and pointers in flight. *)
  Definition total (s : st) (N : nat) (ex : list nat) (a : nat) : nat := cnt (ar s) a N + occ ex a.

  Definition blk_ok (b : blk) (t : nat) : Prop :=
    length (data b) <= cap b /\ ((0 < iref b)%Z /\ iref b = Z.of_nat t \/ (iref b < 0)%Z /\ t = 1).

  Record Inv (s : st) (N : nat) (ex : list nat) : Prop := {
    inv_nx : 1 <= nx s;
    inv_fresh : forall a, nx s <= a -> hp s a = None;
    inv_h : forall i, N <= i -> ar s i = None;
    inv_b : forall a, a <> 0 -> match hp s a with Some b => blk_ok b (total s N ex a) | None => total s N ex a = 0 end
  }.

  Definition val (s : st) (a : nat) : option (list V * nat) :=
    if a =? 0 then Some ([], 0)
    else match hp s a with Some b => Some (data b, GetLockedCount b) | None => None end.

  Definition lockn (r : Z) : nat := if (0 <=? r)%Z then 0 else Z.to_nat (- r).
  Lemma locked_lockn : forall b, GetLockedCount b = lockn (iref b).
  Proof. reflexivity. Qed.

  (** Contents survive, except in freed blocks. *)
  Definition Keep (s s' : st) : Prop :=
    nx s <= nx s' /\ forall a, a < nx s -> (a <> 0 /\ hp s' a = None) \/ val s' a = val s a.

  Lemma Keep_refl : forall s, Keep s s.
  Proof. intros s. split; auto. Qed.
  Lemma Keep_trans : forall a b c, Keep a b -> Keep b c -> Keep a c.
  Proof.
    intros a b c [N1 K1] [N2 K2]. split; [lia|]. intros x L.
    destruct (K2 x ltac:(lia)) as [?|E2]; [auto|]. destruct (K1 x L) as [[Z H]|E1].
    - left. split; [assumption|]. unfold val in E2. destruct (Nat.eqb_spec x 0); [contradiction|].
      rewrite H in E2. destruct (hp c x); [discriminate|reflexivity].
    - right. congruence.
  Qed.

  Lemma total_cons : forall s N x ex a, total s N (x :: ex) a = (if x =? a then 1 else 0) + total s N ex a.
  Proof. intros. unfold total. rewrite occ_cons. lia. Qed.

  Lemma inv_lt : forall s N i a, (forall i, N <= i -> ar s i = None) -> ar s i = Some a -> i < N.
  Proof. intros s N i a H E. destruct (Nat.lt_ge_cases i N); [assumption|]. rewrite H in E by assumption. discriminate. Qed.

  Lemma live : forall s N ex a, Inv s N ex -> a <> 0 -> 1 <= total s N ex a -> exists b, hp s a = Some b /\ blk_ok b (total s N ex a).
  Proof.
    intros s N ex a I NZ T. pose proof (inv_b _ _ _ I a NZ) as H. destruct (hp s a) as [b|]; [eauto|lia].
  Qed.
  Lemma live_lt : forall s N ex a b, Inv s N ex -> hp s a = Some b -> a < nx s.
  Proof. intros s N ex a b I H. destruct (Nat.lt_ge_cases a (nx s)); [assumption|]. rewrite (inv_fresh _ _ _ I) in H by assumption. discriminate. Qed.
  Lemma handle_total : forall s N ex i a, Inv s N ex -> ar s i = Some a -> 1 <= total s N ex a.
  Proof.
    intros s N ex i a I H. unfold total. pose proof (cnt_in (ar s) a N i (inv_lt _ _ _ _ (inv_h _ _ _ I) H) H). lia.
  Qed.

  (** ** Allocation *)
  Lemma align16_ge : forall n, n <= align16 n.
  Proof.
    intros n. unfold align16. pose proof (Nat.div_mod (n + 15) 16 ltac:(lia)).
    pose proof (Nat.mod_upper_bound (n + 15) 16 ltac:(lia)). lia.
  Qed.
  Lemma align16_0 : forall n, align16 n = 0 -> n = 0.
  Proof. intros n H. pose proof (align16_ge n). lia. Qed.

  Definition alloc_st (s : st) (b : blk) : st := mkst (upd (hp s) (nx s) (Some b)) (S (nx s)) (ar s).

  Lemma Alloc_spec : forall oom n s,
    (n = 0 /\ Alloc V oom n s = Ret s (Some 0)) \/
    (n <> 0 /\ oom = true /\ Alloc V oom n s = Ret s None) \/
    (n <> 0 /\ oom = false /\ Alloc V oom n s = Ret (alloc_st s (mkblk 1 (align16 n) [])) (Some (nx s))).
  Proof.
    intros oom n s. unfold Alloc. destruct (Nat.eqb_spec (align16 n) 0) as [E|E].
    - apply align16_0 in E. auto.
    - assert (n <> 0) by (intros ->; apply E; reflexivity). destruct oom; auto 6.
  Qed.

  Lemma Inv_alloc : forall s N ex b, Inv s N ex -> (iref b = 1 \/ iref b < 0)%Z -> length (data b) <= cap b ->
    Inv (alloc_st s b) N (nx s :: ex).
  Proof.
    intros s N ex b I R L. pose proof (inv_fresh _ _ _ I (nx s) (le_n _)) as F. pose proof (inv_nx _ _ _ I).
    pose proof (inv_b _ _ _ I (nx s) ltac:(lia)) as T. rewrite F in T.
    constructor; cbn; [lia| |apply (inv_h _ _ _ I)|].
    - intros a La. unfold upd. destruct (Nat.eqb_spec a (nx s)); [lia|]. apply (inv_fresh _ _ _ I). lia.
    - intros a NZ. rewrite total_cons. unfold upd. change (total (alloc_st s b) N ex a) with (total s N ex a).
      destruct (Nat.eqb_spec a (nx s)) as [->|NE].
      + rewrite Nat.eqb_refl, T. split; [assumption|]. lia.
      + destruct (Nat.eqb_spec (nx s) a); [lia|]. apply (inv_b _ _ _ I a NZ).
  Qed.
  Lemma Keep_alloc : forall s b, Keep s (alloc_st s b).
  Proof.
    intros s b. split; cbn; [lia|]. intros a L. right. unfold val. destruct (a =? 0); [reflexivity|].
    cbn. unfold upd. destruct (Nat.eqb_spec a (nx s)); [lia|reflexivity].
  Qed.

  (** ** Replacing a block in place *)
  Definition set_st (s : st) (a : nat) (b : blk) : st := mkst (upd (hp s) a (Some b)) (nx s) (ar s).

  Lemma Inv_set : forall s N ex a b b', Inv s N ex -> a <> 0 -> hp s a = Some b -> blk_ok b' (total s N ex a) ->
    Inv (set_st s a b') N ex.
  Proof.
    intros s N ex a b b' I NZ H R. pose proof (live_lt _ _ _ _ _ I H).
    constructor; cbn; [apply (inv_nx _ _ _ I)| |apply (inv_h _ _ _ I)|].
    - intros x L. unfold upd. destruct (Nat.eqb_spec x a); [lia|]. apply (inv_fresh _ _ _ I); assumption.
    - intros x NZx. unfold upd. change (total (set_st s a b') N ex x) with (total s N ex x).
      destruct (Nat.eqb_spec x a) as [->|]; [assumption|]. apply (inv_b _ _ _ I x NZx).
  Qed.
  Lemma val_set_other : forall s a b x, x <> a -> val (set_st s a b) x = val s x.
  Proof. intros s a b x NE. unfold val. cbn. unfold upd. destruct (Nat.eqb_spec x a); [lia|reflexivity]. Qed.
  Lemma val_set_same : forall s a b, a <> 0 -> val (set_st s a b) a = Some (data b, lockn (iref b)).
  Proof. intros s a b NZ. unfold val. cbn. unfold upd. rewrite Nat.eqb_refl. destruct (Nat.eqb_spec a 0); [lia|reflexivity]. Qed.

  (** ** Release of one reference in flight *)
  Lemma Release_spec : forall s N ex a, Inv s N (a :: ex) -> exists s',
    Release V a s = Ret s' tt /\ Inv s' N ex /\ ar s' = ar s /\ nx s' = nx s /\ Keep s s' /\
    (forall x, x <> a -> hp s' x = hp s x).
  Proof.
    intros s N ex a I. unfold Release, IsReadOnly. destruct (Nat.eqb_spec a 0) as [->|NZ].
    { exists s. repeat split; auto using Keep_refl; try apply I.
      intros x NZ. pose proof (inv_b _ _ _ I x NZ) as H. rewrite total_cons in H. destruct (Nat.eqb_spec 0 x); [lia|]. exact H. }
    assert (T : total s N (a :: ex) a = S (total s N ex a)) by (rewrite total_cons, Nat.eqb_refl; reflexivity).
    destruct (live _ _ _ a I NZ ltac:(lia)) as (b & Hb & Lb & R). rewrite T in R.
    unfold bind, load, store, Free, IsReadOnly, ret. destruct (Nat.eqb_spec a 0); [contradiction|]. rewrite Hb.
    destruct (Z.ltb_spec 0 (iref b)) as [P|P].
    - destruct R as [[_ R]|[R _]]; [|lia]. rewrite Hb. fold (set_st s a (mkblk (iref b - 1) (cap b) (data b))).
      destruct (Z.eqb_spec (iref b - 1) 0) as [E|E].
      + cbn [CowModel.hp set_st]. unfold upd at 1. rewrite Nat.eqb_refl. eexists; split; [reflexivity|].
        cbn. repeat split; cbn; auto; try apply I.
        * intros x L. unfold upd. destruct (Nat.eqb_spec x a); [reflexivity|]. apply (inv_fresh _ _ _ I); assumption.
        * intros x NZx. pose proof (inv_b _ _ _ I x NZx) as H. rewrite total_cons in H.
          unfold upd. change (total (mkst _ (nx s) (ar s)) N ex x) with (total s N ex x).
          destruct (Nat.eqb_spec x a) as [->|]; [lia|]. destruct (Nat.eqb_spec a x); [lia|exact H].
        * intros x L. unfold val. cbn. unfold upd. destruct (Nat.eqb_spec x a) as [->|]; auto.
        * intros x NE. unfold upd. destruct (Nat.eqb_spec x a); [contradiction|reflexivity].
      + eexists; split; [reflexivity|]. repeat split; cbn; auto; try apply I.
        * intros x L. unfold upd. destruct (Nat.eqb_spec x a) as [->|]; [rewrite (inv_fresh _ _ _ I) in Hb by assumption; discriminate|]. apply (inv_fresh _ _ _ I); assumption.
        * intros x NZx. pose proof (inv_b _ _ _ I x NZx) as H. rewrite total_cons in H.
          unfold upd. change (total (set_st s a _) N ex x) with (total s N ex x).
          destruct (Nat.eqb_spec x a) as [->|]; [split; cbn; [assumption|lia]|]. destruct (Nat.eqb_spec a x); [lia|exact H].
        * intros x L. right. destruct (Nat.eq_dec x a) as [->|]; [|apply val_set_other; assumption].
          rewrite val_set_same by assumption. unfold val. destruct (Nat.eqb_spec a 0); [contradiction|]. rewrite Hb. rewrite locked_lockn. cbn.
          unfold lockn. destruct (Z.leb_spec 0 (iref b - 1)); destruct (Z.leb_spec 0 (iref b)); try lia; reflexivity.
        * intros x NE. unfold upd. destruct (Nat.eqb_spec x a); [contradiction|reflexivity].
    - destruct R as [[R _]|[_ R]]; [lia|]. rewrite Hb. eexists; split; [reflexivity|].
      repeat split; cbn; auto; try apply I.
      + intros x L. unfold upd. destruct (Nat.eqb_spec x a); [reflexivity|]. apply (inv_fresh _ _ _ I); assumption.
      + intros x NZx. pose proof (inv_b _ _ _ I x NZx) as H. rewrite total_cons in H.
        unfold upd. change (total (mkst _ (nx s) (ar s)) N ex x) with (total s N ex x).
        destruct (Nat.eqb_spec x a) as [->|]; [lia|]. destruct (Nat.eqb_spec a x); [lia|exact H].
      + intros x L. unfold val. cbn. unfold upd. destruct (Nat.eqb_spec x a) as [->|]; auto.
      + intros x NE. unfold upd. destruct (Nat.eqb_spec x a); [contradiction|reflexivity].
  Qed.

  (** ** Making a handle refer to another block *)
  Definition point_st (s : st) (i : nat) (x : option nat) : st := mkst (hp s) (nx s) (upd (ar s) i x).

  Lemma point_ok : forall s i a c, ar s i = Some a -> point V i c s = Ret (point_st s i (Some c)) tt.
  Proof. intros s i a c H. unfold point. rewrite H. reflexivity. Qed.

  Lemma Inv_point : forall s N ex i a c, Inv s N (c :: ex) -> ar s i = Some a -> Inv (point_st s i (Some c)) N (a :: ex).
  Proof.
    intros s N ex i a c I H. pose proof (inv_lt _ _ _ _ (inv_h _ _ _ I) H) as L.
    constructor; cbn; try apply I.
    - intros k Lk. unfold upd. destruct (Nat.eqb_spec k i); [lia|]. apply (inv_h _ _ _ I); assumption.
    - intros x NZ. pose proof (inv_b _ _ _ I x NZ) as B.
      replace (total (point_st s i (Some c)) N (a :: ex) x) with (total s N (c :: ex) x); [exact B|].
      rewrite !total_cons. unfold total. cbn. pose proof (cnt_upd (ar s) i (Some c) x N L) as C.
      unfold at_ in C. rewrite H in C. lia.
  Qed.
  Lemma Inv_ex0 : forall s N ex, Inv s N ex -> Inv s N (0 :: ex).
  Proof.
    intros s N ex I. constructor; try apply I. intros x NZ. pose proof (inv_b _ _ _ I x NZ) as B.
    rewrite total_cons. destruct (Nat.eqb_spec 0 x); [lia|exact B].
  Qed.
  Lemma Inv_unex0 : forall s N ex, Inv s N (0 :: ex) -> Inv s N ex.
  Proof.
    intros s N ex I. constructor; try apply I. intros x NZ. pose proof (inv_b _ _ _ I x NZ) as B.
    rewrite total_cons in B. destruct (Nat.eqb_spec 0 x); [lia|exact B].
  Qed.
  Lemma Inv_new : forall s N ex i, Inv s N ex -> ar s i = None -> Inv (point_st s i (Some 0)) (Nat.max N (S i)) ex.
  Proof.
    intros s N ex i I H. constructor; cbn; try apply I.
    - intros k L. unfold upd. destruct (Nat.eqb_spec k i); [lia|]. apply (inv_h _ _ _ I). lia.
    - intros x NZ. pose proof (inv_b _ _ _ I x NZ) as B.
      replace (total (point_st s i (Some 0)) (Nat.max N (S i)) ex x) with (total s N ex x); [exact B|].
      unfold total. cbn. pose proof (cnt_upd (ar s) i (Some 0) x (Nat.max N (S i)) ltac:(lia)) as C.
      unfold at_ in C. rewrite H in C. rewrite (cnt_more (ar s) x N (Nat.max N (S i))) in C by (try lia; apply (inv_h _ _ _ I)).
      destruct (Nat.eqb_spec 0 x); [lia|]. lia.
  Qed.
  Lemma Inv_del : forall s N ex i a, Inv s N ex -> ar s i = Some a -> Inv (point_st s i None) N (a :: ex).
  Proof.
    intros s N ex i a I H. pose proof (inv_lt _ _ _ _ (inv_h _ _ _ I) H) as L. constructor; cbn; try apply I.
    - intros k Lk. unfold upd. destruct (Nat.eqb_spec k i); [reflexivity|]. apply (inv_h _ _ _ I). lia.
    - intros x NZ. pose proof (inv_b _ _ _ I x NZ) as B.
      replace (total (point_st s i None) N (a :: ex) x) with (total s N ex x); [exact B|].
      rewrite total_cons. unfold total. cbn. pose proof (cnt_upd (ar s) i None x N L) as C.
      unfold at_ in C. rewrite H in C. lia.
  Qed.
  Lemma Keep_point : forall s i x, Keep s (point_st s i x).
  Proof. intros s i x. split; [reflexivity|]. intros a L. right. reflexivity. Qed.

  (** ** AddRef *)
  Lemma AddRef_spec : forall s N ex a b, Inv s N ex -> a <> 0 -> hp s a = Some b -> (0 < iref b)%Z -> exists s',
    AddRef V a s = Ret s' tt /\ Inv s' N (a :: ex) /\ ar s' = ar s /\ nx s' = nx s /\ Keep s s' /\
    (forall x, val s' x = val s x) /\ hp s' a <> None.
  Proof.
    intros s N ex a b I NZ Hb P. unfold AddRef, IsReadOnly, bind, load, store.
    destruct (Nat.eqb_spec a 0); [contradiction|]. rewrite Hb. destruct (Z.ltb_spec (iref b) 1); [lia|]. rewrite Hb.
    fold (set_st s a (mkblk (iref b + 1) (cap b) (data b))).
    assert (E : forall x, val (set_st s a (mkblk (iref b + 1) (cap b) (data b))) x = val s x).
    { intros x. destruct (Nat.eq_dec x a) as [->|]; [|apply val_set_other; assumption].
      rewrite val_set_same by assumption. unfold val. destruct (Nat.eqb_spec a 0); [contradiction|]. rewrite Hb, locked_lockn. cbn.
      unfold lockn. destruct (Z.leb_spec 0 (iref b + 1)); destruct (Z.leb_spec 0 (iref b)); try lia; reflexivity. }
    eexists; split; [reflexivity|]. split; [|split; [reflexivity|split; [reflexivity|split]]].
    - constructor; cbn; try apply I.
      + intros x L. unfold upd. destruct (Nat.eqb_spec x a) as [->|]; [rewrite (inv_fresh _ _ _ I) in Hb by assumption; discriminate|]. apply (inv_fresh _ _ _ I); assumption.
      + intros x NZx. pose proof (inv_b _ _ _ I x NZx) as B. rewrite total_cons. unfold upd.
        change (total (set_st s a _) N ex x) with (total s N ex x).
        destruct (Nat.eqb_spec x a) as [->|].
        * rewrite Nat.eqb_refl. rewrite Hb in B. destruct B as [Lb R]. split; cbn; [assumption|lia].
        * destruct (Nat.eqb_spec a x); [lia|exact B].
    - split; [reflexivity|]. intros x _. right. apply E.
    - split; [assumption|]. cbn. unfold upd. rewrite Nat.eqb_refl. discriminate.
  Qed.

  (** ** Lock and Unlock of a block held once *)
  Lemma Lock_spec : forall s N a b, Inv s N [] -> a <> 0 -> hp s a = Some b -> (iref b <= 1)%Z ->
    let b' := mkblk (if (iref b =? 1)%Z then -1 else iref b - 1) (cap b) (data b) in
    Lock V a s = Ret (set_st s a b') tt /\ Inv (set_st s a b') N [] /\
    lockn (iref b') = S (lockn (iref b)).
  Proof.
    intros s N a b I NZ Hb P b'. pose proof (inv_b _ _ _ I a NZ) as B. rewrite Hb in B. destruct B as [Lb R].
    split; [|split].
    - unfold Lock, IsReadOnly, bind, load, store. destruct (Nat.eqb_spec a 0); [contradiction|]. rewrite Hb.
      destruct (Z.ltb_spec 1 (iref b)); [lia|]. destruct (Z.eqb_spec (iref b) 0); [lia|].
      subst b'. destruct (Z.eqb_spec (iref b) 1); rewrite Hb; reflexivity.
    - apply (Inv_set _ _ _ _ b); auto. subst b'. split; cbn; [assumption|]. destruct (Z.eqb_spec (iref b) 1); lia.
    - subst b'. cbn. unfold lockn. destruct (Z.eqb_spec (iref b) 1) as [->|]; [reflexivity|].
      destruct (Z.leb_spec 0 (iref b - 1)); destruct (Z.leb_spec 0 (iref b)); lia.
  Qed.
  Lemma Unlock_spec : forall s N a b, Inv s N [] -> a <> 0 -> hp s a = Some b -> (iref b < 0)%Z ->
    let b' := mkblk (if (iref b =? -1)%Z then 1 else iref b + 1) (cap b) (data b) in
    Unlock V a s = Ret (set_st s a b') tt /\ Inv (set_st s a b') N [] /\
    S (lockn (iref b')) = lockn (iref b).
  Proof.
    intros s N a b I NZ Hb P b'. pose proof (inv_b _ _ _ I a NZ) as B. rewrite Hb in B. destruct B as [Lb R].
    split; [|split].
    - unfold Unlock, IsReadOnly, bind, load, store. destruct (Nat.eqb_spec a 0); [contradiction|]. rewrite Hb.
      destruct (Z.ltb_spec 0 (iref b)); [lia|].
      subst b'. destruct (Z.eqb_spec (iref b) (-1)); rewrite Hb; reflexivity.
    - apply (Inv_set _ _ _ _ b); auto. subst b'. split; cbn; [assumption|]. destruct (Z.eqb_spec (iref b) (-1)); lia.
    - subst b'. cbn. unfold lockn. destruct (Z.eqb_spec (iref b) (-1)) as [->|]; [reflexivity|].
      destruct (Z.leb_spec 0 (iref b + 1)); destruct (Z.leb_spec 0 (iref b)); lia.
  Qed.
  Lemma SetData_spec : forall s N ex a b l, Inv s N ex -> a <> 0 -> hp s a = Some b -> length l <= cap b ->
    SetData V a l s = Ret (set_st s a (mkblk (iref b) (cap b) l)) tt /\ Inv (set_st s a (mkblk (iref b) (cap b) l)) N ex.
  Proof.
    intros s N ex a b l I NZ Hb L. split.
    - unfold SetData, IsReadOnly, bind, load, store. destruct (Nat.eqb_spec a 0); [contradiction|]. rewrite Hb.
      destruct (Nat.ltb_spec (cap b) (length l)); [lia|]. rewrite Hb. reflexivity.
    - apply (Inv_set _ _ _ _ b); auto. pose proof (inv_b _ _ _ I a NZ) as B. rewrite Hb in B. destruct B. split; cbn; assumption.
  Qed.

  (** ** Operations on one handle *)
  (** What an operation on handle [i] (which existed) leaves: the invariant, handle [i] on
      block [c] with contents and lock count [p], and everything the other handles see. *)
  Record Step (s : st) (N i : nat) (s' : st) (c : nat) (p : list V * nat) : Prop := {
    step_inv : Inv s' N [];
    step_i : ar s' i = Some c;
    step_v : val s' c = Some p;
    step_o : forall j, j <> i -> ar s' j = ar s j /\ (forall a, ar s j = Some a -> val s' a = val s a)
  }.

  Lemma Step_trans : forall s N i s1 c1 p1 s2 c2 p2, Step s N i s1 c1 p1 -> Step s1 N i s2 c2 p2 -> Step s N i s2 c2 p2.
  Proof.
    intros s N i s1 c1 p1 s2 c2 p2 A B. constructor; try apply B. intros j NE.
    destruct (step_o _ _ _ _ _ _ A j NE) as [E1 F1]. destruct (step_o _ _ _ _ _ _ B j NE) as [E2 F2].
    split; [congruence|]. intros a H. rewrite F2 by congruence. apply F1; assumption.
  Qed.
  Lemma Step_refl : forall s N i c p, Inv s N [] -> ar s i = Some c -> val s c = Some p -> Step s N i s c p.
  Proof. intros. constructor; auto. Qed.

  (** From the primitive facts to [Step]. *)
  Lemma Step_keep : forall s N i s' c p, Inv s N [] -> Inv s' N [] -> ar s' i = Some c -> val s' c = Some p ->
    Keep s s' -> (forall j, j <> i -> ar s' j = ar s j) -> Step s N i s' c p.
  Proof.
    intros s N i s' c p I I' A Vc [_ K] O. constructor; auto. intros j NE. split; [auto|]. intros a H.
    destruct (Nat.eq_dec a 0) as [->|NZ]; [reflexivity|].
    destruct (live _ _ _ a I NZ (handle_total _ _ _ _ _ I H)) as (b & Hb & _).
    rewrite <- (O j NE) in H.
    destruct (live _ _ _ a I' NZ (handle_total _ _ _ _ _ I' H)) as (b' & Hb' & _).
    destruct (K a (live_lt _ _ _ _ _ I Hb)) as [[_ X]|X]; [congruence|exact X].
  Qed.
  (** In place, by the only holder. *)
  Lemma Step_set : forall s N i a b b', Inv s N [] -> ar s i = Some a -> a <> 0 -> hp s a = Some b -> (iref b <= 1)%Z ->
    Inv (set_st s a b') N [] -> Step s N i (set_st s a b') a (data b', lockn (iref b')).
  Proof.
    intros s N i a b b' I A NZ Hb P I'. constructor; auto.
    - apply val_set_same; assumption.
    - intros j NE. split; [reflexivity|]. intros x Hx. apply val_set_other. intros ->.
      pose proof (cnt_two (ar s) a N i j (inv_lt _ _ _ _ (inv_h _ _ _ I) A) (inv_lt _ _ _ _ (inv_h _ _ _ I) Hx) ltac:(auto) A Hx) as C.
      pose proof (inv_b _ _ _ I a NZ) as B. rewrite Hb in B. destruct B as [_ B]. unfold total in B. lia.
  Qed.

  Lemma val_some : forall s a b, a <> 0 -> hp s a = Some b -> val s a = Some (data b, lockn (iref b)).
  Proof. intros s a b NZ H. unfold val. destruct (Nat.eqb_spec a 0); [contradiction|]. rewrite H. reflexivity. Qed.
  Lemma val_inv : forall s a p, a <> 0 -> val s a = Some p -> exists b, hp s a = Some b /\ p = (data b, lockn (iref b)).
  Proof.
    intros s a p NZ H. unfold val in H. destruct (Nat.eqb_spec a 0); [contradiction|]. destruct (hp s a) as [b|]; [|discriminate].
    injection H as <-. eauto.
  Qed.

  (** The block of a handle. *)
  Lemma handle_blk : forall s N i a, Inv s N [] -> ar s i = Some a ->
    (a = 0 /\ val s a = Some ([], 0)) \/
    (a <> 0 /\ exists b, hp s a = Some b /\ length (data b) <= cap b /\ (iref b <> 0)%Z /\ val s a = Some (data b, lockn (iref b))).
  Proof.
    intros s N i a I A. destruct (Nat.eq_dec a 0) as [->|NZ]; [left; auto|right].
    destruct (live _ _ _ a I NZ (handle_total _ _ _ _ _ I A)) as (b & Hb & Lb & R). split; [assumption|].
    exists b. repeat split; auto; [lia|]. apply val_some; assumption.
  Qed.

  (** Unlock by the holder. *)
  Lemma Unlock_step : forall s N i c l k, Inv s N [] -> ar s i = Some c -> c <> 0 -> val s c = Some (l, S k) ->
    exists s', Unlock V c s = Ret s' tt /\ Step s N i s' c (l, k).
  Proof.
    intros s N i c l k I A NZ Vc. destruct (val_inv _ _ _ NZ Vc) as (b & Hb & E). injection E as -> E.
    assert (P : (iref b < 0)%Z) by (unfold lockn in E; destruct (Z.leb_spec 0 (iref b)); lia).
    destruct (Unlock_spec s N c b I NZ Hb P) as (U & I' & Lk). eexists; split; [exact U|].
    replace k with (lockn (if (iref b =? -1)%Z then 1 else iref b + 1)) by (cbn in Lk; lia).
    apply (Step_set s N i c b (mkblk _ (cap b) (data b))); auto. lia.
  Qed.
  (** A write by a holder that has the block locked. *)
  Lemma SetData_step : forall s N i c l k l', Inv s N [] -> ar s i = Some c -> val s c = Some (l, k) -> (c <> 0 -> 1 <= k) ->
    (c = 0 -> l' = []) -> (forall b, c <> 0 -> hp s c = Some b -> length l' <= cap b) ->
    exists s', SetData V c l' s = Ret s' tt /\ Step s N i s' c (l', k) /\ (c = 0 -> s' = s) /\
      (forall b, hp s c = Some b -> c <> 0 -> hp s' c = Some (mkblk (iref b) (cap b) l')).
  Proof.
    intros s N i c l k l' I A Vc K Z C. destruct (Nat.eq_dec c 0) as [->|NZ].
    - rewrite (Z eq_refl). exists s. unfold val in Vc. cbn in Vc. injection Vc as <- <-.
      split; [reflexivity|]. split; [apply Step_refl; auto|]. split; [auto|]. intros; contradiction.
    - destruct (val_inv _ _ _ NZ Vc) as (b & Hb & E). injection E as -> ->. specialize (K NZ).
      destruct (SetData_spec s N [] c b l' I NZ Hb (C b NZ Hb)) as (S1 & I').
      eexists; split; [exact S1|]. split; [|split].
      + apply (Step_set s N i c b (mkblk (iref b) (cap b) l')); auto. unfold lockn in K. destruct (Z.leb_spec 0 (iref b)); lia.
      + intros; contradiction.
      + intros b0 H0 _. cbn. unfold upd. rewrite Nat.eqb_refl. congruence.
  Qed.

  (** The two ways to get a private, locked buffer, with one specification. *)
  Definition LockResult (s : st) (N i n : nat) (oom : bool) (l : list V) (lk : nat) (r : outcome st (option nat)) : Prop :=
    match r with
    | Ret s' None => s' = s /\ oom = true
    | Exn s' => s' = s /\ 1 <= lk
    | Ret s' (Some c) =>
        exists lk', Step s N i s' c (l, lk') /\
        (c = 0 -> n = 0 /\ l = [] /\ lk' = 0) /\
        (c <> 0 -> lk' = S lk /\ forall b, hp s' c = Some b -> n <= cap b) /\
        (1 <= lk -> ar s i = Some c)
    | UB => False
    end.

  Lemma lockn_shared : forall r, (1 < r)%Z -> lockn r = 0.
  Proof. intros r H. unfold lockn. destruct (Z.leb_spec 0 r); lia. Qed.

  (** After the block [c] was put in place: the final Lock. *)
  Lemma Lock_step : forall s N i c l k, Inv s N [] -> ar s i = Some c -> val s c = Some (l, k) ->
    (forall b, c <> 0 -> hp s c = Some b -> (iref b <= 1)%Z) ->
    exists s' k', Lock V c s = Ret s' tt /\ Step s N i s' c (l, k') /\ (c = 0 -> k' = 0) /\ (c <> 0 -> k' = S k) /\
      (forall b b', c <> 0 -> hp s c = Some b -> hp s' c = Some b' -> cap b' = cap b).
  Proof.
    intros s N i c l k I A Vc P. destruct (Nat.eq_dec c 0) as [->|NZ].
    - exists s, 0. unfold val in Vc. cbn in Vc. injection Vc as <- <-. split; [reflexivity|].
      split; [apply Step_refl; auto|]. repeat split; intros; try contradiction; auto.
    - destruct (val_inv _ _ _ NZ Vc) as (b & Hb & E). injection E as -> ->.
      destruct (Lock_spec s N c b I NZ Hb (P b NZ Hb)) as (U & I' & Lk).
      eexists; eexists; split; [exact U|]. split; [|split; [|split]].
      + apply (Step_set s N i c b (mkblk _ (cap b) (data b))); auto.
      + intros; contradiction.
      + intros _. exact Lk.
      + intros b1 b2 _ H1 H2. cbn in H2. unfold upd in H2. rewrite Nat.eqb_refl in H2. injection H2 as <-. cbn. congruence.
  Qed.

  (** A clone in flight. *)
  Lemma Clone_spec : forall s N oom a b n, Inv s N [] -> load V a s = Ret s b ->
    (Clone V oom a n s = Ret s None /\ oom = true) \/
    (n = 0 /\ data b = [] /\ Clone V oom a n s = Ret s (Some 0)) \/
    (exists s', Clone V oom a n s = Ret s' (Some (nx s)) /\ Inv s' N [nx s] /\ nx s <> 0 /\ Keep s s' /\ ar s' = ar s /\
       (forall x, x < nx s -> hp s' x = hp s x) /\
       exists c, n <= c /\ hp s' (nx s) = Some (mkblk 1 c (data b))).
  Proof.
    intros s N oom a b n I L. unfold Clone, bind. rewrite L.
    destruct (Alloc_spec oom (Nat.max n (length (data b))) s) as [[Z E]|[(NZ & O & E)|(NZ & O & E)]]; rewrite E.
    - right; left. assert (n = 0) by lia. assert (data b = []) as D by (destruct (data b); [reflexivity|cbn in Z; lia]).
      split; [assumption|]. split; [assumption|]. unfold SetData, bind, load. cbn. rewrite D. reflexivity.
    - left. split; [reflexivity|assumption].
    - right; right. set (s1 := alloc_st s (mkblk 1 (align16 (Nat.max n (length (data b)))) [])) in *.
      assert (I1 : Inv s1 N [nx s]) by (apply Inv_alloc; [assumption|left; reflexivity|cbn; lia]).
      assert (NZx : nx s <> 0) by (pose proof (inv_nx _ _ _ I); lia).
      assert (H1 : hp s1 (nx s) = Some (mkblk 1 (align16 (Nat.max n (length (data b)))) [])) by (cbn; unfold upd; rewrite Nat.eqb_refl; reflexivity).
      pose proof (align16_ge (Nat.max n (length (data b)))) as G.
      destruct (SetData_spec s1 N [nx s] (nx s) _ (data b) I1 NZx H1 ltac:(cbn [CowModel.cap]; lia)) as (S2 & I2). cbn [CowModel.cap CowModel.iref] in S2, I2.
      eexists. rewrite S2. split; [reflexivity|]. split; [exact I2|]. split; [assumption|]. split; [|split; [reflexivity|split]].
      + split; [cbn; lia|]. intros x Lx. right. unfold val. destruct (x =? 0); [reflexivity|].
        cbn. unfold upd. destruct (Nat.eqb_spec x (nx s)); [lia|reflexivity].
      + intros x Lx. cbn. unfold upd. destruct (Nat.eqb_spec x (nx s)); [lia|reflexivity].
      + exists (align16 (Nat.max n (length (data b)))). split; [lia|]. cbn [set_st CowModel.hp]. unfold upd. rewrite Nat.eqb_refl. reflexivity.
  Qed.

  (** Handle [i] takes over the block in flight and drops its old one. *)
  Lemma Swap : forall s N i a c, Inv s N [c] -> ar s i = Some a -> exists s',
    (forall (B : Type) (k : M V B), bind V (point V i c) (fun _ => bind V (Release V a) (fun _ => k)) s = k s') /\
    (forall (B : Type) (k : M V B), bind V (Release V a) (fun _ => bind V (point V i c) (fun _ => k)) s = k s') /\
    Inv s' N [] /\ ar s' i = Some c /\ (forall j, j <> i -> ar s' j = ar s j) /\ Keep s s' /\
    (forall x, x <> a -> hp s' x = hp s x) /\ nx s' = nx s.
  Proof.
    intros s N i a c I A. pose proof (Inv_point _ _ _ _ _ _ I A) as I1.
    destruct (Release_spec _ _ _ _ I1) as (s' & R & I' & A' & X' & K' & O').
    exists s'. split; [|split; [|split; [exact I'|split; [|split; [|split; [|split]]]]]].
    - intros B k. unfold bind. rewrite (point_ok _ _ _ _ A), R. reflexivity.
    - intros B k. assert (E : bind V (Release V a) (fun _ => point V i c) s = Ret s' tt).
      { revert R. clear - A. unfold Release, bind, load, store, Free, IsReadOnly, ret, point, point_st. destruct (a =? 0).
        - intros E. injection E as <-. rewrite A. reflexivity.
        - cbn [CowModel.hp]. destruct (hp s a) as [b|] eqn:Hb; [|discriminate].
          destruct (0 <? iref b)%Z; cbn [CowModel.hp CowModel.ar CowModel.nx]; rewrite ?Hb.
          + destruct (iref b - 1 =? 0)%Z; cbn [CowModel.hp CowModel.ar CowModel.nx].
            * destruct (upd (hp s) a _ a); [|discriminate]. cbn [CowModel.hp CowModel.ar CowModel.nx]. rewrite A. auto.
            * rewrite A. auto.
          + cbn [CowModel.hp CowModel.ar CowModel.nx]. rewrite A. auto. }
      unfold bind in *. destruct (Release V a s) as [s1 u|s1|]; try discriminate. rewrite E. reflexivity.
    - rewrite A'. cbn. unfold upd. rewrite Nat.eqb_refl. reflexivity.
    - intros j NE. rewrite A'. cbn. unfold upd. destruct (Nat.eqb_spec j i); [contradiction|reflexivity].
    - apply (Keep_trans _ (point_st s i (Some c))); [apply Keep_point|exact K'].
    - intros x NE. rewrite O' by assumption. reflexivity.
    - rewrite X'. reflexivity.
  Qed.

  Lemma load_ok : forall s N i a, Inv s N [] -> ar s i = Some a -> exists b, load V a s = Ret s b /\
    ((a = 0 /\ b = empty_blk V) \/ (a <> 0 /\ hp s a = Some b /\ length (data b) <= cap b /\ (iref b <> 0)%Z)) /\
    val s a = Some (data b, lockn (iref b)).
  Proof.
    intros s N i a I A. destruct (handle_blk _ _ _ _ I A) as [[-> Vc]|(NZ & b & Hb & Lb & R & Vc)].
    - exists (empty_blk V). split; [reflexivity|]. split; [left; auto|]. reflexivity.
    - exists b. unfold load. destruct (Nat.eqb_spec a 0) as [E|_]; [contradiction|]. rewrite Hb. auto 8.
  Qed.
  Lemma addr_ok : forall s i a, ar s i = Some a -> addr V i s = Ret s a.
  Proof. intros s i a A. unfold addr. rewrite A. reflexivity. Qed.

  Lemma shared_cases : forall (b : blk), IsShared V b = true -> (1 < iref b)%Z /\ IsLocked V b = false /\ lockn (iref b) = 0.
  Proof.
    intros b H. unfold IsShared in H. apply Z.ltb_lt in H. split; [assumption|]. split; [unfold IsLocked; apply Z.ltb_ge; lia|apply lockn_shared; assumption].
  Qed.
  Lemma unshared_nz : forall s a b, (a = 0 /\ b = empty_blk V) \/ (a <> 0 /\ hp s a = Some b /\ length (data b) <= cap b /\ (iref b <> 0)%Z) ->
    IsShared V b = false -> a <> 0 /\ hp s a = Some b /\ length (data b) <= cap b /\ (iref b <= 1)%Z.
  Proof.
    intros s a b [[-> ->]|(NZ & Hb & L & R)] S; [discriminate|]. unfold IsShared in S. apply Z.ltb_ge in S. auto.
  Qed.

  (** ReAlloc of a private block, followed by [pData = ...]. *)
  Definition free_st (s : st) (a : nat) : st := mkst (upd (hp s) a None) (nx s) (ar s).
  Lemma Inv_free : forall s N ex a, Inv s N (a :: ex) -> total s N ex a = 0 -> Inv (free_st s a) N ex.
  Proof.
    intros s N ex a I T. constructor; cbn; try apply I.
    - intros x L. unfold upd. destruct (Nat.eqb_spec x a); [reflexivity|]. apply (inv_fresh _ _ _ I); assumption.
    - intros x NZ. pose proof (inv_b _ _ _ I x NZ) as B. rewrite total_cons in B.
      unfold upd. change (total (free_st s a) N ex x) with (total s N ex x).
      destruct (Nat.eqb_spec x a) as [->|NE]; [assumption|]. destruct (Nat.eqb_spec a x); [lia|exact B].
  Qed.
  Lemma Keep_free : forall s a, a <> 0 -> Keep s (free_st s a).
  Proof.
    intros s a NZ. split; [reflexivity|]. intros x L. unfold val. cbn. unfold upd.
    destruct (Nat.eqb_spec x a) as [->|]; auto.
  Qed.

  Lemma ReAlloc_spec : forall s N i oom a b n, Inv s N [] -> ar s i = Some a -> a <> 0 -> hp s a = Some b -> (iref b <= 1)%Z ->
    cap b < n ->
    (ReAlloc V oom a n s = Exn s /\ 1 <= lockn (iref b)) \/
    (ReAlloc V oom a n s = Ret s None /\ oom = true) \/
    (exists s1 s', ReAlloc V oom a n s = Ret s1 (Some (nx s)) /\ point V i (nx s) s1 = Ret s' tt /\
       Step s N i s' (nx s) (data b, 0) /\ nx s <> 0 /\ lockn (iref b) = 0 /\
       exists c, n <= c /\ hp s' (nx s) = Some (mkblk 1 c (data b))).
  Proof.
    intros s N i oom a b n I A NZ Hb P C. pose proof (inv_b _ _ _ I a NZ) as B. rewrite Hb in B. destruct B as [Lb R].
    unfold ReAlloc, IsReadOnly, bind, load. destruct (Nat.eqb_spec a 0) as [E|_]; [contradiction|]. rewrite Hb.
    destruct (Nat.leb_spec n (cap b)); [lia|]. unfold IsLocked. destruct (Z.ltb_spec (iref b) 0) as [Ng|Ng].
    { left. split; [reflexivity|]. unfold lockn. destruct (Z.leb_spec 0 (iref b)); lia. }
    assert (E1 : iref b = 1%Z) by lia. destruct oom; [right; left; auto|right; right].
    set (b' := mkblk (iref b) (align16 n) (data b)). pose proof (align16_ge n) as G.
    assert (I1 : Inv (alloc_st s b') N [nx s]) by (apply Inv_alloc; auto; subst b'; cbn [CowModel.data CowModel.cap]; lia).
    assert (I2 : Inv (point_st (alloc_st s b') i (Some (nx s))) N [a]) by (apply (Inv_point _ _ _ _ a); assumption).
    assert (Ha : a < nx s) by (apply (live_lt _ _ _ _ _ I Hb)).
    assert (T0 : total (point_st (alloc_st s b') i (Some (nx s))) N [] a = 0).
    { pose proof (inv_b _ _ _ I2 a NZ) as B. rewrite total_cons, Nat.eqb_refl in B. revert B. cbn [CowModel.hp point_st alloc_st].
      unfold upd. destruct (Nat.eqb_spec a (nx s)) as [EE|_]; [lia|]. rewrite Hb. intros [_ B]. lia. }
    assert (I3 : Inv (free_st (point_st (alloc_st s b') i (Some (nx s))) a) N []) by (apply Inv_free; assumption).
    pose proof (inv_nx _ _ _ I) as NX. assert (NX0 : nx s <> 0) by lia.
    assert (H' : hp (free_st (point_st (alloc_st s b') i (Some (nx s))) a) (nx s) = Some b').
    { cbn [CowModel.hp free_st point_st alloc_st]. unfold upd. destruct (Nat.eqb_spec (nx s) a) as [EE|_]; [lia|]. rewrite Nat.eqb_refl. reflexivity. }
    eexists; exists (free_st (point_st (alloc_st s b') i (Some (nx s))) a). split; [reflexivity|].
    split; [unfold point; cbn [CowModel.ar]; rewrite A; reflexivity|]. split; [|split; [lia|split]].
    - apply Step_keep; auto.
      + cbn. unfold upd. rewrite Nat.eqb_refl. reflexivity.
      + rewrite (val_some _ _ _ NX0 H'). subst b'. cbn [CowModel.data CowModel.iref]. rewrite E1. reflexivity.
      + eapply Keep_trans; [apply (Keep_alloc s b')|]. eapply Keep_trans; [apply Keep_point|]. apply Keep_free; assumption.
      + intros j NE. cbn. unfold upd. destruct (Nat.eqb_spec j i); [contradiction|reflexivity].
    - rewrite E1. reflexivity.
    - exists (align16 n). split; [assumption|]. rewrite H'. subst b'. rewrite E1. reflexivity.
  Qed.

  (** The tail of both functions: the buffer is in place, now lock it. *)
  Lemma finish_lock : forall s N i s1 c n l lk, Step s N i s1 c (l, lk) -> (c = 0 -> n = 0) ->
    (forall b, c <> 0 -> hp s1 c = Some b -> (iref b <= 1)%Z /\ n <= cap b) -> (1 <= lk -> ar s i = Some c) ->
    forall oom, LockResult s N i n oom l lk (bind V (Lock V c) (fun _ => ret V (Some c)) s1).
  Proof.
    intros s N i s1 c n l lk ST Z0 P AD oom.
    destruct (Lock_step s1 N i c l lk (step_inv _ _ _ _ _ _ ST) (step_i _ _ _ _ _ _ ST) (step_v _ _ _ _ _ _ ST)
      ltac:(intros b NZ Hb; apply (P b NZ Hb))) as (s2 & k' & E & ST2 & K0 & KS & CP).
    unfold bind. rewrite E. unfold LockResult, ret. exists k'. split; [apply (Step_trans _ _ _ _ _ _ _ _ _ ST ST2)|]. split; [|split].
    - intros ->. split; [auto|]. split; [|auto]. pose proof (step_v _ _ _ _ _ _ ST) as Vc. unfold val in Vc. cbn in Vc. congruence.
    - intros NZ. split; [auto|]. intros b' H'. destruct (val_inv _ _ _ NZ (step_v _ _ _ _ _ _ ST)) as (b & Hb & _).
      rewrite (CP b b' NZ Hb H'). apply (P b NZ Hb).
    - assumption.
  Qed.

  Lemma Attach_eq : forall s i a c b (B : Type) (k : M V B), ar s i = Some a -> a <> c -> load V a s = Ret s b -> IsLocked V b = false ->
    bind V (Attach V i c) (fun _ => k) s = bind V (point V i c) (fun _ => bind V (Release V a) (fun _ => k)) s.
  Proof.
    intros s i a c b B k A NE L NL. unfold Attach, bind. rewrite (addr_ok _ _ _ A).
    destruct (Nat.eqb_spec a c) as [E|_]; [contradiction|]. rewrite L, NL.
    destruct (point V i c s) as [s3 u|s3|]; reflexivity.
  Qed.

  Lemma LockInternalData_spec : forall s N i a oom n l lk, Inv s N [] -> ar s i = Some a -> val s a = Some (l, lk) ->
    LockResult s N i n oom l lk (LockInternalData V oom i n s).
  Proof.
    intros s N i a oom n l lk I A Vc. destruct (load_ok _ _ _ _ I A) as (b & L & C & Vb).
    assert (l = data b /\ lk = lockn (iref b)) as [-> ->] by (split; congruence).
    unfold LockInternalData. unfold bind at 1. rewrite (addr_ok _ _ _ A). unfold bind at 1. rewrite L.
    destruct (IsShared V b) eqn:S.
    - destruct (shared_cases b S) as (R & NL & LK0). rewrite LK0. unfold bind at 1.
      destruct (Clone_spec s N oom a b n I L) as [[E O]|[(-> & D & E)|(s1 & E & I1 & NZ & K1 & A1 & O1 & c & Lc & Hc)]]; rewrite E.
      + split; [reflexivity|assumption].
      + (* the static block *)
        destruct (Nat.eq_dec a 0) as [->|NZ].
        * unfold Attach, bind. rewrite (addr_ok _ _ _ A). cbn [Nat.eqb ret Release IsReadOnly].
          change (LockResult s N i 0 oom (data b) 0 (bind V (Lock V 0) (fun _ => ret V (Some 0)) s)).
          apply finish_lock; [rewrite D; apply Step_refl; auto|auto|intros; contradiction|intros; lia].
        * destruct (Swap s N i a 0 (Inv_ex0 _ _ _ I) A) as (s2 & E2 & _ & I2 & Ai & Aj & K2 & _).
          rewrite (Attach_eq s i a 0 b) by assumption.
          rewrite E2. apply finish_lock; [|auto|intros; contradiction|intros; lia]. rewrite D.
          apply Step_keep; auto.
      + (* a fresh clone *)
        assert (An : a <> nx s).
        { destruct C as [[-> _]|(NZa & Ha & _)]; [auto|]. pose proof (live_lt _ _ _ _ _ I Ha). lia. }
        assert (L1 : load V a s1 = Ret s1 b).
        { revert L. unfold load. destruct (Nat.eqb_spec a 0); [intros X; injection X as <-; reflexivity|].
          destruct C as [[? _]|(_ & Ha & _)]; [contradiction|]. rewrite O1 by (apply (live_lt _ _ _ _ _ I Ha)). rewrite Ha. intros _. reflexivity. }
        destruct (Swap s1 N i a (nx s) I1 ltac:(rewrite A1; assumption)) as (s2 & E2 & _ & I2 & Ai & Aj & K2 & O2 & _).
        rewrite (Attach_eq s1 i a (nx s) b) by (try rewrite A1; assumption).
        rewrite E2. assert (H2 : hp s2 (nx s) = Some (mkblk 1 c (data b))) by (rewrite O2 by auto; assumption).
        apply finish_lock; [|intros; contradiction| |intros; lia].
        * apply Step_keep; auto.
          -- rewrite (val_some _ _ _ NZ H2). reflexivity.
          -- apply (Keep_trans _ s1); assumption.
          -- intros j NE. rewrite Aj by assumption. rewrite A1. reflexivity.
        * intros b1 _ Hb1. rewrite H2 in Hb1. injection Hb1 as <-. cbn. split; [lia|assumption].
    - destruct (unshared_nz _ _ _ C S) as (NZ & Hb & Lb & R). destruct (Nat.ltb_spec (cap b) n) as [Cn|Cn].
      + unfold bind at 1.
        destruct (ReAlloc_spec s N i oom a b n I A NZ Hb R Cn) as [[E X]|[[E O]|(s1 & s2 & E & E2 & ST & NZ2 & LK0 & c & Lc & Hc)]]; rewrite E.
        * split; [reflexivity|assumption].
        * split; [reflexivity|assumption].
        * unfold bind at 1. rewrite E2. rewrite LK0.
          apply finish_lock; [assumption|intros; contradiction| |intros; lia].
          intros b1 _ Hb1. rewrite Hc in Hb1. injection Hb1 as <-. cbn. split; [lia|assumption].
      + apply finish_lock; [apply Step_refl; auto|intros; contradiction| |auto].
        intros b1 _ Hb1. rewrite Hb in Hb1. injection Hb1 as <-. split; assumption.
  Qed.

  Lemma GetNewCapacity_ge : forall c n, c <= GetNewCapacity c n /\ n <= GetNewCapacity c n.
  Proof.
    intros c n. unfold GetNewCapacity. destruct (Nat.leb_spec n c); [lia|]. destruct (Nat.leb_spec n (c + c / 2)); lia.
  Qed.

  Lemma LockInternalDataIncrement_spec : forall s N i a oom k l lk, Inv s N [] -> ar s i = Some a -> val s a = Some (l, lk) ->
    LockResult s N i (length l + k) oom l lk (LockInternalDataIncrement V oom i k s).
  Proof.
    intros s N i a oom k l lk I A Vc. destruct (load_ok _ _ _ _ I A) as (b & L & C & Vb).
    assert (l = data b /\ lk = lockn (iref b)) as [-> ->] by (split; congruence).
    unfold LockInternalDataIncrement. unfold bind at 1. rewrite (addr_ok _ _ _ A). unfold bind at 1. rewrite L.
    destruct (IsShared V b) eqn:S.
    - destruct (shared_cases b S) as (R & NL & LK0). rewrite LK0. unfold bind at 1.
      destruct (Clone_spec s N oom a b (length (data b) + k) I L) as [[E O]|[(E0 & D & E)|(s1 & E & I1 & NZ & K1 & A1 & O1 & c & Lc & Hc)]]; rewrite E.
      + split; [reflexivity|assumption].
      + destruct (Swap s N i a 0 (Inv_ex0 _ _ _ I) A) as (s2 & _ & E2 & I2 & Ai & Aj & K2 & _).
        rewrite E2. apply finish_lock; [|auto|intros; contradiction|intros; lia]. rewrite D.
        apply Step_keep; auto.
      + destruct (Swap s1 N i a (nx s) I1 ltac:(rewrite A1; assumption)) as (s2 & _ & E2 & I2 & Ai & Aj & K2 & O2 & _).
        assert (An : a <> nx s).
        { destruct C as [[-> _]|(NZa & Ha & _)]; [auto|]. pose proof (live_lt _ _ _ _ _ I Ha). lia. }
        rewrite E2. assert (H2 : hp s2 (nx s) = Some (mkblk 1 c (data b))) by (rewrite O2 by auto; assumption).
        apply finish_lock; [|intros; contradiction| |intros; lia].
        * apply Step_keep; auto.
          -- rewrite (val_some _ _ _ NZ H2). reflexivity.
          -- apply (Keep_trans _ s1); assumption.
          -- intros j NE. rewrite Aj by assumption. rewrite A1. reflexivity.
        * intros b1 _ Hb1. rewrite H2 in Hb1. injection Hb1 as <-. cbn. split; [lia|assumption].
    - destruct (unshared_nz _ _ _ C S) as (NZ & Hb & Lb & R).
      destruct (GetNewCapacity_ge (cap b) (length (data b) + k)) as [G1 G2].
      set (n := GetNewCapacity (cap b) (length (data b) + k)) in *.
      destruct (Nat.ltb_spec (cap b) n) as [Cn|Cn].
      + unfold bind at 1.
        destruct (ReAlloc_spec s N i oom a b n I A NZ Hb R Cn) as [[E X]|[[E O]|(s1 & s2 & E & E2 & ST & NZ2 & LK0 & c & Lc & Hc)]]; rewrite E.
        * split; [reflexivity|assumption].
        * split; [reflexivity|assumption].
        * unfold bind at 1. rewrite E2. rewrite LK0.
          apply finish_lock; [assumption|intros; contradiction| |intros; lia].
          intros b1 _ Hb1. rewrite Hc in Hb1. injection Hb1 as <-. cbn. split; [lia|lia].
      + apply finish_lock; [apply Step_refl; auto|intros; contradiction| |auto].
        intros b1 _ Hb1. rewrite Hb in Hb1. injection Hb1 as <-. split; [assumption|lia].
  Qed.
End Proofs.
