(** Properties C09 (DoublyLinkedList), C10 (SingleLinkedList) and C70 (Delegate).  The
    specification of the operations is [dspec] in ListProofs.v. *)
From Coq Require Import Arith Lia Bool List.
From Verif Require Import ListModel ListProofs.
Import ListNotations.

Lemma PushBack_ok : forall s c l e, Rep s c -> nowhere c e ->
  Rep (PushBack s l e) (put c l (c l ++ [e])).
Proof.
  intros s c l e R F. assert (R' := R). destruct R' as (R1 & R2 & R3 & R4 & _ & _).
  specialize (R1 l). specialize (R2 l). specialize (R3 l). specialize (R4 l). assert (Fl := F l).
  unfold PushBack. cbn [pr nx fi la set_pr set_nx set_fi set_la]. rewrite R3.
  destruct (c l) as [|xs t IH] eqn:E using rev_ind; [|clear IH].
  - cbn [hd_or last_or app] in *. rep_one R E.
  - apply seg_app in R1. destruct R1 as [S1 S2].
    cbn [seg hd_or] in S2, S1. destruct S2 as (Pt & Nt & _).
    rewrite hd_or_app in R2. rewrite last_or_app in R3. cbn [last_or hd_or] in *. rewrite last_or_app. cbn [last_or].
    norm_nodup. rewrite in_app_iff in Fl. cbn [In] in Fl.
    rep_one R E.
Qed.

Lemma InsertFront_ok : forall s c l e, Rep s c -> nowhere c e ->
  Rep (InsertFront s l e) (put c l (e :: c l)).
Proof.
  intros s c l e R F. assert (R' := R). destruct R' as (R1 & R2 & R3 & R4 & _ & _).
  specialize (R1 l). specialize (R2 l). specialize (R3 l). specialize (R4 l). assert (Fl := F l).
  unfold InsertFront. cbn [pr nx fi la set_pr set_nx set_fi set_la]. rewrite R2.
  destruct (c l) as [|y ys] eqn:E.
  - cbn [hd_or last_or app] in *. rep_one R E.
  - cbn [seg hd_or last_or In] in *. destruct R1 as (Py & Ny & S2). norm_nodup.
    rep_one R E.
Qed.

Lemma Insert_ok : forall s c l w e xs ys, Rep s c -> nowhere c e -> c l = xs ++ w :: ys ->
  exists s', Insert s l w e = Some s' /\ Rep s' (put c l (xs ++ e :: w :: ys)).
Proof.
  intros s c l w e xs ys R F E. assert (R' := R). destruct R' as (R1 & R2 & R3 & R4 & _ & _).
  specialize (R1 l). specialize (R2 l). specialize (R3 l). specialize (R4 l). assert (Fl := F l).
  rewrite E in R1, R2, R3, R4, Fl. apply seg_app in R1. destruct R1 as [S1 S2].
  cbn [seg hd_or] in S2. destruct S2 as (Pw & Nw & S2). cbn [hd_or] in S1.
  rewrite hd_or_app in R2. cbn [hd_or] in R2. rewrite last_or_app in R3. cbn [last_or] in R3.
  assert (New : e <> w). { intros ->. apply Fl. apply in_or_app. right. left. reflexivity. }
  unfold Insert. cbn [pr nx fi la set_pr set_nx set_fi set_la]. rewrite R2.
  rewrite (upd_other _ w _ e New), upd_same, Pw.
  destruct xs as [|x xs].
  - cbn [hd_or ptr_eqb]. rewrite Nat.eqb_refl. eexists. split; [reflexivity|].
    cbn [last_or hd_or app In] in *. norm_nodup. rep_one R E.
  - cbn [hd_or ptr_eqb].
    assert (Nxw : x <> w).
    { intros ->. cbn [app] in R4. apply NoDup_cons_iff in R4. apply (proj1 R4). apply in_or_app. right. left. reflexivity. }
    destruct (Nat.eqb_spec x w) as [|_]; [contradiction|].
    destruct (last_or None (x :: xs)) as [t|] eqn:L; [|apply last_or_none in L; discriminate].
    eexists. split; [reflexivity|].
    change (hd_or (x :: xs) (Some w)) with (hd_or (x :: xs) (Some w)) in R2.
    assert (Hd : Some x = hd_or (x :: xs) None) by reflexivity.
    destruct (last_or_some _ t L) as [xs' Exs]. rewrite Exs in *.
    apply seg_app in S1. destruct S1 as [S1 S1'].
    cbn [seg hd_or] in S1, S1'. destruct S1' as (Pt & Nt & _).
    rewrite last_or_app in *. cbn [last_or] in *. rewrite hd_or_app in R2. cbn [hd_or] in R2.
    rewrite <- app_assoc in *. cbn [app] in *.
    norm_nodup. rewrite !in_app_iff in Fl. cbn [In] in Fl.
    rep_one R E.
Qed.

Lemma Rep_two : forall s c l o xs ys s', Rep s c -> l <> o ->
  seg (pr s') (nx s') None xs None -> seg (pr s') (nx s') None ys None ->
  fi s' l = hd_or xs None -> la s' l = last_or None xs ->
  fi s' o = hd_or ys None -> la s' o = last_or None ys ->
  NoDup (xs ++ ys) ->
  (forall x, In x (xs ++ ys) <-> In x (c l) \/ In x (c o)) ->
  (forall k, k <> l -> k <> o -> fi s' k = fi s k /\ la s' k = la s k) ->
  (forall x, ~ In x (c l) -> ~ In x (c o) -> pr s' x = pr s x /\ nx s' x = nx s x) ->
  Rep s' (put (put c l xs) o ys).
Proof.
  intros s c l o xs ys s' (R1 & R2 & R3 & R4 & R5 & R6) Hlo Hx Hy F1 L1 F2 L2 ND Mem Oth Fr.
  apply NoDup_app_iff' in ND. destruct ND as (NDx & NDy & Dis).
  set (c' := put (put c l xs) o ys).
  assert (Cl : c' l = xs) by (unfold c'; rewrite put_other by exact Hlo; apply put_same).
  assert (Co : c' o = ys) by apply put_same.
  assert (Ck : forall k, k <> l -> k <> o -> c' k = c k)
    by (intros k H1 H2; unfold c'; rewrite !put_other by assumption; reflexivity).
  assert (Out : forall k x, k <> l -> k <> o -> In x (c k) -> ~ In x (c l) /\ ~ In x (c o)).
  { intros k x H1 H2 Hk. split; intros I; [apply H1|apply H2]; eapply R5; eassumption. }
  assert (Out' : forall k x, k <> l -> k <> o -> In x (c k) -> ~ In x xs /\ ~ In x ys).
  { intros k x H1 H2 Hk. destruct (Out k x H1 H2 Hk) as [O1 O2].
    assert (M := proj1 (Mem x)). rewrite in_app_iff in M. tauto. }
  assert (Pk : forall P : nat -> Prop, P l -> P o -> (forall k, k <> l -> k <> o -> P k) -> forall k, P k).
  { intros P P1 P2 P3 k. destruct (Nat.eq_dec k l) as [->|N1]; [exact P1|].
    destruct (Nat.eq_dec k o) as [->|N2]; [exact P2|]. apply P3; assumption. }
  unfold Rep. split; [|split; [|split; [|split; [|split]]]].
  - apply Pk; [rewrite Cl; exact Hx|rewrite Co; exact Hy|]. intros k H1 H2. rewrite Ck by assumption.
    eapply seg_ext; [|apply R1]. intros x I. destruct (Out k x H1 H2 I). apply Fr; assumption.
  - apply Pk; [rewrite Cl; exact F1|rewrite Co; exact F2|]. intros k H1 H2. rewrite Ck by assumption.
    rewrite <- R2. apply Oth; assumption.
  - apply Pk; [rewrite Cl; exact L1|rewrite Co; exact L2|]. intros k H1 H2. rewrite Ck by assumption.
    rewrite <- R3. apply Oth; assumption.
  - apply Pk; [rewrite Cl; exact NDx|rewrite Co; exact NDy|]. intros k H1 H2. rewrite Ck by assumption. apply R4.
  - intros l1 l2 x. revert l2. revert l1.
    apply (Pk (fun l1 => forall l2, In x (c' l1) -> In x (c' l2) -> l1 = l2)).
    + apply (Pk (fun l2 => In x (c' l) -> In x (c' l2) -> l = l2)); [reflexivity| |].
      * rewrite Cl, Co. intros I1 I2. destruct (Dis x I1 I2).
      * intros k H1 H2. rewrite Cl, Ck by assumption. intros I1 I2. destruct (Out' k x H1 H2 I2). contradiction.
    + apply (Pk (fun l2 => In x (c' o) -> In x (c' l2) -> o = l2)); [|reflexivity|].
      * rewrite Cl, Co. intros I1 I2. destruct (Dis x I2 I1).
      * intros k H1 H2. rewrite Co, Ck by assumption. intros I1 I2. destruct (Out' k x H1 H2 I2). contradiction.
    + intros k H1 H2. rewrite Ck by assumption.
      apply (Pk (fun l2 => In x (c k) -> In x (c' l2) -> k = l2)).
      * rewrite Cl. intros I1 I2. destruct (Out' k x H1 H2 I1). contradiction.
      * rewrite Co. intros I1 I2. destruct (Out' k x H1 H2 I1). contradiction.
      * intros k2 H3 H4. rewrite Ck by assumption. apply R5.
  - intros x NW.
    assert (NWc : nowhere c x).
    { unfold nowhere. apply Pk.
      - intros I. assert (M := proj2 (Mem x) (or_introl I)). apply in_app_or in M.
        destruct M as [M|M]; [apply (NW l); rewrite Cl|apply (NW o); rewrite Co]; exact M.
      - intros I. assert (M := proj2 (Mem x) (or_intror I)). apply in_app_or in M.
        destruct M as [M|M]; [apply (NW l); rewrite Cl|apply (NW o); rewrite Co]; exact M.
      - intros k H1 H2 I. apply (NW k). rewrite Ck by assumption. exact I. }
    destruct (Fr x (NWc l) (NWc o)) as [-> ->]. apply R6. exact NWc.
Qed.

Lemma PushBackList_ok : forall s c l o, Rep s c -> l <> o ->
  Rep (PushBackList s l o) (put (put c l (c l ++ c o)) o []).
Proof.
  intros s c l o R Hlo. assert (R' := R). destruct R' as (R1 & R2 & R3 & R4 & R5 & _).
  unfold PushBackList. destruct (Nat.eqb_spec l o) as [|_]; [contradiction|].
  assert (S1 := R1 l). assert (S2 := R1 o). assert (F1 := R2 l). assert (F2 := R2 o).
  assert (L1 := R3 l). assert (L2 := R3 o). assert (N1 := R4 l). assert (N2 := R4 o).
  assert (Dis : forall x, In x (c l) -> ~ In x (c o)) by (intros x I1 I2; apply Hlo; eapply R5; eassumption).
  clear R1 R2 R3 R4 R5.
  destruct (c o) as [|y ys] eqn:Eo; cbn [hd_or last_or] in F2, L2; rewrite F2.
  - (* nothing to append *)
    apply Rep_cext with (c := c); [|exact R]. intros k. unfold put.
    destruct (Nat.eqb_spec k o) as [->|]; [symmetry; exact Eo|].
    destruct (Nat.eqb_spec k l) as [->|]; [apply app_nil_r|reflexivity].
  - cbn [seg hd_or] in S2. destruct S2 as (Py & Ny & S2).
    destruct (c l) as [|t xs IH] eqn:El using rev_ind; [|clear IH].
    + cbn [hd_or last_or] in F1, L1. rewrite L1, L2.
      eapply Rep_two; [exact R|exact Hlo|..]; rewrite ?El, ?Eo;
        cbn [pr nx fi la set_pr set_nx set_fi set_la app seg hd_or last_or]; rewrite ?app_nil_r.
      * auto.
      * exact I.
      * rewrite upd_other, upd_same by exact Hlo. reflexivity.
      * rewrite upd_other, upd_same by exact Hlo. reflexivity.
      * rewrite upd_same. reflexivity.
      * rewrite upd_same. reflexivity.
      * exact N2.
      * intros x. cbn [In]. tauto.
      * intros k H1 H2. rewrite !upd_other by assumption. auto.
      * auto.
    + apply seg_app in S1. destruct S1 as [S1 S1']. cbn [seg hd_or] in S1, S1'. destruct S1' as (Pt & Nt & _).
      rewrite last_or_app in L1. cbn [last_or] in L1. rewrite L1. cbn [pr nx fi la set_pr set_nx set_fi set_la]. rewrite ?L1, ?L2.
      assert (N3 : NoDup ((xs ++ [t]) ++ y :: ys)) by (apply NoDup_app_iff'; auto).
      norm_nodup.
      eapply Rep_two; [exact R|exact Hlo|..]; rewrite ?El, ?Eo;
        cbn [pr nx fi la set_pr set_nx set_fi set_la seg hd_or last_or]; rewrite ?app_nil_r.
      * segs.
      * exact I.
      * rewrite upd_other by exact Hlo. rewrite F1, !hd_or_app. cbn [hd_or]. destruct xs; reflexivity.
      * rewrite upd_other, upd_same by exact Hlo. rewrite !last_or_app. reflexivity.
      * rewrite upd_same. reflexivity.
      * rewrite upd_same. reflexivity.
      * nodups.
      * intros x. rewrite in_app_iff. tauto.
      * intros k Hk1 Hk2. rewrite !upd_other by assumption. auto.
      * intros x I1 I2. split; pointwise.
Qed.

Lemma Flush_ok : forall s c l d, Rep s c -> l <> d -> c d = [] ->
  Rep (Flush s l d) (put (put c d (c l)) l []).
Proof.
  intros s c l d R Hld Ed. assert (R' := R). destruct R' as (R1 & R2 & R3 & R4 & R5 & _).
  unfold Flush.
  eapply Rep_two; [exact R|auto|..]; rewrite ?Ed;
    cbn [pr nx fi la set_pr set_nx set_fi set_la seg hd_or last_or]; rewrite ?app_nil_r.
  - apply R1.
  - exact I.
  - rewrite upd_other, upd_same by auto. apply R2.
  - rewrite upd_other, upd_same by auto. apply R3.
  - apply upd_same.
  - apply upd_same.
  - apply R4.
  - intros x. cbn [In]. tauto.
  - intros k H1 H2. rewrite !upd_other by assumption. auto.
  - auto.
Qed.

(** One step of the model follows the specification. *)
Lemma dstep_ok : forall s c o c' r, Rep s c -> dspec c o c' r ->
  exists s', dstep s o = Some (s', r) /\ Rep s' c'.
Proof.
  intros s c o c' r R H. destruct H as [l e F|l|l o Hlo|l E|l xs e E|l E|l xs e E|l w e xs ys F E|l e F|l e xs ys E|l d Hld Ed];
    cbn [dstep].
  - eexists. split; [reflexivity|]. apply PushBack_ok; assumption.
  - eexists. split; [reflexivity|]. unfold PushBackList. rewrite Nat.eqb_refl. exact R.
  - eexists. split; [reflexivity|]. apply PushBackList_ok; assumption.
  - exists s. split; [|exact R]. unfold PopBack. destruct R as (_ & _ & R3 & _). rewrite R3, E. reflexivity.
  - destruct (PopBack_ok s c l xs e R E) as [H1 H2]. exists (fst (PopBack s l)). split; [|exact H2].
    rewrite <- H1. f_equal. apply surjective_pairing.
  - exists s. split; [|exact R]. unfold PopFront. destruct R as (_ & R2 & _). rewrite R2, E. reflexivity.
  - destruct (PopFront_ok s c l xs e R E) as [H1 H2]. exists (fst (PopFront s l)). split; [|exact H2].
    rewrite <- H1. f_equal. apply surjective_pairing.
  - destruct (Insert_ok s c l w e xs ys R F E) as (s' & -> & H). exists s'. split; [reflexivity|exact H].
  - eexists. split; [reflexivity|]. apply InsertFront_ok; assumption.
  - eexists. split; [reflexivity|]. apply Remove_ok; assumption.
  - eexists. split; [reflexivity|]. apply Flush_ok; assumption.
Qed.

Lemma druns_ok : forall s c ops c' rs, Rep s c -> dspecs c ops c' rs ->
  exists s', druns s ops = Some (s', rs) /\ Rep s' c'.
Proof.
  intros s c ops c' rs R H. revert s R. induction H as [c|c o c1 r ops c2 rs H1 _ IH]; intros s R.
  - exists s. split; [reflexivity|exact R].
  - destruct (dstep_ok s c o c1 r R H1) as (s1 & E1 & R1).
    destruct (IH s1 R1) as (s2 & E2 & R2). exists s2. cbn [druns]. rewrite E1, E2. split; [reflexivity|exact R2].
Qed.

Lemma walk_next : forall P N xs p, seg P N p xs None ->
  walk N (length xs) (hd_or xs None) = xs /\ walk N (S (length xs)) (hd_or xs None) = xs.
Proof.
  intros P N xs. induction xs as [|x xs IH]; intros p H; [split; reflexivity|].
  cbn [seg] in H. destruct H as (_ & Hn & Hs). destruct (IH _ Hs) as [I1 I2].
  cbn [hd_or length]. split; cbn [walk]; rewrite Hn; f_equal; [exact I1|]. exact I2.
Qed.

Lemma walk_prior : forall P N xs q, seg P N None xs q ->
  walk P (length xs) (last_or None xs) = rev xs /\ walk P (S (length xs)) (last_or None xs) = rev xs.
Proof.
  intros P N xs. induction xs as [|x xs IH] using rev_ind; intros q H; [split; reflexivity|].
  apply seg_app in H. destruct H as [H1 H2]. cbn [seg] in H2. destruct H2 as (Hp & _ & _).
  destruct (IH _ H1) as [I1 I2]. rewrite last_or_app, app_length, rev_app_distr, Nat.add_1_r. cbn [last_or rev app].
  split; cbn [walk]; rewrite Hp; f_equal; assumption.
Qed.

(** What a client observes of list [l] holding [xs]: both ends, emptiness, and the walks in
    both directions, which visit all of it and stop. *)
Definition observes (s : dl) (l : nat) (xs : list nat) : Prop :=
  GetFirst s l = hd_error xs /\ GetLast s l = last_error xs
  /\ (IsEmpty s l = true <-> xs = [])
  /\ walk (nx s) (S (length xs)) (GetFirst s l) = xs
  /\ walk (pr s) (S (length xs)) (GetLast s l) = rev xs.

Lemma Rep_observes : forall s c l, Rep s c -> observes s l (c l).
Proof.
  intros s c l (R1 & R2 & R3 & _). unfold observes, GetFirst, GetLast, IsEmpty.
  rewrite R2, R3. repeat split.
  - apply last_or_error.
  - intros H. destruct (c l); [reflexivity|discriminate].
  - intros ->. reflexivity.
  - apply (walk_next _ _ _ _ (R1 l)).
  - apply (walk_prior _ _ _ _ (R1 l)).
Qed.

(** ** C09 *)
(** Every sequence of operations allowed by the interface, on any number of lists sharing
    one pool of entries: no null link is followed, every call returns what the sequence
    specification says, and all lists hold exactly their specified sequences. *)
Theorem C09_doubly_linked : forall ops c rs, dspecs (fun _ => []) ops c rs ->
  exists s, druns dl_init ops = Some (s, rs) /\ forall l, observes s l (c l).
Proof.
  intros ops c rs H. destruct (druns_ok _ _ _ _ _ Rep_init H) as (s & E & R).
  exists s. split; [exact E|]. intros l. apply Rep_observes. exact R.
Qed.

(** An entry is never in two lists nor twice in one, and an entry in no list has null
    links (so it can be told from a linked one, except the sole entry of a list). *)
Theorem C09_entries_unique : forall ops c rs s, dspecs (fun _ => []) ops c rs ->
  druns dl_init ops = Some (s, rs) ->
  (forall l, NoDup (c l)) /\ (forall l1 l2 x, In x (c l1) -> In x (c l2) -> l1 = l2)
  /\ (forall x, nowhere c x -> pr s x = None /\ nx s x = None).
Proof.
  intros ops c rs s H E. destruct (druns_ok _ _ _ _ _ Rep_init H) as (s' & E' & R).
  rewrite E in E'. injection E' as <-. destruct R as (_ & _ & _ & R4 & R5 & R6). auto.
Qed.

(** Instance: two lists, all kinds of operations. *)
Definition ops0 : list dop :=
  [OPushBack 0 5; OPushBack 0 6; OInsertFront 0 4; OInsert 0 6 9; OPushBack 1 7; OPushList 0 1;
   ORemove 0 5; OPopFront 0; OPopBack 0; OFlush 0 2].
Ltac fresh_entry := intros k; unfold put; cbn [Nat.eqb app]; repeat match goal with |- context [?a =? ?b] => destruct (a =? b) end; cbn; intuition discriminate.
Example ex_spec : exists c, dspecs (fun _ => []) ops0 c
    [None; None; None; None; None; None; None; Some 4; Some 7; None]
  /\ c 0 = [] /\ c 1 = [] /\ c 2 = [9; 6].
Proof.
  eexists. split.
  - repeat eapply S_cons.
    + apply S_PushBack. fresh_entry.
    + apply S_PushBack. fresh_entry.
    + apply S_InsertFront. fresh_entry.
    + apply S_Insert with (xs := [4; 5]) (ys := []); [fresh_entry|reflexivity].
    + apply S_PushBack. fresh_entry.
    + apply S_PushList. lia.
    + apply S_Remove with (xs := [4]) (ys := [9; 6; 7]). reflexivity.
    + apply S_PopFront with (xs := [9; 6; 7]). reflexivity.
    + apply S_PopBack with (xs := [9; 6]). reflexivity.
    + apply S_Flush; [lia|reflexivity].
    + apply S_nil.
  - repeat split.
Qed.
Example ex_run :
  match druns dl_init ops0 with
  | Some (s, rs) => rs = [None; None; None; None; None; None; None; Some 4; Some 7; None]
      /\ walk (nx s) 5 (GetFirst s 2) = [9; 6] /\ IsEmpty s 0 = true
  | None => False
  end.
Proof. vm_compute. repeat split. Qed.

(** ** C70: Delegate *)
Lemma seg_in : forall P N xs p q x, seg P N p xs q -> In x xs ->
  exists a b, xs = a ++ x :: b /\ P x = last_or p a /\ N x = hd_or b q.
Proof.
  intros P N xs p q x H I. apply in_split in I. destruct I as (a & b & ->).
  apply seg_app in H. destruct H as [_ H]. cbn [seg] in H. destruct H as (H1 & H2 & _).
  exists a, b. auto.
Qed.

(** A handler that is in no delegate is appended and [true] returned; one that is linked to
    a neighbour is refused, whichever delegate it is in; a null handler is refused. *)
Theorem C70_AddHandler : forall s c l e, Rep s c ->
  AddHandler s l None = (s, false)
  /\ (nowhere c e -> snd (AddHandler s l (Some e)) = true
                     /\ Rep (fst (AddHandler s l (Some e))) (put c l (c l ++ [e])))
  /\ (forall k, In e (c k) -> 2 <= length (c k) -> AddHandler s l (Some e) = (s, false)).
Proof.
  intros s c l e R. assert (R' := R). destruct R' as (R1 & R2 & R3 & R4 & R5 & R6). split; [reflexivity|split].
  - intros F. destruct (R6 e F) as [E1 E2]. unfold AddHandler. rewrite E1, E2. cbn [ptr_eqb negb orb fst snd].
    split; [reflexivity|]. apply PushBack_ok; assumption.
  - intros k I Len. destruct (seg_in _ _ _ _ _ e (R1 k) I) as (a & b & E & P & N).
    unfold AddHandler. rewrite P, N. rewrite E in Len. rewrite app_length in Len. cbn [length] in Len.
    destruct b as [|y b]; [|cbn [hd_or ptr_eqb negb]; rewrite orb_true_r; reflexivity].
    destruct a as [|z a] using rev_ind; [cbn in Len; lia|]. rewrite last_or_app. reflexivity.
Qed.

(** The sole handler of a delegate has null links and is accepted a second time: it is then
    linked to itself and walking the list does not end. *)
Theorem C70_AddHandler_refuted : exists s c l e, Rep s c /\ c l = [e]
  /\ snd (AddHandler s l (Some e)) = true
  /\ forall n, walk (nx (fst (AddHandler s l (Some e)))) n (GetFirst (fst (AddHandler s l (Some e))) l) = repeat e n.
Proof.
  exists (PushBack dl_init 0 5), (put (fun _ => []) 0 [5]), 0, 5.
  split; [|split; [reflexivity|split; [reflexivity|]]].
  - apply (PushBack_ok dl_init (fun _ => []) 0 5 Rep_init). intros l []. 
  - set (s := fst (AddHandler (PushBack dl_init 0 5) 0 (Some 5))).
    change (GetFirst s 0) with (Some 5). assert (E : nx s 5 = Some 5) by reflexivity.
    induction n as [|n IH]; [reflexivity|]. cbn [walk repeat]. rewrite E, IH. reflexivity.
Qed.

Lemma meets_ok : forall P N s xs p fuel e, N = nx s -> seg P N p xs None -> length xs <= fuel ->
  meets s fuel (hd_or xs None) e = Some (if in_dec Nat.eq_dec e xs then true else false).
Proof.
  intros P N s xs p fuel e EN. subst N. revert p fuel. induction xs as [|x xs IH]; intros p fuel H L.
  - destruct fuel; reflexivity.
  - cbn [seg] in H. destruct H as (_ & Hn & Hs). cbn [hd_or length] in *.
    destruct fuel as [|fuel]; [lia|]. cbn [meets]. destruct (Nat.eqb_spec x e) as [->|NE].
    + destruct (in_dec Nat.eq_dec e (e :: xs)) as [|NI]; [reflexivity|]. destruct NI. left. reflexivity.
    + rewrite Hn. rewrite (IH _ fuel Hs) by lia.
      destruct (in_dec Nat.eq_dec e xs) as [I|NI]; destruct (in_dec Nat.eq_dec e (x :: xs)) as [I'|NI']; try reflexivity.
      * destruct NI'. right. exact I.
      * destruct I' as [->|I']; contradiction.
Qed.

Lemma remove_first : forall xs e ys, ~ In e xs -> remove Nat.eq_dec e (xs ++ e :: ys) = xs ++ remove Nat.eq_dec e ys.
Proof.
  intros xs e ys H. rewrite remove_app, (notin_remove Nat.eq_dec xs e H). cbn [remove].
  destruct (Nat.eq_dec e e) as [_|N]; [reflexivity|contradiction].
Qed.

Lemma remove_handler_ok : forall s c l e fuel, Rep s c -> length (c l) <= fuel ->
  exists s' b, RemoveHandler fuel s l (Some e) = Some (s', b)
    /\ (b = true <-> In e (c l))
    /\ Rep s' (put c l (remove Nat.eq_dec e (c l))).
Proof.
  intros s c l e fuel R Hf. assert (R' := R). destruct R' as (R1 & R2 & R3 & R4 & R5 & R6).
  assert (Yes : In e (c l) -> Rep (Remove s l e) (put c l (remove Nat.eq_dec e (c l)))).
  { intros I. apply in_split in I. destruct I as (a & b & E). assert (ND := R4 l). rewrite E in ND.
    apply NoDup_remove in ND. destruct ND as [_ NI]. rewrite in_app_iff in NI.
    rewrite E, remove_first, (notin_remove Nat.eq_dec b e) by tauto. apply Remove_ok; assumption. }
  assert (No : ~ In e (c l) -> Rep s (put c l (remove Nat.eq_dec e (c l)))).
  { intros NI. apply Rep_cext with (c := c); [|exact R]. intros k. unfold put.
    destruct (Nat.eqb_spec k l) as [->|]; [apply notin_remove; exact NI|reflexivity]. }
  assert (YesT : forall X : dl * bool, In e (c l) -> X = (Remove s l e, true) ->
     exists s' b, Some X = Some (s', b) /\ (b = true <-> In e (c l)) /\ Rep s' (put c l (remove Nat.eq_dec e (c l)))).
  { intros X I ->. do 2 eexists. split; [reflexivity|]. split; [tauto|apply Yes, I]. }
  assert (NoT : forall X : dl * bool, ~ In e (c l) -> X = (s, false) ->
     exists s' b, Some X = Some (s', b) /\ (b = true <-> In e (c l)) /\ Rep s' (put c l (remove Nat.eq_dec e (c l)))).
  { intros X I ->. do 2 eexists. split; [reflexivity|]. split; [split; [discriminate|contradiction]|apply No, I]. }
  cbn [RemoveHandler]. unfold GetFirst, GetLast. rewrite R2, R3.
  destruct (in_dec Nat.eq_dec e (c l)) as [I|NI].
  - destruct (seg_in _ _ _ _ _ e (R1 l) I) as (a & b & E & P & N).
    destruct (pr s e) as [p|] eqn:Pe.
    + destruct (nx s e) as [n|] eqn:Ne.
      * rewrite (meets_ok (pr s) (nx s) s (c l) None fuel e eq_refl (R1 l) Hf).
        destruct (in_dec Nat.eq_dec e (c l)) as [_|NI]; [|contradiction]. apply YesT; [exact I|reflexivity].
      * destruct b as [|y b]; [|discriminate]. rewrite E, last_or_app. cbn [last_or ptr_eqb]. rewrite Nat.eqb_refl.
        rewrite <- E. apply YesT; [exact I|reflexivity].
    + symmetry in P. apply last_or_none in P. subst a. cbn [app] in E.
      assert (Eh : hd_or (c l) None = Some e) by (rewrite E; reflexivity). rewrite Eh. cbn [ptr_eqb].
      rewrite Nat.eqb_refl. apply YesT; [exact I|reflexivity].
  - assert (Hh : ptr_eqb (hd_or (c l) None) (Some e) = false).
    { destruct (c l) as [|x xs]; [reflexivity|]. cbn. apply Nat.eqb_neq. intros ->. apply NI. left. reflexivity. }
    assert (Hl : ptr_eqb (last_or None (c l)) (Some e) = false).
    { destruct (last_or None (c l)) as [t|] eqn:L; [|reflexivity]. destruct (last_or_some _ _ L) as [xs E].
      cbn. apply Nat.eqb_neq. intros ->. apply NI. rewrite E. apply in_or_app. right. left. reflexivity. }
    rewrite Hh, Hl, (meets_ok (pr s) (nx s) s (c l) None fuel e eq_refl (R1 l) Hf).
    destruct (in_dec Nat.eq_dec e (c l)) as [I|_]; [contradiction|].
    destruct (pr s e); [destruct (nx s e)|]; apply NoT; auto.
Qed.

(** [RemoveHandler] returns [true] exactly when the handler is in this delegate, and then
    removes exactly it; handlers of other delegates are left alone, and so is everything for null. *)
Theorem C70_RemoveHandler : forall s c l h fuel, Rep s c -> length (c l) <= fuel ->
  exists s' b, RemoveHandler fuel s l h = Some (s', b)
    /\ (b = true <-> exists e, h = Some e /\ In e (c l))
    /\ Rep s' (put c l (match h with Some e => remove Nat.eq_dec e (c l) | None => c l end)).
Proof.
  intros s c l [e|] fuel R Hf.
  - destruct (remove_handler_ok s c l e fuel R Hf) as (s' & b & E & B & R'). exists s', b. split; [exact E|]. split; [|exact R'].
    rewrite B. split; [intros I; exists e; split; [reflexivity|exact I]|]. intros (e' & E' & I). inversion E'. subst. exact I.
  - exists s, false. split; [reflexivity|]. split; [split; [discriminate|intros (e & E & _); discriminate]|].
    apply Rep_cext with (c := c); [|exact R]. intros k. unfold put. destruct (Nat.eqb_spec k l) as [->|]; reflexivity.
Qed.

(** [a += std::move(b)]: the handlers of [b] follow those of [a]; [b] is left empty.  Also
    for [a += std::move(a)]. *)
Theorem C70_AddDelegate : forall s c l o tmp, Rep s c -> tmp <> l -> tmp <> o -> c tmp = [] ->
  exists c', Rep (AddDelegate s l o tmp) c' /\ c' tmp = []
    /\ c' l = (if l =? o then c l else c l ++ c o) /\ (l <> o -> c' o = [])
    /\ forall k, k <> l -> k <> o -> c' k = c k.
Proof.
  intros s c l o tmp R H1 H2 E.
  assert (F := Flush_ok s c o tmp R ltac:(auto) E).
  assert (P := PushBackList_ok _ _ l tmp F ltac:(auto)).
  eexists. split; [exact P|]. split; [apply put_same|].
  unfold put. rewrite Nat.eqb_refl. repeat split.
  - destruct (Nat.eqb_spec l tmp); [congruence|].
    destruct (Nat.eqb_spec l o) as [->|NE]; rewrite ?Nat.eqb_refl.
    + destruct (Nat.eqb_spec tmp o); [congruence|]. reflexivity.
    + destruct (Nat.eqb_spec tmp o); [congruence|]. reflexivity.
  - intros NE. destruct (Nat.eqb_spec o tmp); [reflexivity|].
    destruct (Nat.eqb_spec o l); [congruence|]. rewrite Nat.eqb_refl. reflexivity.
  - intros k N1 N2. destruct (Nat.eqb_spec k tmp) as [->|]; [congruence|].
    destruct (Nat.eqb_spec k l); [congruence|]. destruct (Nat.eqb_spec k o); [congruence|]. reflexivity.
Qed.

(** The specification of [Invoke]: the first handler is taken out before it is called, the
    callback does its operations, until the list is empty. *)
Inductive invokes (cb : nat -> list dop) (l : nat) : contents -> list nat -> contents -> Prop :=
| I_done c : c l = [] -> invokes cb l c [] c
| I_call c e xs c1 rs es c2 : c l = e :: xs -> dspecs (put c l xs) (cb e) c1 rs ->
    invokes cb l c1 es c2 -> invokes cb l c (e :: es) c2.

(** For every callback that uses the lists according to their interface - it may add, remove
    or re-add handlers, in this or other delegates - the loop calls what the specification
    calls. *)
Theorem C70_Invoke : forall cb l c es c', invokes cb l c es c' -> forall s fuel, Rep s c -> length es <= fuel ->
  exists s', Invoke fuel s l cb = Some (s', es) /\ Rep s' c'.
Proof.
  intros cb l c es c' H. induction H as [c E|c e xs c1 rs es c2 E Hs _ IH]; intros s fuel R L.
  - exists s. split; [|exact R]. destruct R as (_ & R2 & _).
    destruct fuel; cbn [Invoke]; unfold PopFront; rewrite R2, E; reflexivity.
  - destruct (PopFront_ok s c l xs e R E) as [H1 H2].
    destruct (druns_ok _ _ _ _ _ H2 Hs) as (s2 & E2 & R2).
    cbn [length] in L. destruct fuel as [|fuel]; [lia|].
    destruct (IH s2 fuel R2 ltac:(lia)) as (s3 & E3 & R3).
    exists s3. split; [|exact R3]. cbn [Invoke]. destruct (PopFront s l) as [s1 q]. cbn [fst snd] in *.
    subst q. rewrite E2, E3. reflexivity.
Qed.

(** In particular callbacks that leave the lists alone: every handler is called exactly
    once, in the order of registration, and the delegate ends empty. *)
Theorem C70_Invoke_each_once : forall s c l fuel, Rep s c -> length (c l) <= fuel ->
  exists s', Invoke fuel s l (fun _ => []) = Some (s', c l) /\ Rep s' (put c l []).
Proof.
  intros s c l fuel R L.
  assert (H : forall xs c0, c0 l = xs -> (forall k, k <> l -> c0 k = c k) ->
    exists c', invokes (fun _ => []) l c0 xs c' /\ forall k, c' k = put c l [] k).
  { induction xs as [|x xs IH]; intros c0 E0 EO.
    - exists c0. split; [apply I_done; exact E0|]. intros k. unfold put. destruct (Nat.eqb_spec k l) as [->|NE]; auto.
    - destruct (IH (put c0 l xs)) as (c' & I' & E'); [apply put_same| |].
      + intros k NE. rewrite put_other by exact NE. apply EO. exact NE.
      + exists c'. split; [|exact E']. eapply I_call; [exact E0|apply S_nil|exact I']. }
  destruct (H (c l) c eq_refl ltac:(auto)) as (c' & I' & E').
  destruct (C70_Invoke _ _ _ _ _ I' s fuel R L) as (s' & E & R').
  exists s'. split; [exact E|]. apply Rep_cext with (c := c'); [|exact R']. intros k. symmetry. apply E'.
Qed.

Example ex_delegate :
  match druns dl_init [OPushBack 0 1; OPushBack 0 2; OPushBack 0 3] with
  | Some (s, _) =>
      match Invoke 10 s 0 (fun e => if e =? 1 then [ORemove 0 2; OPushBack 0 1]
                                    else if e =? 3 then [ORemove 0 1; OPushBack 0 4] else []) with
      | Some (s', es) => es = [1; 3; 4] /\ IsEmpty s' 0 = true
      | None => False
      end
  | None => False
  end.
Proof. vm_compute. split; reflexivity. Qed.

(** ** C10: SingleLinkedList *)
Inductive sspec (c : contents) : sop -> contents -> ptr -> Prop :=
| SS_Push l e : nowhere c e -> sspec c (SOPush l e) (put c l (c l ++ [e])) None
| SS_PushSelf l : sspec c (SOPushList l l) c None
| SS_PushList l o : l <> o -> sspec c (SOPushList l o) (put (put c l (c l ++ c o)) o []) None
| SS_PopEmpty l : c l = [] -> sspec c (SOPop l) c None
| SS_Pop l xs e : c l = e :: xs -> sspec c (SOPop l) (put c l xs) (Some e)
| SS_Move l d : l <> d -> c d = [] -> sspec c (SOMove l d) (put (put c d (c l)) l []) None.

Inductive sspecs (c : contents) : list sop -> contents -> list ptr -> Prop :=
| SS_nil : sspecs c [] c []
| SS_cons o c1 r ops c2 rs : sspec c o c1 r -> sspecs c1 ops c2 rs ->
    sspecs c (o :: ops) c2 (r :: rs).

Fixpoint sseg (N : nat -> ptr) (xs : list nat) (q : ptr) : Prop :=
  match xs with
  | [] => True
  | x :: t => N x = hd_or t q /\ sseg N t q
  end.

Definition SRep (s : sl) (c : contents) : Prop :=
  (forall l, sseg (snx s) (c l) None)
  /\ (forall l, sfi s l = hd_or (c l) None)
  /\ (forall l, sla s l = last_or None (c l))
  /\ (forall l, NoDup (c l))
  /\ (forall l1 l2 x, In x (c l1) -> In x (c l2) -> l1 = l2).

Lemma sseg_app : forall N xs ys q, sseg N (xs ++ ys) q <-> sseg N xs (hd_or ys q) /\ sseg N ys q.
Proof.
  intros N xs. induction xs as [|x xs IH]; intros ys q; cbn; [tauto|]. rewrite IH, hd_or_app. tauto.
Qed.

Lemma sseg_ext : forall N N' xs q, (forall x, In x xs -> N' x = N x) -> sseg N xs q -> sseg N' xs q.
Proof.
  intros N N' xs. induction xs as [|x xs IH]; intros q H; cbn; [tauto|]. intros [H1 H2].
  rewrite H by (left; reflexivity). split; [exact H1|]. apply IH; [|exact H2]. intros y I. apply H. right. exact I.
Qed.

(** The contents change in up to two lists; the multiset of entries only by [e]. *)
Lemma contents_put2 : forall c l o xs ys,
  (forall k : nat, NoDup (c k)) -> (forall l1 l2 x, In x (c l1) -> In x (c l2) -> l1 = l2) ->
  NoDup xs -> NoDup ys -> (l <> o -> forall x, In x xs -> ~ In x ys) ->
  (forall x, In x xs \/ In x ys -> In x (c l) \/ In x (c o) \/ nowhere c x) ->
  (forall k, NoDup (put (put c l xs) o ys k))
  /\ (forall l1 l2 x, In x (put (put c l xs) o ys l1) -> In x (put (put c l xs) o ys l2) -> l1 = l2).
Proof.
  intros c l o xs ys R4 R5 Nx Ny Dis Mem. split.
  - intros k. unfold put. destruct (k =? o); [exact Ny|]. destruct (k =? l); [exact Nx|]. apply R4.
  - assert (Oth : forall k x, k <> l -> k <> o -> In x (c k) -> In x xs \/ In x ys -> False).
    { intros k x H1 H2 I J. destruct (Mem x J) as [J'|[J'|J']].
      - apply H1. eapply R5; eassumption.
      - apply H2. eapply R5; eassumption.
      - exact (J' k I). }
    intros l1 l2 x. unfold put.
    destruct (Nat.eqb_spec l1 o) as [->|N1]; destruct (Nat.eqb_spec l2 o) as [->|N2]; try reflexivity.
    + destruct (Nat.eqb_spec l2 l) as [->|N3]; intros I1 I2.
      * exfalso. exact (Dis N2 x I2 I1).
      * exfalso. apply (Oth l2 x); auto.
    + destruct (Nat.eqb_spec l1 l) as [->|N3]; intros I1 I2.
      * exfalso. exact (Dis N1 x I1 I2).
      * exfalso. apply (Oth l1 x); auto.
    + destruct (Nat.eqb_spec l1 l) as [->|N3]; destruct (Nat.eqb_spec l2 l) as [->|N4]; try reflexivity; intros I1 I2.
      * exfalso. apply (Oth l2 x); auto.
      * exfalso. apply (Oth l1 x); auto.
      * eapply R5; eassumption.
Qed.

Lemma contents_put1 : forall c l xs,
  (forall k : nat, NoDup (c k)) -> (forall l1 l2 x, In x (c l1) -> In x (c l2) -> l1 = l2) ->
  NoDup xs -> (forall x, In x xs -> In x (c l) \/ nowhere c x) ->
  (forall k, NoDup (put c l xs k))
  /\ (forall l1 l2 x, In x (put c l xs l1) -> In x (put c l xs l2) -> l1 = l2).
Proof.
  intros c l xs R4 R5 Nx Mem.
  destruct (contents_put2 c l l xs xs R4 R5 Nx Nx) as [H1 H2]; [congruence| |].
  - intros x [I|I]; destruct (Mem x I); auto.
  - assert (E : forall k, put (put c l xs) l xs k = put c l xs k).
    { intros k. unfold put. destruct (k =? l); reflexivity. }
    split; [intros k; rewrite <- E; apply H1|]. intros l1 l2 x. rewrite <- !E. apply H2.
Qed.

Ltac putk k l o := unfold put; destruct (Nat.eqb_spec k o) as [->|]; [|destruct (Nat.eqb_spec k l) as [->|]].

Lemma sstep_ok : forall s c o c' r, SRep s c -> sspec c o c' r ->
  exists s', sstep s o = (s', r) /\ SRep s' c'.
Proof.
  intros s c o c' r R H. assert (R' := R). destruct R' as (R1 & R2 & R3 & R4 & R5).
  destruct H as [l e F|l|l o Hlo|l E|l xs e E|l d Hld Ed]; cbn [sstep].
  - (* Push *)
    eexists. split; [reflexivity|].
    destruct (contents_put1 c l (c l ++ [e]) R4 R5) as [C1 C2].
    { apply NoDup_app_iff'. repeat split; [apply R4|repeat constructor; intros []|].
      intros x I [->|[]]. exact (F l I). }
    { intros x I. apply in_app_or in I. destruct I as [I|[<-|[]]]; auto. }
    assert (NE : forall k x, In x (c k) -> x <> e) by (intros k x I ->; exact (F k I)).
    unfold SPush, SRep; cbn [snx sfi sla]. rewrite R3.
    destruct (last_or None (c l)) as [t|] eqn:L; cbn [snx sfi sla].
    + destruct (last_or_some _ t L) as [ys El].
      assert (It : In t (c l)) by (rewrite El; apply in_or_app; right; left; reflexivity).
      assert (Nty : ~ In t ys).
      { assert (N := R4 l). rewrite El in N. apply NoDup_app_iff' in N. destruct N as (_ & _ & N). intros I. apply (N t I). left. reflexivity. }
      split; [|split; [|split; [|split]]]; try assumption.
      * intros k. unfold put. destruct (Nat.eqb_spec k l) as [->|NEk].
        { rewrite El. rewrite !sseg_app. cbn [sseg hd_or].
          assert (S := R1 l). rewrite El in S. rewrite sseg_app in S. cbn [sseg hd_or] in S.
          repeat split; try exact I.
          - eapply sseg_ext; [|apply S]. intros x Ix. rewrite !upd_other; [reflexivity| |].
            + apply (NE l). rewrite El. apply in_or_app. left. exact Ix.
            + intros ->. contradiction.
          - apply upd_same.
          - rewrite upd_other; [apply upd_same|]. intros <-. exact (F l It). }
        { eapply sseg_ext; [|apply R1]. intros x Ix. rewrite !upd_other; [reflexivity|apply (NE k); exact Ix|].
          intros ->. apply NEk. eapply R5; eassumption. }
      * intros k. unfold put. destruct (Nat.eqb_spec k l) as [->|NEk]; [|apply R2].
        rewrite R2, El, !hd_or_app. destruct ys; reflexivity.
      * intros k. unfold put. destruct (Nat.eqb_spec k l) as [->|NEk].
        { rewrite upd_same, last_or_app. reflexivity. }
        { rewrite upd_other by exact NEk. apply R3. }
    + apply last_or_none in L.
      split; [|split; [|split; [|split]]]; try assumption.
      * intros k. unfold put. destruct (Nat.eqb_spec k l) as [->|NEk].
        { rewrite L. cbn. rewrite upd_same. auto. }
        { eapply sseg_ext; [|apply R1]. intros x Ix. rewrite upd_other; [reflexivity|apply (NE k); exact Ix]. }
      * intros k. unfold put. destruct (Nat.eqb_spec k l) as [->|NEk].
        { rewrite upd_same, L. reflexivity. }
        { rewrite upd_other by exact NEk. apply R2. }
      * intros k. unfold put. destruct (Nat.eqb_spec k l) as [->|NEk].
        { rewrite upd_same, L. reflexivity. }
        { rewrite upd_other by exact NEk. apply R3. }
  - (* self *)
    eexists. split; [reflexivity|]. unfold SPushList. rewrite Nat.eqb_refl. exact R.
  - (* PushList *)
    eexists. split; [reflexivity|].
    assert (Dis : forall x, In x (c l) -> ~ In x (c o)) by (intros x I1 I2; apply Hlo; eapply R5; eassumption).
    destruct (contents_put2 c l o (c l ++ c o) [] R4 R5) as [C1 C2].
    { apply NoDup_app_iff'. auto. }
    { constructor. }
    { intros _ x _ []. }
    { intros x [I|[]]. apply in_app_or in I. tauto. }
    unfold SPushList. destruct (Nat.eqb_spec l o) as [|_]; [contradiction|]. rewrite R2.
    destruct (c o) as [|y ys] eqn:Eo; cbn [hd_or ptr_eqb].
    + assert (E : forall k, put (put c l (c l ++ [])) o [] k = c k).
      { intros k. putk k l o; [symmetry; exact Eo|apply app_nil_r|reflexivity]. }
      split; [|split; [|split; [|split]]]; try assumption; intros k; rewrite E; auto.
    + rewrite R3. destruct (last_or None (c l)) as [t|] eqn:L; cbn [snx sfi sla].
      * destruct (last_or_some _ t L) as [xs El].
        assert (It : In t (c l)) by (rewrite El; apply in_or_app; right; left; reflexivity).
        assert (Nt : ~ In t xs).
        { assert (N := R4 l). rewrite El in N. apply NoDup_app_iff' in N. destruct N as (_ & _ & N). intros I. apply (N t I). left. reflexivity. }
        split; [|split; [|split; [|split]]]; try assumption; cbn [snx sfi sla].
        { intros k. putk k l o.
          - exact I.
          - assert (S := R1 l). rewrite El in S. rewrite sseg_app in S. cbn [sseg hd_or] in S.
            assert (So := R1 o). rewrite Eo in So.
            rewrite El, !sseg_app. cbn [sseg hd_or]. cbn [sseg] in So. repeat split; try exact I.
            + eapply sseg_ext; [|apply S]. intros x Ix. apply upd_other. intros ->. contradiction.
            + apply upd_same.
            + rewrite upd_other; [apply So|]. intros ->. apply (Dis t It). left. reflexivity.
            + eapply sseg_ext; [|apply So]. intros x Ix. apply upd_other. intros ->. apply (Dis t It). right. exact Ix.
          - eapply sseg_ext; [|apply R1]. intros x Ix. apply upd_other. intros ->. apply n0. eapply R5; eassumption. }
        { intros k. putk k l o.
          - apply upd_same.
          - rewrite upd_other by assumption. rewrite R2, El, !hd_or_app. destruct xs; reflexivity.
          - rewrite upd_other by assumption. apply R2. }
        { intros k. putk k l o.
          - apply upd_same.
          - rewrite upd_other, upd_same by assumption. rewrite R3, Eo, last_or_app. reflexivity.
          - rewrite !upd_other by assumption. apply R3. }
      * apply last_or_none in L. rewrite L. cbn [app].
        rewrite L in C1, C2. cbn [app] in C1, C2.
        split; [|split; [|split; [|split]]]; try assumption; cbn [snx sfi sla].
        { intros k. putk k l o; [exact I| |apply R1]. rewrite <- Eo. apply R1. }
        { intros k. putk k l o.
          - apply upd_same.
          - rewrite upd_other, upd_same by assumption. reflexivity.
          - rewrite !upd_other by assumption. apply R2. }
        { intros k. putk k l o.
          - apply upd_same.
          - rewrite upd_other, upd_same by assumption. rewrite R3, Eo. reflexivity.
          - rewrite !upd_other by assumption. apply R3. }
  - (* Pop, empty *)
    exists s. split; [|exact R]. unfold SPop. rewrite R2, E. reflexivity.
  - (* Pop *)
    destruct (contents_put1 c l xs R4 R5) as [C1 C2].
    { assert (N := R4 l). rewrite E in N. apply NoDup_cons_iff in N. tauto. }
    { intros x I. left. rewrite E. right. exact I. }
    unfold SPop. rewrite R2, E. cbn [hd_or snx sfi sla]. rewrite upd_same.
    assert (S := R1 l). rewrite E in S. cbn [sseg] in S. destruct S as [Hn Hs]. rewrite Hn.
    eexists. split; [reflexivity|].
    split; [|split; [|split; [|split]]]; try assumption; intros k.
    + unfold put. destruct (Nat.eqb_spec k l) as [->|]; destruct (hd_or xs None); cbn [snx]; try apply Hs; apply R1.
    + unfold put. destruct (Nat.eqb_spec k l) as [->|NEk]; destruct (hd_or xs None) eqn:Hd; cbn [sfi].
      * rewrite upd_same. reflexivity.
      * rewrite upd_same. reflexivity.
      * rewrite upd_other by exact NEk. apply R2.
      * rewrite upd_other by exact NEk. apply R2.
    + unfold put. destruct (Nat.eqb_spec k l) as [->|NEk]; destruct xs as [|y xs]; cbn [hd_or sla last_or].
      * apply upd_same.
      * rewrite R3, E. reflexivity.
      * rewrite upd_other by exact NEk. apply R3.
      * apply R3.
  - (* move constructor *)
    eexists. split; [reflexivity|].
    destruct (contents_put2 c d l (c l) [] R4 R5 (R4 l) (NoDup_nil _)) as [C1 C2].
    { intros _ x _ []. }
    { intros x [I|[]]. tauto. }
    unfold SMove. cbn [snx sfi sla].
    split; [|split; [|split; [|split]]]; try assumption; cbn [snx sfi sla]; intros k.
    + putk k d l; [exact I|apply R1|apply R1].
    + putk k d l; [apply upd_same|rewrite upd_other, upd_same by assumption; apply R2|].
      rewrite !upd_other by assumption. apply R2.
    + putk k d l; [apply upd_same|rewrite upd_other, upd_same by assumption; apply R3|].
      rewrite !upd_other by assumption. apply R3.
Qed.

Lemma SRep_init : SRep sl_init (fun _ => []).
Proof. unfold SRep. repeat split; intros; cbn in *; try constructor; contradiction. Qed.

Lemma sruns_ok : forall ops s c c' rs, SRep s c -> sspecs c ops c' rs ->
  exists s', sruns s ops = (s', rs) /\ SRep s' c'.
Proof.
  intros ops s c c' rs R H. revert s R. induction H as [c|c o c1 r ops c2 rs H1 _ IH]; intros s R.
  - exists s. split; [reflexivity|exact R].
  - destruct (sstep_ok s c o c1 r R H1) as (s1 & E1 & R1).
    destruct (IH s1 R1) as (s2 & E2 & R2). exists s2. cbn [sruns]. rewrite E1, E2. split; [reflexivity|exact R2].
Qed.

Lemma swalk : forall N xs, sseg N xs None -> walk N (S (length xs)) (hd_or xs None) = xs.
Proof.
  intros N xs. induction xs as [|x xs IH]; intros H; [reflexivity|].
  cbn [sseg] in H. destruct H as [Hn Hs]. cbn [hd_or length]. cbn [walk]. rewrite Hn. f_equal. exact (IH Hs).
Qed.

(** Every allowed sequence of operations on any number of single linked lists: results and
    contents are those of the queue specification (first in, first out). *)
Theorem C10_single_linked : forall ops c rs, sspecs (fun _ => []) ops c rs ->
  exists s, sruns sl_init ops = (s, rs)
    /\ forall l, sfi s l = hd_error (c l) /\ sla s l = last_error (c l)
                 /\ walk (snx s) (S (length (c l))) (sfi s l) = c l.
Proof.
  intros ops c rs H. destruct (sruns_ok _ _ _ _ _ SRep_init H) as (s & E & R).
  exists s. split; [exact E|]. intros l. destruct R as (R1 & R2 & R3 & _).
  rewrite R2, R3. repeat split.
  - apply last_or_error.
  - apply swalk, R1.
Qed.

Example ex_sspec : exists c, sspecs (fun _ => []) [SOPush 0 3; SOPush 1 4; SOPushList 0 1; SOPop 0; SOMove 0 2; SOPush 2 3; SOPop 1] c
    [None; None; None; Some 3; None; None; None] /\ c 2 = [4; 3] /\ c 0 = [].
Proof.
  eexists. split.
  - repeat eapply SS_cons.
    + apply SS_Push. fresh_entry.
    + apply SS_Push. fresh_entry.
    + apply SS_PushList. lia.
    + apply SS_Pop with (xs := [4]). reflexivity.
    + apply SS_Move; [lia|reflexivity].
    + apply SS_Push. fresh_entry.
    + apply SS_PopEmpty. reflexivity.
    + apply SS_nil.
  - repeat split.
Qed.

Print Assumptions C09_doubly_linked.
Print Assumptions C09_entries_unique.
Print Assumptions C10_single_linked.
Print Assumptions C70_AddHandler.
Print Assumptions C70_AddHandler_refuted.
Print Assumptions C70_RemoveHandler.
Print Assumptions C70_AddDelegate.
Print Assumptions C70_Invoke.
Print Assumptions C70_Invoke_each_once.
