(** C43: UniquePtr: exactly one owner, deleted exactly once. *)
From Coq Require Import Lia Bool List Arith.
From Verif Require Import Slots SlotsProofs UniquePtrModel.
Import ListNotations.

(** * Specification
    The owners of object [o]: the variables that point to it and the detached raw pointers. *)
Definition owners (s : st) (o : nat) : nat :=
  length (filter (fun p => eqp p (Some o)) (vars s)) + length (filter (Nat.eqb o) (raws s)).
Definition pstate : Type := list (option nat) * list nat * nat.
Definition pstep (x : op) (s : pstate) : pstate :=
  let '(vs, rs, n) := s in
  let ok v := Nat.ltb v (length vs) in
  match x with
  | Create v => if ok v then (set vs v (Some n), rs, S n) else s
  | RawCtor v k | AttachRaw v k =>
      if ok v then match nth_error rs k with Some o => (set vs v (Some o), del rs k, n) | None => s end else s
  | MoveCtor v w | Move v w =>
      if ok v && ok w && negb (Nat.eqb v w) then (set (set vs w None) v (get vs w), rs, n) else s
  | Dtor v | ResetNull v => if ok v then (set vs v None, rs, n) else s
  | DetachRaw v =>
      if ok v then (set vs v None, match get vs v with Some o => o :: rs | None => rs end, n) else s
  end.
Definition pview (s : st) : pstate := (vars s, raws s, length (live s)).

Definition own (s : st) (T : list nat) (o : nat) : nat := slots (vars s) o + occ (raws s) o + occ T o.
Definition Inv (s : st) (T : list nat) : Prop :=
  forall o, match nth_error (live s) o with
            | Some true => own s T o = 1 /\ occ (deleted s) o = 0
            | Some false => own s T o = 0 /\ occ (deleted s) o = 1
            | None => own s T o = 0 /\ occ (deleted s) o = 0
            end.

Lemma delete_ok : forall s T o, Inv s (o :: T) -> exists s', delete o s = Some s' /\ Inv s' T /\ pview s' = pview s.
Proof.
  intros s T o I. unfold delete. pose proof (I o) as Io. unfold own in Io. cbn [occ] in Io. rewrite Nat.eqb_refl in Io.
  destruct (nth_error (live s) o) as [[|]|] eqn:E; [|lia|lia].
  assert (L : o < length (live s)) by (apply nth_error_Some; congruence).
  eexists; split; [reflexivity|]; split.
  - intros u. specialize (I u). unfold own in *. cbn [vars raws live deleted occ] in *. destruct (Nat.eq_dec o u) as [e|N].
    + subst u. rewrite Nat.eqb_refl in *. rewrite nth_set_eq by exact L. lia.
    + rewrite (proj2 (Nat.eqb_neq o u) N) in *. rewrite nth_set_neq by exact N. exact I.
  - unfold pview. cbn. rewrite set_length. reflexivity.
Qed.
Lemma setv_ok : forall s T v p, Inv s (tok p ++ T) -> v < length (vars s) -> Inv (setv v p s) (tok (get (vars s) v) ++ T).
Proof.
  intros s T v p I L o. specialize (I o). pose proof (slots_set (vars s) v p o L) as H.
  unfold own in *. cbn [vars raws live deleted setv] in *. rewrite occ_app, occ_tok in *.
  destruct (nth_error (live s) o) as [[|]|]; lia.
Qed.
Lemma delete_setv : forall o v p s, delete o (setv v p s) = match delete o s with Some s' => Some (setv v p s') | None => None end.
Proof. intros o v p s. unfold delete, setv; cbn. destruct (nth_error (live s) o) as [[|]|]; reflexivity. Qed.
Lemma Reset_ok : forall s T v p, Inv s (tok p ++ T) -> v < length (vars s) ->
  exists s', Reset v p s = Some s' /\ Inv s' T /\ pview s' = (set (vars s) v p, raws s, length (live s)).
Proof.
  intros s T v p I L. pose proof (setv_ok s T v p I L) as I'. unfold Reset.
  destruct (get (vars s) v) as [o|]; cbn [tok app] in *.
  - destruct (delete_ok _ _ _ I') as (s1 & R & I1 & V1). rewrite delete_setv in R.
    destruct (delete o s) as [s2|]; [|discriminate]. injection R as <-. eexists. split; [reflexivity|]. split; [exact I1|exact V1].
  - eexists. split; [reflexivity|]. split; [exact I'|reflexivity].
Qed.
Lemma pview_eq : forall s a b c, pview s = (a, b, c) -> vars s = a /\ raws s = b /\ length (live s) = c.
Proof. intros s a b c H. unfold pview in H. inversion H. auto. Qed.

Lemma ltb_t : forall v n, Nat.ltb v n = true -> v < n. Proof. intros. apply Nat.ltb_lt. assumption. Qed.
Ltac oks := repeat match goal with
  | H : (_ && _)%bool = true |- _ => apply andb_true_iff in H as [? ?]
  | H : Nat.ltb _ _ = true |- _ => apply ltb_t in H
  | H : negb _ = true |- _ => apply negb_true_iff in H
  | H : Nat.eqb _ _ = false |- _ => apply Nat.eqb_neq in H
  end.

Lemma two_slots : forall l v w o, v <> w -> get l v = Some o -> get l w = Some o -> 2 <= slots l o.
Proof.
  induction l as [|y l IH]; intros [|v] [|w] o N A B; try discriminate A; try discriminate B; try congruence.
  - cbn in A. subst y. change (get (Some o :: l) (S w)) with (get l w) in B. apply slots_get in B. cbn. rewrite Nat.eqb_refl. lia.
  - cbn in B. subst y. change (get (Some o :: l) (S v)) with (get l v) in A. apply slots_get in A. cbn. rewrite Nat.eqb_refl. lia.
  - change (get (y :: l) (S v)) with (get l v) in A. change (get (y :: l) (S w)) with (get l w) in B.
    specialize (IH v w o). cbn. assert (2 <= slots l o) by (apply IH; congruence). lia.
Qed.

Lemma step_ok : forall x s, Inv s [] -> exists s', step x s = Some s' /\ Inv s' [] /\ pview s' = pstep x (pview s).
Proof.
  intros x s I. unfold step, pstep, pview at 2. destruct x.
  - (* Create *)
    destruct (Nat.ltb v (length (vars s))) eqn:L; [|exists s; auto]. oks. unfold New.
    destruct (Reset_ok (ST (vars s) (raws s) (live s ++ [true]) (deleted s)) [] v (Some (length (live s)))) as (s' & A & B & C).
    + intros o. specialize (I o). unfold own in *. cbn [vars raws live deleted tok app occ] in *.
      destruct (Nat.eqb_spec (length (live s)) o) as [<-|N].
      * rewrite nth_error_app2, Nat.sub_diag by lia. cbn.
        replace (nth_error (live s) (length (live s))) with (@None bool) in I by (symmetry; apply nth_error_None; lia). lia.
      * destruct (Nat.ltb_spec o (length (live s))).
        -- rewrite nth_error_app1 by lia. exact I.
        -- rewrite (proj2 (nth_error_None _ o)) in I by lia. rewrite (proj2 (nth_error_None _ o)); [exact I|]. rewrite app_length. cbn. lia.
    + exact L.
    + exists s'. split; [exact A|]. split; [exact B|]. rewrite C. cbn. rewrite app_length. cbn. f_equal. lia.
  - (* RawCtor *)
    destruct (Nat.ltb v (length (vars s))) eqn:L; [|exists s; auto]. oks.
    destruct (nth_error (raws s) k) as [o|] eqn:K; [|exists s; auto].
    destruct (Reset_ok s [] v None I L) as (s1 & -> & I1 & V1). apply pview_eq in V1 as (V1 & V2 & V3).
    eexists. split; [reflexivity|]. split.
    + assert (G : get (vars s1) v = None) by (rewrite V1; apply get_set_eq, L).
      assert (I2 : Inv (ST (vars s1) (del (raws s1) k) (live s1) (deleted s1)) (tok (Some o) ++ [])).
      { intros u. specialize (I1 u). rewrite <- V2 in K. pose proof (occ_del (raws s1) k o u K) as D.
        unfold own in *. cbn [vars raws live deleted tok app occ pt] in *. destruct (nth_error (live s1) u) as [[|]|]; lia. }
      pose proof (setv_ok _ [] v _ I2) as Q. cbn [vars] in Q. rewrite G in Q. apply Q. rewrite V1, set_length. exact L.
    + unfold pview, setv; cbn. rewrite V1, V2, V3, set_set. reflexivity.
  - (* MoveCtor *)
    destruct (Nat.ltb v _ && Nat.ltb w _ && negb (Nat.eqb v w)) eqn:L; [|exists s; auto]. oks.
    destruct (Reset_ok s [] v None I H) as (s1 & -> & I1 & V1). apply pview_eq in V1 as (V1 & V2 & V3).
    unfold Detach. eexists. split; [reflexivity|].
    assert (Lw : w < length (vars s1)) by (rewrite V1, set_length; assumption).
    pose proof (setv_ok s1 [] w None I1 Lw) as I2. split.
    + pose proof (setv_ok (setv w None s1) [] v (get (vars s1) w) I2) as Q.
      assert (G : get (vars (setv w None s1)) v = None).
      { cbn. rewrite get_set_neq by congruence. rewrite V1. apply get_set_eq, H. }
      rewrite G in Q. apply Q. cbn. rewrite set_length, V1, set_length. exact H.
    + unfold pview, setv; cbn. rewrite V1, V2, V3. rewrite get_set_neq by congruence. f_equal. f_equal.
      rewrite (set_swap _ (vars s) v w None None) by congruence. apply set_set.
  - (* Dtor *)
    destruct (Nat.ltb v (length (vars s))) eqn:L; [|exists s; auto]. oks. apply Reset_ok; assumption.
  - (* ResetNull *)
    destruct (Nat.ltb v (length (vars s))) eqn:L; [|exists s; auto]. oks. apply Reset_ok; assumption.
  - (* AttachRaw *)
    destruct (Nat.ltb v (length (vars s))) eqn:L; [|exists s; auto]. oks.
    destruct (nth_error (raws s) k) as [o|] eqn:K; [|exists s; auto].
    destruct (Reset_ok (ST (vars s) (del (raws s) k) (live s) (deleted s)) [] v (Some o)) as (s2 & E & I2 & W).
    + intros u. specialize (I u). pose proof (occ_del (raws s) k o u K) as D.
      unfold own in *. cbn [vars raws live deleted tok app occ pt] in *. destruct (nth_error (live s) u) as [[|]|]; lia.
    + exact L.
    + exists s2. auto.
  - (* DetachRaw *)
    destruct (Nat.ltb v (length (vars s))) eqn:L; [|exists s; auto]. oks. unfold Detach.
    pose proof (setv_ok s [] v None I L) as I1. eexists. split; [reflexivity|].
    destruct (get (vars s) v) as [o|]; [|split; [exact I1|reflexivity]]. split; [|reflexivity].
    intros u. specialize (I1 u). unfold own in *. cbn [vars raws live deleted setv tok app occ] in *.
    destruct (nth_error (live s) u) as [[|]|]; lia.
  - (* Move *)
    destruct (Nat.ltb v _ && Nat.ltb w _) eqn:L; cbn [andb]; [|exists s; auto]. oks.
    destruct (Nat.eqb_spec v w) as [<-|N]; cbn [negb].
    { rewrite (proj2 (eqp_iff _ _) eq_refl). exists s. auto. }
    destruct (eqp (get (vars s) v) (get (vars s) w)) eqn:Q.
    + apply eqp_iff in Q. exists s. split; [reflexivity|]. split; [exact I|].
      destruct (get (vars s) w) as [o|] eqn:G.
      * exfalso. pose proof (two_slots _ _ _ _ N Q G) as T. specialize (I o). unfold own in I.
        destruct (nth_error (live s) o) as [[|]|]; lia.
      * unfold pview. rewrite <- G at 1. rewrite set_get, <- Q, set_get. reflexivity.
    + unfold Detach. pose proof (setv_ok s [] w None I ltac:(assumption)) as I1.
      destruct (Reset_ok (setv w None s) [] v (get (vars s) w) I1) as (s2 & E & I2 & W); [cbn; rewrite set_length; assumption|].
      exists s2. split; [exact E|]. split; [exact I2|]. rewrite W. reflexivity.
Qed.
Lemma run_ok : forall l s, Inv s [] -> exists s', run l s = Some s' /\ Inv s' [] /\ pview s' = fold_left (fun p x => pstep x p) l (pview s).
Proof.
  induction l as [|x l IH]; intros s I; cbn [run fold_left].
  - exists s. auto.
  - destruct (step_ok x s I) as (s1 & -> & I1 & V1). rewrite <- V1. apply IH, I1.
Qed.
Lemma init_Inv : forall n, Inv (init n) [].
Proof. intros n o. unfold own. cbn. rewrite slots_repeat. destruct o; cbn; auto. Qed.
Lemma slots_filter : forall l o, slots l o = length (filter (fun p => eqp p (Some o)) l).
Proof. induction l as [|[x|] l IH]; intros o; cbn; auto. destruct (Nat.eqb x o); cbn; rewrite IH; reflexivity. Qed.
Lemma occ_filter : forall l o, occ l o = length (filter (Nat.eqb o) l).
Proof. induction l as [|x l IH]; intros o; cbn; auto. rewrite Nat.eqb_sym. destruct (Nat.eqb o x); cbn; rewrite IH; reflexivity. Qed.
Lemma owners_own : forall s o, owners s o = own s [] o.
Proof. intros s o. unfold owners, own. rewrite slots_filter, occ_filter. cbn. lia. Qed.

(** No sequence of operations deletes an object twice. *)
Theorem C43_no_double_delete : forall n l, exists s, run l (init n) = Some s.
Proof. intros n l. destruct (run_ok l (init n) (init_Inv n)) as (s & E & _). eauto. Qed.
Print Assumptions C43_no_double_delete.

(** Every object has exactly one owner, or was deleted exactly once. *)
Theorem C43_one_owner : forall n l s, run l (init n) = Some s ->
  (forall o, o < length (live s) ->
     (nth_error (live s) o = Some true /\ owners s o = 1 /\ ~ In o (deleted s)) \/
     (nth_error (live s) o = Some false /\ owners s o = 0 /\ In o (deleted s))) /\
  (forall o, length (live s) <= o -> owners s o = 0 /\ ~ In o (deleted s)) /\
  NoDup (deleted s).
Proof.
  intros n l s E. destruct (run_ok l (init n) (init_Inv n)) as (s' & E' & I & _). rewrite E in E'. injection E' as <-.
  split; [|split].
  - intros o L. specialize (I o). rewrite owners_own, <- occ_In. destruct (nth_error (live s) o) as [[|]|] eqn:H.
    + left. split; [reflexivity|lia].
    + right. split; [reflexivity|lia].
    + apply nth_error_None in H. lia.
  - intros o L. specialize (I o). rewrite owners_own, <- occ_In. rewrite (proj2 (nth_error_None _ o)) in I by lia. lia.
  - apply occ_NoDup. intros o. specialize (I o). destruct (nth_error (live s) o) as [[|]|]; lia.
Qed.
Print Assumptions C43_one_owner.

(** The variables hold what plain pointers with ownership transfer would hold. *)
Theorem C43_values : forall n l s, run l (init n) = Some s ->
  pview s = fold_left (fun p x => pstep x p) l (repeat None n, [], 0).
Proof.
  intros n l s E. destruct (run_ok l (init n) (init_Inv n)) as (s' & E' & _ & V). rewrite E in E'. injection E' as <-. exact V.
Qed.
Print Assumptions C43_values.

Example C43_example :
  match run [Create 0; Move 1 0; Move 1 1; Create 1; Create 0; DetachRaw 0; AttachRaw 1 0; Create 0; Move 0 1] (init 2) with
  | Some s => vars s = [Some 2; None] /\ deleted s = [3; 1; 0]
  | None => False
  end.
Proof. vm_compute. repeat split. Qed.
