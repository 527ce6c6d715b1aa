(** C41: RefPtr keeps the count equal to the number of holders. *)
From Coq Require Import Lia Bool List Arith.
From Verif Require Import Slots SlotsProofs RefPtrModel.
Import ListNotations.

(** * Specification
    The holders of object [o]: the variables that point to it and the detached raw pointers. *)
Definition holders (s : st) (o : nat) : nat :=
  length (filter (fun p => eqp p (Some o)) (vars s)) + length (filter (Nat.eqb o) (raws s)).

(** What the operations do to plain pointers: (variables, detached pointers, number of objects
    created). *)
Definition pstate : Type := list (option nat) * list nat * nat.
Definition pstep (x : op) (s : pstate) : pstate :=
  let '(vs, rs, n) := s in
  let ok v := Nat.ltb v (length vs) in
  match x with
  | Create v => if ok v then (set vs v (Some n), rs, S n) else s
  | CopyCtor v w | RawCtor v w => if ok v && ok w && negb (Nat.eqb v w) then (set vs v (get vs w), rs, n) else s
  | Assign v w | AssignRaw v w => if ok v && ok w then (set vs v (get vs w), rs, n) else s
  | MoveCtor v w => if ok v && ok w && negb (Nat.eqb v w) then (set (set vs w None) v (get vs w), rs, n) else s
  | Move v w => if ok v && ok w then (set (set vs w None) v (get vs w), rs, n) else s
  | Dtor v | AssignNull v | Reset v => if ok v then (set vs v None, rs, n) else s
  | AttachRaw v k =>
      if ok v then match nth_error rs k with Some o => (set vs v (Some o), del rs k, n) | None => s end else s
  | DetachRaw v =>
      if ok v then (set vs v None, match get vs v with Some o => o :: rs | None => rs end, n) else s
  | ReleaseRaw k => match nth_error rs k with Some o => (vs, del rs k, n) | None => s end
  end.
Definition pview (s : st) : pstate := (vars s, raws s, length (objs s)).

(** * Invariant: [T] are references held by running code *)
Definition own (s : st) (T : list nat) (o : nat) : nat := slots (vars s) o + occ (raws s) o + occ T o.
Definition Inv (s : st) (T : list nat) : Prop :=
  forall o, match nth_error (objs s) o with
            | Some (Some n) => 0 < n /\ n = own s T o /\ occ (dtors s) o = 0
            | Some None => own s T o = 0 /\ occ (dtors s) o = 1
            | None => own s T o = 0 /\ occ (dtors s) o = 0
            end.

Lemma AddRef_ok : forall s T o, Inv s T -> 0 < own s T o ->
  exists s', AddRef o s = Some s' /\ Inv s' (o :: T) /\ pview s' = pview s.
Proof.
  intros s T o I P. unfold AddRef. pose proof (I o) as Io.
  destruct (nth_error (objs s) o) as [[n|]|] eqn:E; [|lia|lia].
  eexists. split; [reflexivity|]. assert (L : o < length (objs s)) by (apply nth_error_Some; congruence). split.
  - intros u. cbn [objs]. unfold own in *. cbn [vars raws dtors occ]. destruct (Nat.eqb_spec o u) as [<-|N].
    + rewrite nth_set_eq by exact L. lia.
    + rewrite nth_set_neq by exact N. apply I.
  - unfold pview. cbn. rewrite set_length. reflexivity.
Qed.

Lemma Release_ok : forall s T o, Inv s (o :: T) ->
  exists s', Release o s = Some s' /\ Inv s' T /\ pview s' = pview s.
Proof.
  intros s T o I. unfold Release. pose proof (I o) as Io. unfold own in Io. cbn [occ] in Io. rewrite Nat.eqb_refl in Io.
  destruct (nth_error (objs s) o) as [[[|n]|]|] eqn:E; [lia| |lia|lia].
  assert (L : o < length (objs s)) by (apply nth_error_Some; congruence).
  destruct (Nat.eqb_spec n 0) as [Z|Z]; eexists; (split; [reflexivity|]); split.
  - intros u. specialize (I u). unfold own in *. cbn [vars raws objs dtors occ] in *. destruct (Nat.eq_dec o u) as [e|N].
    + subst u. rewrite Nat.eqb_refl in *. rewrite nth_set_eq by exact L. lia.
    + rewrite (proj2 (Nat.eqb_neq o u) N) in *. rewrite nth_set_neq by exact N. exact I.
  - unfold pview. cbn. rewrite set_length. reflexivity.
  - intros u. specialize (I u). unfold own in *. cbn [vars raws objs dtors occ] in *. destruct (Nat.eq_dec o u) as [e|N].
    + subst u. rewrite Nat.eqb_refl in *. rewrite nth_set_eq by exact L. lia.
    + rewrite (proj2 (Nat.eqb_neq o u) N) in *. rewrite nth_set_neq by exact N. exact I.
  - unfold pview. cbn. rewrite set_length. reflexivity.
Qed.

(** Writing [p] into a variable: its old content becomes a loose reference. *)
Lemma setv_ok : forall s T v p, Inv s (tok p ++ T) -> v < length (vars s) -> Inv (setv v p s) (tok (get (vars s) v) ++ T).
Proof.
  intros s T v p I L o. specialize (I o). pose proof (slots_set (vars s) v p o L) as H.
  unfold own in *. cbn [vars raws objs dtors setv] in *. rewrite occ_app, occ_tok in *.
  destruct (nth_error (objs s) o) as [[n|]|]; lia.
Qed.

Lemma Release_setv : forall o v p s, Release o (setv v p s) = match Release o s with Some s' => Some (setv v p s') | None => None end.
Proof.
  intros o v p s. unfold Release, setv; cbn. destruct (nth_error (objs s) o) as [[[|n]|]|]; try reflexivity.
  destruct (Nat.eqb n 0); reflexivity.
Qed.

Lemma Attach_ok : forall s T v p, Inv s (tok p ++ T) -> v < length (vars s) ->
  exists s', Attach v p s = Some s' /\ Inv s' T /\ pview s' = (set (vars s) v p, raws s, length (objs s)).
Proof.
  intros s T v p I L. pose proof (setv_ok s T v p I L) as I'. unfold Attach.
  destruct (get (vars s) v) as [o|]; cbn [opt_ref tok app] in *.
  - destruct (Release_ok _ _ _ I') as (s1 & R & I1 & V1). rewrite Release_setv in R.
    destruct (Release o s) as [s2|]; [|discriminate]. injection R as <-. eexists. split; [reflexivity|]. split; [exact I1|exact V1].
  - eexists. split; [reflexivity|]. split; [exact I'|reflexivity].
Qed.

Lemma dtor_Attach : forall v s, dtor v s = Attach v None s.
Proof. reflexivity. Qed.

Lemma pview_eq : forall s a b c, pview s = (a, b, c) -> vars s = a /\ raws s = b /\ length (objs s) = c.
Proof. intros s a b c H. unfold pview in H. inversion H. auto. Qed.

Lemma Clone_ok : forall s T w, Inv s T ->
  exists s', opt_ref AddRef (get (vars s) w) s = Some s' /\ Inv s' (tok (get (vars s) w) ++ T) /\ pview s' = pview s.
Proof.
  intros s T w I. destruct (get (vars s) w) as [o|] eqn:G; cbn [opt_ref tok app].
  - apply AddRef_ok; [exact I|]. apply slots_get in G. unfold own. lia.
  - exists s. auto.
Qed.

Lemma ltb_t : forall v n, Nat.ltb v n = true -> v < n. Proof. intros. apply Nat.ltb_lt. assumption. Qed.
Ltac oks := repeat match goal with
  | H : (_ && _)%bool = true |- _ => apply andb_true_iff in H as [? ?]
  | H : Nat.ltb _ _ = true |- _ => apply ltb_t in H
  | H : negb _ = true |- _ => apply negb_true_iff in H
  | H : Nat.eqb _ _ = false |- _ => apply Nat.eqb_neq in H
  end.

Lemma step_ok : forall x s, Inv s [] -> exists s', step x s = Some s' /\ Inv s' [] /\ pview s' = pstep x (pview s).
Proof.
  intros x s I. unfold step, pstep, pview at 2. destruct x.
  - (* Create *)
    destruct (Nat.ltb v (length (vars s))) eqn:L; [|exists s; auto]. oks. unfold New.
    destruct (Attach_ok (ST (vars s) (raws s) (objs s ++ [Some 1]) (dtors s)) [] v (Some (length (objs s)))) as (s' & A & B & C).
    + intros o. specialize (I o). unfold own in *. cbn [vars raws objs dtors tok app occ] in *.
      destruct (Nat.eqb_spec (length (objs s)) o) as [<-|N].
      * rewrite nth_error_app2, Nat.sub_diag by lia. cbn.
        replace (nth_error (objs s) (length (objs s))) with (@None (option nat)) in I by (symmetry; apply nth_error_None; lia). lia.
      * destruct (Nat.ltb_spec o (length (objs s))).
        -- rewrite nth_error_app1 by lia. exact I.
        -- rewrite (proj2 (nth_error_None _ o)) in I by lia. rewrite (proj2 (nth_error_None _ o)); [exact I|]. rewrite app_length. cbn. lia.
    + exact L.
    + exists s'. split; [exact A|]. split; [exact B|]. rewrite C. cbn. rewrite app_length. cbn. f_equal. lia.
  - (* CopyCtor *)
    destruct (Nat.ltb v _ && Nat.ltb w _ && negb (Nat.eqb v w)) eqn:L; [|exists s; auto]. oks.
    rewrite dtor_Attach. destruct (Attach_ok s [] v None I H) as (s1 & -> & I1 & V1). apply pview_eq in V1 as (V1 & V2 & V3).
    unfold Clone. destruct (Clone_ok s1 [] w I1) as (s2 & -> & I2 & W). apply pview_eq in W as (W1 & W2 & W3).
    assert (G1 : get (vars s1) w = get (vars s) w) by (rewrite V1; apply get_set_neq; congruence).
    assert (G2 : get (vars s2) v = None) by (rewrite W1, V1; apply get_set_eq, H).
    eexists. split; [reflexivity|]. split.
    + pose proof (setv_ok s2 [] v _ I2) as Q. rewrite G2 in Q. apply Q. rewrite W1, V1, set_length. exact H.
    + unfold pview, setv; cbn. rewrite W1, W2, W3, V1, V2, V3, set_set. rewrite get_set_neq by congruence. reflexivity.
  - (* RawCtor *)
    destruct (Nat.ltb v _ && Nat.ltb w _ && negb (Nat.eqb v w)) eqn:L; [|exists s; auto]. oks.
    rewrite dtor_Attach. destruct (Attach_ok s [] v None I H) as (s1 & -> & I1 & V1). apply pview_eq in V1 as (V1 & V2 & V3).
    destruct (Clone_ok s1 [] w I1) as (s2 & E2 & I2 & W). apply pview_eq in W as (W1 & W2 & W3).
    assert (C : forall p, opt_ref AddRef p (setv v p s1) = match opt_ref AddRef p s1 with Some s' => Some (setv v p s') | None => None end).
    { intros [o|]; [|reflexivity]. unfold opt_ref, AddRef, setv; cbn. destruct (nth_error (objs s1) o) as [[|]|]; reflexivity. }
    rewrite C, E2.
    assert (G2 : get (vars s2) v = None) by (rewrite W1, V1; apply get_set_eq, H).
    eexists. split; [reflexivity|]. split.
    + pose proof (setv_ok s2 [] v _ I2) as Q. rewrite G2 in Q. apply Q. rewrite W1, V1, set_length. exact H.
    + unfold pview, setv; cbn. rewrite W1, W2, W3, V1, V2, V3, set_set. rewrite get_set_neq by congruence. reflexivity.
  - (* MoveCtor *)
    destruct (Nat.ltb v _ && Nat.ltb w _ && negb (Nat.eqb v w)) eqn:L; [|exists s; auto]. oks.
    rewrite dtor_Attach. destruct (Attach_ok s [] v None I H) as (s1 & -> & I1 & V1). apply pview_eq in V1 as (V1 & V2 & V3).
    unfold Detach. eexists. split; [reflexivity|].
    assert (Lw : w < length (vars s1)) by (rewrite V1, set_length; assumption).
    pose proof (setv_ok s1 [] w None I1 Lw) as I2. split.
    + pose proof (setv_ok (setv w None s1) [] v (get (vars s1) w) I2) as Q.
      assert (G : get (vars (setv w None s1)) v = None).
      { cbn. rewrite get_set_neq by congruence. rewrite V1. apply get_set_eq, H. }
      rewrite G in Q. apply Q. cbn. rewrite set_length, V1, set_length. exact H.
    + unfold pview, setv; cbn. rewrite V1, V2, V3. rewrite get_set_neq by congruence. f_equal. f_equal.
      rewrite (set_swap _ (vars s) v w None None) by congruence. apply set_set.
  - (* Dtor *)
    destruct (Nat.ltb v (length (vars s))) eqn:L; [|exists s; auto]. oks. rewrite dtor_Attach. apply Attach_ok; assumption.
  - (* Assign *)
    destruct (Nat.ltb v _ && Nat.ltb w _) eqn:L; [|exists s; auto]. oks. unfold Clone.
    destruct (Clone_ok s [] w I) as (s1 & -> & I1 & V1). apply pview_eq in V1 as (V1 & V2 & V3).
    destruct (Attach_ok s1 [] v (get (vars s) w) I1) as (s2 & E & I2 & W); [rewrite V1; assumption|].
    exists s2. split; [exact E|]. split; [exact I2|]. rewrite W, V1, V2, V3. reflexivity.
  - (* AssignRaw *)
    destruct (Nat.ltb v _ && Nat.ltb w _) eqn:L; [|exists s; auto]. oks.
    destruct (Clone_ok s [] w I) as (s1 & -> & I1 & V1). apply pview_eq in V1 as (V1 & V2 & V3).
    destruct (Attach_ok s1 [] v (get (vars s) w) I1) as (s2 & E & I2 & W); [rewrite V1; assumption|].
    exists s2. split; [exact E|]. split; [exact I2|]. rewrite W, V1, V2, V3. reflexivity.
  - (* AssignNull *)
    destruct (Nat.ltb v (length (vars s))) eqn:L; [|exists s; auto]. oks. apply Attach_ok; assumption.
  - (* Move *)
    destruct (Nat.ltb v _ && Nat.ltb w _) eqn:L; [|exists s; auto]. oks. unfold Detach.
    pose proof (setv_ok s [] w None I) as I1. cbn [tok app] in I1. specialize (I1 ltac:(assumption)).
    destruct (Attach_ok (setv w None s) [] v (get (vars s) w) I1) as (s2 & E & I2 & W); [cbn; rewrite set_length; assumption|].
    exists s2. split; [exact E|]. split; [exact I2|]. rewrite W. reflexivity.
  - (* AttachRaw *)
    destruct (Nat.ltb v (length (vars s))) eqn:L; [|exists s; auto]. oks.
    destruct (nth_error (raws s) k) as [o|] eqn:K; [|exists s; auto].
    destruct (Attach_ok (ST (vars s) (del (raws s) k) (objs s) (dtors s)) [] v (Some o)) as (s2 & E & I2 & W).
    + intros u. specialize (I u). pose proof (occ_del (raws s) k o u K) as D.
      unfold own in *. cbn [vars raws objs dtors tok app occ pt] in *. destruct (nth_error (objs s) u) as [[n|]|]; lia.
    + exact L.
    + exists s2. auto.
  - (* Reset *)
    destruct (Nat.ltb v (length (vars s))) eqn:L; [|exists s; auto]. oks. apply Attach_ok; assumption.
  - (* DetachRaw *)
    destruct (Nat.ltb v (length (vars s))) eqn:L; [|exists s; auto]. oks. unfold Detach.
    pose proof (setv_ok s [] v None I L) as I1. eexists. split; [reflexivity|].
    destruct (get (vars s) v) as [o|]; [|split; [exact I1|reflexivity]]. split; [|reflexivity].
    intros u. specialize (I1 u). unfold own in *. cbn [vars raws objs dtors setv tok app occ] in *.
    destruct (nth_error (objs s) u) as [[n|]|]; lia.
  - (* ReleaseRaw *)
    destruct (nth_error (raws s) k) as [o|] eqn:K; [|exists s; auto].
    destruct (Release_ok (ST (vars s) (del (raws s) k) (objs s) (dtors s)) [] o) as (s2 & E & I2 & W).
    + intros u. specialize (I u). pose proof (occ_del (raws s) k o u K) as D.
      unfold own in *. cbn [vars raws objs dtors tok app occ pt] in *. destruct (nth_error (objs s) u) as [[n|]|]; lia.
    + exists s2. auto.
Qed.

Lemma run_ok : forall l s, Inv s [] -> exists s', run l s = Some s' /\ Inv s' [] /\ pview s' = fold_left (fun p x => pstep x p) l (pview s).
Proof.
  induction l as [|x l IH]; intros s I; cbn [run fold_left].
  - exists s. auto.
  - destruct (step_ok x s I) as (s1 & -> & I1 & V1). rewrite <- V1. apply IH, I1.
Qed.
Lemma init_Inv : forall n, Inv (init n) [].
Proof. intros n o. unfold own. cbn. rewrite slots_repeat. destruct o; cbn; auto. Qed.

Lemma slots_filter : forall l o, slots l o = length (filter (fun p => eqp p (Some o)) l).
Proof.
  induction l as [|[x|] l IH]; intros o; cbn; auto. destruct (Nat.eqb x o); cbn; rewrite IH; reflexivity.
Qed.
Lemma occ_filter : forall l o, occ l o = length (filter (Nat.eqb o) l).
Proof.
  induction l as [|x l IH]; intros o; cbn; auto. rewrite Nat.eqb_sym. destruct (Nat.eqb o x); cbn; rewrite IH; reflexivity.
Qed.
Lemma holders_own : forall s o, holders s o = own s [] o.
Proof. intros s o. unfold holders, own. rewrite slots_filter, occ_filter. cbn. lia. Qed.

(** No sequence of operations touches a dead object. *)
Theorem C41_no_dead_access : forall n l, exists s, run l (init n) = Some s.
Proof. intros n l. destruct (run_ok l (init n) (init_Inv n)) as (s & E & _). eauto. Qed.
Print Assumptions C41_no_dead_access.

(** The count of every living object is the number of its holders; an object lives exactly as
    long as it has holders, and its destructor runs exactly once. *)
Theorem C41_count : forall n l s, run l (init n) = Some s ->
  (forall o c, nth_error (objs s) o = Some (Some c) -> c = holders s o /\ 0 < c) /\
  (forall o, o < length (objs s) -> (nth_error (objs s) o = Some None <-> holders s o = 0)) /\
  NoDup (dtors s) /\
  (forall o, In o (dtors s) <-> nth_error (objs s) o = Some None).
Proof.
  intros n l s E. destruct (run_ok l (init n) (init_Inv n)) as (s' & E' & I & _). rewrite E in E'. injection E' as <-.
  split; [|split; [|split]].
  - intros o c H. specialize (I o). rewrite H in I. rewrite holders_own. lia.
  - intros o L. specialize (I o). rewrite holders_own. destruct (nth_error (objs s) o) as [[c|]|] eqn:H.
    + split; [discriminate|lia].
    + split; [lia|reflexivity].
    + apply nth_error_None in H. lia.
  - apply occ_NoDup. intros o. specialize (I o). destruct (nth_error (objs s) o) as [[c|]|]; lia.
  - intros o. rewrite <- occ_In. specialize (I o). destruct (nth_error (objs s) o) as [[c|]|]; split; intros; try discriminate; try lia; reflexivity.
Qed.
Print Assumptions C41_count.

(** The variables hold what plain pointers would hold. *)
Theorem C41_values : forall n l s, run l (init n) = Some s ->
  pview s = fold_left (fun p x => pstep x p) l (repeat None n, [], 0).
Proof.
  intros n l s E. destruct (run_ok l (init n) (init_Inv n)) as (s' & E' & _ & V). rewrite E in E'. injection E' as <-. exact V.
Qed.
Print Assumptions C41_values.

(** Two holders of one object, one of them moved to itself; a second object released. *)
Example C41_example :
  match run [Create 0; Assign 1 0; Move 1 1; Create 2; DetachRaw 2; ReleaseRaw 0; Assign 0 0; AssignRaw 0 1] (init 3) with
  | Some s => holders s 0 = 2 /\ nth_error (objs s) 0 = Some (Some 2) /\ dtors s = [1]
  | None => False
  end.
Proof. vm_compute. repeat split. Qed.
