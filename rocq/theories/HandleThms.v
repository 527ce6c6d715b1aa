(** C44: Handle: every open handle has exactly one owner, copies own handles of their own. *)
From Coq Require Import Lia Bool List Arith.
From Verif Require Import Slots SlotsProofs HandleModel.
Import ListNotations.

(** * Specification *)
Definition owners (s : st) (h : nat) : nat :=
  length (filter (fun p => eqp p (Some h)) (vars s)) + length (filter (Nat.eqb h) (raws s)).
(** The plain contents: variables, detached handles. *)
Definition pstate : Type := list (option nat) * list nat.
Definition held (h : nat) (s : pstate) : bool := existsb (fun p => eqp p (Some h)) (fst s) || existsb (Nat.eqb h) (snd s).
(** What a copy of a handle is: a new handle, or none if there is nothing to copy or the
    operating system refuses. *)
Definition fresh (p new : option nat) (s : pstate) : option nat :=
  match p, new with Some _, Some h => if held h s then None else Some h | _, _ => None end.
Definition pstep (x : op) (s : pstate) : pstate :=
  let (vs, rs) := s in
  let ok v := Nat.ltb v (length vs) in
  match x with
  | Open h => if held h s then s else (vs, h :: rs)
  | RawCtor v k | AssignRaw v k =>
      if ok v then match nth_error rs k with Some o => (set vs v (Some o), del rs k) | None => s end else s
  | CopyCtor v w new =>
      if ok v && ok w && negb (Nat.eqb v w) then (set vs v (fresh (get vs w) new (set vs v None, rs)), rs) else s
  | Assign v w new => if ok v && ok w then (set vs v (fresh (get vs w) new s), rs) else s
  | MoveCtor v w | Move v w =>
      if ok v && ok w && negb (Nat.eqb v w) then (set (set vs w None) v (get vs w), rs) else s
  | Dtor v => if ok v then (set vs v None, rs) else s
  | DetachRaw v => if ok v then (set vs v None, match get vs v with Some o => o :: rs | None => rs end) else s
  | CloseRaw k => match nth_error rs k with Some _ => (vs, del rs k) | None => s end
  end.
Definition pview (s : st) : pstate := (vars s, raws s).

Definition own (s : st) (T : list nat) (o : nat) : nat := slots (vars s) o + occ (raws s) o + occ T o.
Definition Inv (s : st) (T : list nat) : Prop := forall h, own s T h = occ (opened s) h /\ occ (opened s) h <= 1.

Lemma mem_occ : forall h l, mem h l = true <-> 0 < occ l h.
Proof.
  intros h l. rewrite occ_In. unfold mem. rewrite existsb_exists. split.
  - intros (x & A & B). apply Nat.eqb_eq in B. congruence.
  - intros A. exists h. split; [exact A|apply Nat.eqb_refl].
Qed.
Lemma mem_f : forall h l, mem h l = false -> occ l h = 0.
Proof. intros h l H. destruct (occ l h) eqn:E; [reflexivity|]. assert (mem h l = true) by (apply mem_occ; lia). congruence. Qed.
Lemma occ_remove : forall l h u, occ (remove Nat.eq_dec h l) u = if Nat.eqb h u then 0 else occ l u.
Proof.
  induction l as [|x l IH]; intros h u; cbn; [destruct (Nat.eqb h u); reflexivity|].
  destruct (Nat.eq_dec h x) as [<-|N].
  - rewrite IH. destruct (Nat.eqb h u); reflexivity.
  - cbn. rewrite IH. destruct (Nat.eqb_spec h u) as [<-|]; [|reflexivity].
    rewrite (proj2 (Nat.eqb_neq x h)) by congruence. reflexivity.
Qed.
Lemma Close_ok : forall s T h, Inv s (h :: T) -> exists s', CloseHandle h s = Some s' /\ Inv s' T /\ pview s' = pview s.
Proof.
  intros s T h I. unfold CloseHandle. pose proof (I h) as Ih. unfold own in Ih. cbn [occ] in Ih. rewrite Nat.eqb_refl in Ih.
  rewrite (proj2 (mem_occ h (opened s))) by lia. eexists. split; [reflexivity|]. split; [|reflexivity].
  intros u. specialize (I u). unfold own in *. cbn [vars raws opened occ] in *. rewrite occ_remove.
  destruct (Nat.eq_dec h u) as [e|N].
  - subst u. rewrite Nat.eqb_refl in *. lia.
  - rewrite (proj2 (Nat.eqb_neq h u) N) in *. exact I.
Qed.
Lemma setv_ok : forall s T v p, Inv s (tok p ++ T) -> v < length (vars s) -> Inv (setv v p s) (tok (get (vars s) v) ++ T).
Proof.
  intros s T v p I L o. specialize (I o). pose proof (slots_set (vars s) v p o L) as H.
  unfold own in *. cbn [vars raws opened setv] in *. rewrite occ_app, occ_tok in *. lia.
Qed.
Lemma Close_setv : forall o v p s, CloseHandle o (setv v p s) = match CloseHandle o s with Some s' => Some (setv v p s') | None => None end.
Proof. intros o v p s. unfold CloseHandle, setv; cbn [opened]. destruct (mem o (opened s)); reflexivity. Qed.
Lemma Release_ok : forall s T v, Inv s T -> v < length (vars s) ->
  exists s', Release v s = Some s' /\ Inv s' T /\ pview s' = (set (vars s) v None, raws s).
Proof.
  intros s T v I L. pose proof (setv_ok s T v None I L) as I'. unfold Release.
  destruct (get (vars s) v) as [o|] eqn:G; cbn [tok app] in *.
  - destruct (Close_ok _ _ _ I') as (s1 & R & I1 & V1). rewrite Close_setv in R.
    destruct (CloseHandle o s) as [s2|]; [|discriminate]. injection R as <-. eexists. split; [reflexivity|]. split; [exact I1|exact V1].
  - exists s. split; [reflexivity|]. split; [exact I|]. unfold pview. rewrite <- G, set_get. reflexivity.
Qed.
Lemma pview_eq : forall s a b, pview s = (a, b) -> vars s = a /\ raws s = b.
Proof. intros s a b H. unfold pview in H. inversion H. auto. Qed.
Lemma Attach_ok : forall s T v p, Inv s (tok p ++ T) -> v < length (vars s) ->
  exists s', Attach v p s = Some s' /\ Inv s' T /\ pview s' = (set (vars s) v p, raws s).
Proof.
  intros s T v p I L. unfold Attach. destruct (eqp (get (vars s) v) p) eqn:Q.
  - apply eqp_iff in Q. subst p. exists s. split; [reflexivity|]. split; [|unfold pview; rewrite set_get; reflexivity].
    destruct (get (vars s) v) as [h|] eqn:G; cbn [tok app] in I; [|exact I].
    exfalso. apply slots_get in G. specialize (I h). unfold own in I. cbn [occ] in I. rewrite Nat.eqb_refl in I. lia.
  - destruct (Release_ok s (tok p ++ T) v I L) as (s1 & -> & I1 & V1). apply pview_eq in V1 as (V1 & V2).
    eexists. split; [reflexivity|]. split; [|unfold pview, setv; cbn; rewrite V1, V2, set_set; reflexivity].
    pose proof (setv_ok s1 T v p I1) as Z. rewrite V1, get_set_eq in Z by exact L. apply Z. rewrite set_length. exact L.
Qed.

Lemma held_mem : forall s h, Inv s [] -> held h (pview s) = mem h (opened s).
Proof.
  intros s h I. specialize (I h). unfold own in I. cbn [occ] in I.
  assert (A : held h (pview s) = true <-> 0 < slots (vars s) h + occ (raws s) h).
  { unfold held, pview; cbn [fst snd]. rewrite orb_true_iff. change (existsb (Nat.eqb h) (raws s)) with (mem h (raws s)).
    rewrite mem_occ. rewrite existsb_exists. split.
    - intros [(p & A & B)|A]; [|lia]. apply eqp_iff in B. subst p. apply slots_In in A. lia.
    - intros A. destruct (slots (vars s) h) eqn:E; [right; lia|]. left. exists (Some h). split; [apply slots_In; lia|apply eqp_iff; reflexivity]. }
  apply eq_true_iff_eq. rewrite A, mem_occ. lia.
Qed.
Lemma Clone_ok : forall s w new p s', Inv s [] -> Clone w new s = (p, s') ->
  p = fresh (get (vars s) w) new (pview s) /\ Inv s' (tok p ++ []) /\ pview s' = pview s.
Proof.
  intros s w new p s' I. unfold Clone, fresh. destruct (get (vars s) w) as [o|]; [|intros E; injection E as <- <-; auto].
  destruct new as [h|]; [|intros E; injection E as <- <-; auto]. rewrite held_mem by exact I.
  destruct (mem h (opened s)) eqn:M; intros E; injection E as <- <-; [auto|]. split; [reflexivity|]. split; [|reflexivity].
  apply mem_f in M. intros u. specialize (I u). unfold own in *. cbn [vars raws opened tok app occ] in *.
  destruct (Nat.eqb_spec h u) as [<-|]; lia.
Qed.
Lemma ltb_t : forall v n, Nat.ltb v n = true -> v < n. Proof. intros. apply Nat.ltb_lt. assumption. Qed.
Ltac oks := repeat match goal with
  | H : (_ && _)%bool = true |- _ => apply andb_true_iff in H as [? ?]
  | H : Nat.ltb _ _ = true |- _ => apply ltb_t in H
  | H : negb _ = true |- _ => apply negb_true_iff in H
  | H : Nat.eqb _ _ = false |- _ => apply Nat.eqb_neq in H
  end.
Lemma del_ok : forall s k h T, Inv s T -> nth_error (raws s) k = Some h ->
  Inv (ST (vars s) (del (raws s) k) (opened s) (closed s)) (h :: T).
Proof.
  intros s k h T I K u. specialize (I u). pose proof (occ_del (raws s) k h u K) as D.
  unfold own in *. cbn [vars raws opened occ pt] in *. lia.
Qed.

Lemma step_ok : forall x s, Inv s [] -> exists s', step x s = Some s' /\ Inv s' [] /\ pview s' = pstep x (pview s).
Proof.
  intros x s I. unfold step, pstep, pview at 2. destruct x.
  - (* Open *)
    change (vars s, raws s) with (pview s). rewrite held_mem by exact I. destruct (mem h (opened s)) eqn:M; [exists s; auto|].
    eexists. split; [reflexivity|]. split; [|reflexivity]. apply mem_f in M. intros u. specialize (I u).
    unfold own in *. cbn [vars raws opened occ] in *. destruct (Nat.eqb_spec h u) as [<-|]; lia.
  - (* RawCtor *)
    destruct (Nat.ltb v (length (vars s))) eqn:L; [|exists s; auto]. oks.
    destruct (nth_error (raws s) k) as [o|] eqn:K; [|exists s; auto].
    destruct (Release_ok s [] v I L) as (s1 & -> & I1 & V1). apply pview_eq in V1 as (V1 & V2).
    eexists. split; [reflexivity|]. split.
    + rewrite <- V2 in K. pose proof (del_ok s1 k o [] I1 K) as I2.
      pose proof (setv_ok _ [] v (Some o) I2) as Q. cbn [vars] in Q. rewrite V1, get_set_eq in Q by exact L. rewrite <- V1 in Q. apply Q.
      rewrite V1, set_length. exact L.
    + unfold pview, setv; cbn. rewrite V1, V2, set_set. reflexivity.
  - (* CopyCtor *)
    destruct (Nat.ltb v _ && Nat.ltb w _ && negb (Nat.eqb v w)) eqn:L; [|exists s; auto]. oks.
    destruct (Release_ok s [] v I H) as (s1 & -> & I1 & V1). pose proof V1 as V0. apply pview_eq in V1 as (V1 & V2).
    destruct (Clone w new s1) as (p & s2) eqn:C. apply Clone_ok in C as (P & I2 & W); [|exact I1].
    rewrite V0 in P. rewrite V1, get_set_neq in P by congruence. rewrite V0 in W. apply pview_eq in W as (W1 & W2).
    eexists. split; [reflexivity|]. split.
    + pose proof (setv_ok s2 [] v p I2) as Q. rewrite W1, get_set_eq in Q by exact H. apply Q. rewrite set_length. exact H.
    + unfold pview, setv; cbn. rewrite W1, W2, set_set, P. reflexivity.
  - (* MoveCtor *)
    destruct (Nat.ltb v _ && Nat.ltb w _ && negb (Nat.eqb v w)) eqn:L; [|exists s; auto]. oks.
    destruct (Release_ok s [] v I H) as (s1 & -> & I1 & V1). apply pview_eq in V1 as (V1 & V2).
    unfold Detach. eexists. split; [reflexivity|].
    assert (Lw : w < length (vars s1)) by (rewrite V1, set_length; assumption).
    pose proof (setv_ok s1 [] w None I1 Lw) as I2. split.
    + pose proof (setv_ok (setv w None s1) [] v (get (vars s1) w) I2) as Q.
      assert (G : get (vars (setv w None s1)) v = None).
      { cbn. rewrite get_set_neq by congruence. rewrite V1. apply get_set_eq, H. }
      rewrite G in Q. apply Q. cbn. rewrite set_length, V1, set_length. exact H.
    + unfold pview, setv; cbn. rewrite V1, V2. rewrite get_set_neq by congruence. f_equal.
      rewrite (set_swap _ (vars s) v w None None) by congruence. apply set_set.
  - (* Dtor *)
    destruct (Nat.ltb v (length (vars s))) eqn:L; [|exists s; auto]. oks. apply Release_ok; assumption.
  - (* Assign *)
    destruct (Nat.ltb v _ && Nat.ltb w _) eqn:L; [|exists s; auto]. oks.
    destruct (Clone w new s) as (p & s2) eqn:C. apply Clone_ok in C as (P & I2 & W); [|exact I].
    apply pview_eq in W as (W1 & W2).
    destruct (Attach_ok s2 [] v p I2) as (s3 & E & I3 & V3); [rewrite W1; assumption|].
    exists s3. split; [exact E|]. split; [exact I3|]. rewrite V3, W1, W2, P. reflexivity.
  - (* AssignRaw *)
    destruct (Nat.ltb v (length (vars s))) eqn:L; [|exists s; auto]. oks.
    destruct (nth_error (raws s) k) as [o|] eqn:K; [|exists s; auto].
    destruct (Attach_ok _ [] v (Some o) (del_ok s k o [] I K)) as (s2 & E & I2 & W); [exact L|]. exists s2. auto.
  - (* Move *)
    destruct (Nat.ltb v _ && Nat.ltb w _) eqn:L; cbn [andb]; [|exists s; auto]. oks. unfold Detach.
    pose proof (setv_ok s [] w None I ltac:(assumption)) as I1.
    destruct (Attach_ok (setv w None s) [] v (get (vars s) w) I1) as (s2 & E & I2 & W); [cbn; rewrite set_length; assumption|].
    exists s2. split; [exact E|]. split; [exact I2|]. rewrite W. cbn [vars raws setv].
    destruct (Nat.eqb_spec v w) as [<-|N]; [|reflexivity]. cbn. rewrite set_set, set_get. reflexivity.
  - (* DetachRaw *)
    destruct (Nat.ltb v (length (vars s))) eqn:L; [|exists s; auto]. oks. unfold Detach.
    pose proof (setv_ok s [] v None I L) as I1. eexists. split; [reflexivity|].
    destruct (get (vars s) v) as [o|]; [|split; [exact I1|reflexivity]]. split; [|reflexivity].
    intros u. specialize (I1 u). unfold own in *. cbn [vars raws opened setv tok app occ] in *. lia.
  - (* CloseRaw *)
    destruct (nth_error (raws s) k) as [o|] eqn:K; [|exists s; auto].
    destruct (Close_ok _ [] o (del_ok s k o [] I K)) as (s2 & E & I2 & W). exists s2. auto.
Qed.
Lemma run_ok : forall l s, Inv s [] -> exists s', run l s = Some s' /\ Inv s' [] /\ pview s' = fold_left (fun p x => pstep x p) l (pview s).
Proof.
  induction l as [|x l IH]; intros s I; cbn [run fold_left].
  - exists s. auto.
  - destruct (step_ok x s I) as (s1 & -> & I1 & V1). rewrite <- V1. apply IH, I1.
Qed.
Lemma init_Inv : forall n, Inv (init n) [].
Proof. intros n o. unfold own. cbn. rewrite slots_repeat. auto. Qed.
Lemma slots_filter : forall l o, slots l o = length (filter (fun p => eqp p (Some o)) l).
Proof. induction l as [|[x|] l IH]; intros o; cbn; auto. destruct (Nat.eqb x o); cbn; rewrite IH; reflexivity. Qed.
Lemma occ_filter : forall l o, occ l o = length (filter (Nat.eqb o) l).
Proof. induction l as [|x l IH]; intros o; cbn; auto. rewrite Nat.eqb_sym. destruct (Nat.eqb o x); cbn; rewrite IH; reflexivity. Qed.
Lemma owners_own : forall s o, owners s o = own s [] o.
Proof. intros s o. unfold owners, own. rewrite slots_filter, occ_filter. cbn. lia. Qed.

(** No sequence of operations closes a handle that is not open. *)
Theorem C44_no_double_close : forall n l, exists s, run l (init n) = Some s.
Proof. intros n l. destruct (run_ok l (init n) (init_Inv n)) as (s & E & _). eauto. Qed.
Print Assumptions C44_no_double_close.

(** Every open handle has exactly one owner, every owned handle is open. *)
Theorem C44_one_owner : forall n l s, run l (init n) = Some s ->
  forall h, (In h (opened s) /\ owners s h = 1) \/ (~ In h (opened s) /\ owners s h = 0).
Proof.
  intros n l s E h. destruct (run_ok l (init n) (init_Inv n)) as (s' & E' & I & _). rewrite E in E'. injection E' as <-.
  specialize (I h). rewrite owners_own, <- occ_In. lia.
Qed.
Print Assumptions C44_one_owner.

(** Two variables never own the same handle; in particular a copy owns a handle of its own. *)
Theorem C44_distinct : forall n l s, run l (init n) = Some s ->
  forall v w h, nth_error (vars s) v = Some (Some h) -> nth_error (vars s) w = Some (Some h) -> v = w.
Proof.
  intros n l s E v w h A B. destruct (run_ok l (init n) (init_Inv n)) as (s' & E' & I & _). rewrite E in E'. injection E' as <-.
  destruct (Nat.eq_dec v w) as [|N]; [assumption|]. exfalso. specialize (I h). unfold own in I.
  assert (2 <= slots (vars s) h); [|lia]. clear - A B N.
  revert v w N A B. induction (vars s) as [|y r IH]; intros [|v] [|w] N A B; try discriminate; try congruence; cbn in A, B |- *.
  - injection A as ->. apply nth_error_In, slots_In in B. cbn. rewrite Nat.eqb_refl. lia.
  - injection B as ->. apply nth_error_In, slots_In in A. cbn. rewrite Nat.eqb_refl. lia.
  - assert (2 <= slots r h) by (apply (IH v w); congruence). lia.
Qed.
Print Assumptions C44_distinct.

Theorem C44_values : forall n l s, run l (init n) = Some s ->
  pview s = fold_left (fun p x => pstep x p) l (repeat None n, []).
Proof.
  intros n l s E. destruct (run_ok l (init n) (init_Inv n)) as (s' & E' & _ & V). rewrite E in E'. injection E' as <-. exact V.
Qed.
Print Assumptions C44_values.

Example C44_example :
  match run [Open 7; RawCtor 0 0; Assign 1 0 (Some 8); Assign 0 0 (Some 9); Move 1 1; Move 0 1; Open 9] (init 2) with
  | Some s => vars s = [Some 8; None] /\ opened s = [9; 8] /\ closed s = [9; 7]
  | None => False
  end.
Proof. vm_compute. repeat split. Qed.
