(** Invariants of the model of the current task runner. *)
From Coq Require Import List Bool Arith Lia.
From Verif Require Import Slots SlotsProofs CurrentModel.
Import ListNotations.

Definition runner (f : frame) : nat := match f with Job r | Loop r | Task r | Drop r | Late r => r end.
Definition late (f : frame) : bool := match f with Late _ => true | _ => false end.
Definition touches (r : nat) (th : thread) : Prop := weak th = Some r \/ exists f, In f (stack th) /\ runner f = r.

Lemma nth_set1 : forall A (l : list A) i j x y, nth_error (set l i x) j = Some y -> (i = j /\ y = x) \/ (i <> j /\ nth_error l j = Some y).
Proof.
  intros A l i j x y H. destruct (Nat.eq_dec i j) as [->|N].
  - destruct (Nat.ltb_spec j (length l)) as [L|L].
    + rewrite nth_set_eq in H by exact L. left. split; congruence.
    + assert (nth_error (set l j x) j = None) by (apply nth_error_None; rewrite set_length; exact L). congruence.
  - rewrite nth_set_neq in H by exact N. auto.
Qed.

Lemma nth_set2 : forall (l : list nat) i j x, nth j (set l i x) 0 = if (i =? j) && (j <? length l) then x else nth j l 0.
Proof.
  induction l as [|a l IH]; intros [|i] [|j] x; cbn; try reflexivity.
  - rewrite andb_false_r. reflexivity.
  - rewrite IH. reflexivity.
Qed.

(** Who keeps a runner alive. *)
Definition held (s : state) (r : nat) : Prop :=
  0 < nth r (users s) 0 \/ In r (jobs s) \/
  exists t th f, nth_error (ths s) t = Some th /\ In f (stack th) /\ holds r f = true.
Lemma alive_held : forall s r, alive s r = true <-> held s r.
Proof.
  intros s r. unfold alive, held. rewrite !orb_true_iff, Nat.ltb_lt, !existsb_exists. split.
  - intros [[H|(q & H & E)]|(th & H & E)].
    + auto.
    + apply Nat.eqb_eq in E. subst. auto.
    + apply existsb_exists in E. destruct E as (f & Hf & E). apply In_nth_error in H. destruct H as (t & H). right. right. exists t, th, f. auto.
  - intros [H|[H|(t & th & f & H & Hf & E)]].
    + auto.
    + left. right. exists r. split; [exact H|apply Nat.eqb_refl].
    + right. exists th. split; [eapply nth_error_In; exact H|]. apply existsb_exists. exists f. auto.
Qed.

Definition Inv (s : state) : Prop :=
  length (users s) = length (kinds s) /\
  (forall r, In r (jobs s) -> r < length (kinds s)) /\
  (forall t th r, nth_error (ths s) t = Some th -> touches r th -> r < length (kinds s)) /\
  (forall t th f, nth_error (ths s) t = Some th -> In f (stack th) -> late f = false -> alive s (runner f) = true -> weak th = Some (runner f)).

Lemma remove1_in : forall r q l, In q (remove1 r l) -> In q l.
Proof. induction l as [|a l IH]; cbn; [auto|]. destruct (a =? r); cbn; intuition. Qed.

Lemma holds_runner : forall r f, holds r f = true -> runner f = r.
Proof. intros r [q|q|q|q|q]; cbn; intros H; try discriminate; apply Nat.eqb_eq in H; exact H. Qed.

(** What one step changes: threads other than the acting one stay as they are, and an old
    runner that is dead stays dead. *)
Lemma Get_some : forall s th r, Get s th = Some r <-> weak th = Some r /\ alive s r = true.
Proof.
  intros s th r. unfold Get. destruct (weak th) as [q|]; [|split; [discriminate|intros [H _]; discriminate]].
  destruct (alive s q) eqn:E; split.
  - intros H; injection H as ->; auto.
  - intros [H _]; injection H as ->; reflexivity.
  - discriminate.
  - intros [H A]; injection H as ->; congruence.
Qed.

Ltac inv_step H :=
  repeat match type of H with
  | None = Some _ => discriminate H
  | Some _ = Some _ => injection H as <- <-
  | match ?x with _ => _ end = Some _ => let E := fresh "E" in destruct x eqn:E
  end.

(** A step, seen from one thread. *)
Inductive change (s : state) : state -> Prop :=
| ch_refs : forall u, (forall r, 0 < nth r u 0 -> alive s r = true) -> length u = length (users s) -> change s (St (kinds s) u (jobs s) (ths s))
| ch_same : change s s
| ch_create : forall k, change s (St (kinds s ++ [k]) (users s ++ [1]) (jobs s) (ths s))
| ch_create_job : forall k, change s (St (kinds s ++ [k]) (users s ++ [1]) (length (kinds s) :: jobs s) (ths s))
| ch_post : forall r, alive s r = true -> has_fixed (GetStyle (kind_of s r)) = false -> change s (St (kinds s) (users s) (r :: jobs s) (ths s))
| ch_bind : forall t th k, nth_error (ths s) t = Some th -> Get s th = None -> user_code th = true ->
    change s (St (kinds s ++ [k]) (users s ++ [1]) (jobs s) (set (ths s) t (Th (pool th) (Some (length (kinds s))) (stack th))))
| ch_push : forall t th f, nth_error (ths s) t = Some th -> late f = false -> (forall q, f <> Job q) ->
    (Get s th = Some (runner f) \/ exists g l, stack th = g :: l /\ holds (runner f) g = true /\ late g = false) -> change s (push s t th f)
| ch_job : forall t th r, nth_error (ths s) t = Some th -> stack th = [] -> pool th = true -> In r (jobs s) ->
    change s (St (kinds s) (users s) (remove1 r (jobs s)) (set (ths s) t (Th (pool th) (Some r) [Job r])))
| ch_pop : forall t th f l, nth_error (ths s) t = Some th -> stack th = f :: l -> change s (with_th s t (Th (pool th) (weak th) l))
| ch_end : forall t th r l, nth_error (ths s) t = Some th -> stack th = [Job r] -> (l = [] \/ l = [Late r]) -> change s (with_th s t (Th (pool th) None l)).

Lemma step_change : forall s e s' a, length (users s) = length (kinds s) -> step s e = Some (s', a) -> change s s'.
Proof.
  intros s e s' a HL H. destruct e; cbn [step] in H; inv_step H; try (apply ch_same); try (constructor; fail).
  - apply ch_refs; [|apply set_length]. intros q. rewrite nth_set2. destruct (Nat.eqb_spec r q) as [->|N]; cbn; [auto|].
    intros Hq. apply alive_held. left. exact Hq.
  - apply ch_refs; [|apply set_length]. intros q. rewrite nth_set2. destruct (Nat.eqb_spec r q) as [->|N]; cbn.
    + intros _. apply alive_held. left. lia.
    + intros Hq. apply alive_held. left. exact Hq.
  - apply andb_true_iff in E. destruct E as [E1 E2]. apply negb_true_iff in E2. apply ch_post; assumption.
  - apply ch_bind; auto. apply andb_true_iff in E0. destruct E0. assumption.
  - eapply ch_push; eauto; try discriminate. 
  - eapply ch_push; eauto; try discriminate.
  - eapply ch_push; eauto; try discriminate.
  - eapply ch_push; eauto; try discriminate.
  - eapply ch_push; eauto; try discriminate. left. cbn. destruct (Get s t0) as [q|]; [|discriminate]. apply Nat.eqb_eq in E1. congruence.
  - apply andb_true_iff in E1. destruct E1 as [E1 E2]. apply existsb_exists in E2. destruct E2 as (q & Hq & E2). apply Nat.eqb_eq in E2. subst q.
    eapply ch_job; eauto.
  - eapply ch_push; eauto; try discriminate. right. eexists _, _. repeat split; [exact E0|cbn; apply Nat.eqb_refl|reflexivity].
  - eapply ch_push; eauto; try discriminate. right. eexists _, _. repeat split; [exact E0|cbn; apply Nat.eqb_refl|reflexivity].
  - eapply ch_pop; eauto.
  - eapply ch_push; eauto; try discriminate. right. eexists _, _. repeat split; [exact E0|cbn; apply Nat.eqb_refl|reflexivity].
  - eapply ch_push; eauto; try discriminate. right. eexists _, _. repeat split; [exact E0|cbn; apply Nat.eqb_refl|reflexivity].
  - eapply ch_pop; eauto.
  - eapply ch_pop; eauto.
  - eapply ch_pop; eauto.
  - eapply ch_end; eauto. destruct (has_fixed (GetStyle (kind_of s r))); auto.
Qed.

Lemma nth_app1 : forall (u : list nat) r x, r < length u -> nth r (u ++ [x]) 0 = nth r u 0.
Proof. intros u r x H. apply app_nth1. exact H. Qed.

(** An old runner that is dead stays dead. *)
Lemma no_resurrection : forall s s' r, Inv s -> change s s' -> r < length (kinds s) -> alive s' r = true -> alive s r = true.
Proof.
  intros s s' r (IL & IJ & IT & IW) C Hr A. apply alive_held in A. apply alive_held.
  assert (F : forall P : Prop, held s r -> held s r) by auto. clear F.
  destruct C as [u Hu HL| |k|k|q Aq Fq|t th k Ht G U|t th f Ht Lf NJob Hf|t th q Ht Es Ep Hq|t th f l Ht Es|t th q l Ht Es Hl];
    unfold held in A; cbn in A.
  - destruct A as [A|A]; [apply alive_held; apply Hu; exact A|]. right. exact A.
  - exact A.
  - destruct A as [A|A]; [left; rewrite nth_app1 in A by lia; exact A|right; exact A].
  - destruct A as [A|[[A|A]|A]]; [left; rewrite nth_app1 in A by lia; exact A|lia|right; left; exact A|right; right; exact A].
  - destruct A as [A|[[A|A]|A]]; [left; exact A|subst q; apply alive_held; exact Aq|right; left; exact A|right; right; exact A].
  - destruct A as [A|[A|(t' & th' & f & Ht' & Hf & Ho)]]; [left; rewrite nth_app1 in A by lia; exact A|right; left; exact A|].
    right. right. apply nth_set1 in Ht'. destruct Ht' as [[-> ->]|[N Ht']]; cbn in *; eauto 8.
  - destruct A as [A|[A|(t' & th' & g & Ht' & Hg & Ho)]]; [left; exact A|right; left; exact A|].
    apply nth_set1 in Ht'. destruct Ht' as [[-> ->]|[N Ht']]; cbn in *; [|right; right; eauto 8].
    destruct Hg as [->|Hg]; [|right; right; eauto 8].
    apply holds_runner in Ho. rewrite Ho in Hf. destruct Hf as [Hf|(g' & l & Es & Hh & _)].
    + apply Get_some in Hf. apply alive_held. exact (proj2 Hf).
    + right. right. exists t', th, g'. rewrite Es. cbn. auto.
  - destruct A as [A|[A|(t' & th' & g & Ht' & Hg & Ho)]]; [left; exact A|right; left; eapply remove1_in; exact A|].
    apply nth_set1 in Ht'. destruct Ht' as [[-> ->]|[N Ht']]; cbn in *; [|right; right; eauto 8].
    destruct Hg as [<-|[]]. apply holds_runner in Ho. cbn in Ho. subst q. right. left. exact Hq.
  - destruct A as [A|[A|(t' & th' & g & Ht' & Hg & Ho)]]; [left; exact A|right; left; exact A|].
    apply nth_set1 in Ht'. destruct Ht' as [[-> ->]|[N Ht']]; cbn in *; [|right; right; eauto 8].
    right. right. exists t', th, g. rewrite Es. cbn. auto.
  - destruct A as [A|[A|(t' & th' & g & Ht' & Hg & Ho)]]; [left; exact A|right; left; exact A|].
    apply nth_set1 in Ht'. destruct Ht' as [[-> ->]|[N Ht']]; cbn in *; [|right; right; eauto 8].
    destruct Hl as [->| ->]; [destruct Hg|]. destruct Hg as [<-|[]]. apply holds_runner in Ho. cbn in Ho. subst q.
    right. right. exists t', th, (Job r). rewrite Es. cbn. rewrite Nat.eqb_refl. auto.
Qed.

(** A thread gets to do with an old runner only by taking its job. *)
Lemma new_touch : forall s s' t th' r, Inv s -> change s s' -> r < length (kinds s) ->
  nth_error (ths s') t = Some th' -> touches r th' ->
  (exists th, nth_error (ths s) t = Some th /\ touches r th) \/ (In r (jobs s) /\ jobs s' = remove1 r (jobs s)).
Proof.
  intros s s' t th' r (IL & IJ & IT & IW) C Hr Ht' T.
  destruct C as [u Hu HL| |k|k|q Aq Fq|u th k Ht G U|u th f Ht Lf NJob Hf|u th q Ht Es Ep Hq|u th f l Ht Es|u th q l Ht Es Hl]; cbn in Ht'; eauto.
  - apply nth_set1 in Ht'. destruct Ht' as [[-> ->]|[N Ht']]; [|eauto]. left. exists th. split; [exact Ht|].
    destruct T as [T|T]; cbn in T; [injection T as T; lia|right; exact T].
  - apply nth_set1 in Ht'. destruct Ht' as [[-> ->]|[N Ht']]; [|eauto]. left. exists th. split; [exact Ht|].
    destruct T as [T|(g & [<-|Hg] & Eg)]; cbn in *; [left; exact T| |right; eauto].
    rewrite Eg in Hf. destruct Hf as [Hf|(g' & l & Es & Hh & _)].
    + apply Get_some in Hf. left. exact (proj1 Hf).
    + right. exists g'. rewrite Es. split; [left; reflexivity|apply holds_runner; exact Hh].
  - apply nth_set1 in Ht'. destruct Ht' as [[-> ->]|[N Ht']]; [|eauto]. right. cbn.
    assert (q = r) as ->; [|auto]. destruct T as [T|(g & [<-|[]] & Eg)]; cbn in *; congruence.
  - apply nth_set1 in Ht'. destruct Ht' as [[-> ->]|[N Ht']]; [|eauto]. left. exists th. split; [exact Ht|].
    destruct T as [T|(g & Hg & Eg)]; cbn in *; [left; exact T|right]. exists g. rewrite Es. split; [right; exact Hg|exact Eg].
  - apply nth_set1 in Ht'. destruct Ht' as [[-> ->]|[N Ht']]; [|eauto]. left. exists th. split; [exact Ht|].
    destruct T as [T|(g & Hg & Eg)]; cbn in *; [discriminate|right]. destruct Hl as [->| ->]; [destruct Hg|].
    destruct Hg as [<-|[]]. exists (Job q). rewrite Es. split; [left; reflexivity|exact Eg].
Qed.

Lemma change_kinds : forall s s', change s s' -> exists l, kinds s' = kinds s ++ l.
Proof. intros s s' C. destruct C; try (exists []; rewrite app_nil_r; reflexivity); cbn; eauto. Qed.

Lemma inv_init : forall l, Inv (init l).
Proof.
  intros l. assert (E : forall t th, nth_error (map (fun b => Th b None []) l) t = Some th -> weak th = None /\ stack th = []).
  { intros t th H. apply nth_error_In in H. apply in_map_iff in H. destruct H as (b & <- & _). auto. }
  split; [reflexivity|]. split; [intros r []|]. split; cbn [ths init].
  - intros t th r H [T|(f & Hf & _)]; apply E in H; destruct H as [W S]; [congruence|]. rewrite S in Hf. destruct Hf.
  - intros t th f H Hf. apply E in H. destruct H as [W S]. rewrite S in Hf. destruct Hf.
Qed.

Lemma inv_change : forall s s', Inv s -> change s s' -> Inv s'.
Proof.
  intros s s' I C. pose proof I as (IL & IJ & IT & IW).
  pose proof (fun r => no_resurrection s s' r I C) as NR. pose proof (fun t th' r => new_touch s s' t th' r I C) as NT.
  destruct (change_kinds s s' C) as (kl & Ek).
  assert (LK : length (kinds s) <= length (kinds s')) by (rewrite Ek, app_length; lia).
  split; [|split; [|split]].
  - destruct C; cbn in *; try rewrite !app_length; cbn; lia.
  - intros r Hr. destruct C; cbn in *; try (apply IJ in Hr; lia); try (rewrite app_length; cbn; apply IJ in Hr; lia).
    + rewrite app_length. cbn. destruct Hr as [<-|Hr]; [lia|]. apply IJ in Hr. lia.
    + destruct Hr as [->|Hr]; [|apply IJ; exact Hr]. apply alive_held in H. destruct H as [H|[H|(t & th & f & H & Hf & Ho)]].
      * destruct (Nat.ltb_spec r (length (kinds s))) as [L|L]; [exact L|]. rewrite nth_overflow in H by lia. lia.
      * apply IJ. exact H.
      * eapply IT; [exact H|]. right. exists f. split; [exact Hf|apply holds_runner; exact Ho].
    + apply remove1_in in Hr. apply IJ. exact Hr.
  - intros t th' r Ht' T. destruct (Nat.ltb_spec r (length (kinds s))) as [L|L]; [lia|]. 
    destruct C as [u Hu HL| |k|k|q Aq Fq|u th k Ht G U|u th f Ht Lf NJob Hf|u th q Ht Es Ep Hq|u th f l Ht Es|u th q l Ht Es Hl]; cbn in *;
      try (pose proof (IT _ _ _ Ht' T); lia).
    + apply nth_set1 in Ht'. destruct Ht' as [[-> ->]|[N Ht']]; [|pose proof (IT _ _ _ Ht' T); lia].
      destruct T as [T|T]; cbn in T; [injection T as <-; rewrite app_length; cbn; lia|].
      pose proof (IT _ _ r Ht (or_intror T)). lia.
    + apply nth_set1 in Ht'. destruct Ht' as [[-> ->]|[N Ht']]; [|pose proof (IT _ _ _ Ht' T); lia].
      destruct T as [T|(g & [<-|Hg] & Eg)]; cbn in *.
      * pose proof (IT _ _ r Ht (or_introl T)). lia.
      * rewrite Eg in Hf. destruct Hf as [Hf|(g' & l & Es & Hh & _)].
        -- apply Get_some in Hf. pose proof (IT _ _ r Ht (or_introl (proj1 Hf))). lia.
        -- apply holds_runner in Hh. assert (T : touches r th) by (right; exists g'; rewrite Es; split; [left; reflexivity|exact Hh]). pose proof (IT _ _ r Ht T). lia.
      * assert (T : touches r th) by (right; eauto). pose proof (IT _ _ r Ht T). lia.
    + apply nth_set1 in Ht'. destruct Ht' as [[-> ->]|[N Ht']]; [|pose proof (IT _ _ _ Ht' T); lia].
      assert (q = r) as ->; [destruct T as [T|(g & [<-|[]] & Eg)]; cbn in *; congruence|]. apply IJ. exact Hq.
    + apply nth_set1 in Ht'. destruct Ht' as [[-> ->]|[N Ht']]; [|pose proof (IT _ _ _ Ht' T); lia].
      assert (T' : touches r th); [|pose proof (IT _ _ r Ht T'); lia].
      destruct T as [T|(g & Hg & Eg)]; cbn in *; [left; exact T|right]. exists g. rewrite Es. split; [right; exact Hg|exact Eg].
    + apply nth_set1 in Ht'. destruct Ht' as [[-> ->]|[N Ht']]; [|pose proof (IT _ _ _ Ht' T); lia].
      assert (T' : touches r th); [|pose proof (IT _ _ r Ht T'); lia].
      destruct T as [T|(g & Hg & Eg)]; cbn in *; [discriminate|right]. destruct Hl as [->| ->]; [destruct Hg|].
      destruct Hg as [<-|[]]. exists (Job q). rewrite Es. split; [left; reflexivity|exact Eg].
  - intros t th' f Ht' Hf Lf A.
    assert (OLD : forall th g, nth_error (ths s) t = Some th -> In g (stack th) -> late g = false -> alive s' (runner g) = true -> weak th = Some (runner g)).
    { intros th g H Hg Lg Ag. apply (IW t th g H Hg Lg). apply NR; [|exact Ag]. eapply IT; [exact H|]. right. eauto. }
    destruct C as [u Hu HL| |k|k|q Aq Fq|u th k Ht G U|u th g Ht Lg NJob Hg|u th q Ht Es Ep Hq|u th g l Ht Es|u th q l Ht Es Hl]; cbn [ths push with_th] in Ht'; eauto.
    + apply nth_set1 in Ht'. destruct Ht' as [[-> ->]|[N Ht']]; [|eauto]. cbn in Hf.
      pose proof (OLD th f Ht Hf Lf A) as W. exfalso.
      assert (A0 : alive s (runner f) = true) by (apply NR; [eapply IT; [exact Ht|left; exact W]|exact A]).
      assert (Get s th = Some (runner f)) by (apply Get_some; auto). congruence.
    + apply nth_set1 in Ht'. destruct Ht' as [[-> ->]|[N Ht']]; [|eauto]. cbn in Hf |- *.
      destruct Hf as [->|Hf]; [|eauto]. destruct Hg as [Hg|(g' & l & Es & Hh & Lg')].
      * apply Get_some in Hg. exact (proj1 Hg).
      * pose proof (holds_runner _ _ Hh) as E. rewrite <- E. apply (IW t th g' Ht); [rewrite Es; left; reflexivity|exact Lg'|].
        rewrite E. apply alive_held. right. right. exists t, th, g'. rewrite Es. cbn. auto.
    + apply nth_set1 in Ht'. destruct Ht' as [[-> ->]|[N Ht']]; [|eauto]. cbn in Hf |- *. destruct Hf as [<-|[]]. reflexivity.
    + apply nth_set1 in Ht'. destruct Ht' as [[-> ->]|[N Ht']]; [|eauto]. cbn in Hf |- *. apply (OLD th f Ht); [rewrite Es; right; exact Hf|exact Lf|exact A].
    + apply nth_set1 in Ht'. destruct Ht' as [[-> ->]|[N Ht']]; [|eauto]. cbn in Hf. destruct Hl as [->| ->]; [destruct Hf|].
      destruct Hf as [<-|[]]. discriminate.
Qed.

(** Runners that belong to one thread. *)
Definition fixed (s : state) (r : nat) : Prop := exists k, nth_error (kinds s) r = Some k /\ has_fixed (GetStyle k) = true.
(** Only thread [t] has to do, or will ever have to do, with [r]. *)
Definition only (r t : nat) (s : state) : Prop :=
  fixed s r /\ ~ In r (jobs s) /\ forall t' th', nth_error (ths s) t' = Some th' -> touches r th' -> t' = t.
Definition Fix (s : state) : Prop :=
  forall r, fixed s r -> count_occ Nat.eq_dec (jobs s) r <= 1 /\
    forall t th, nth_error (ths s) t = Some th -> touches r th -> only r t s.

Lemma fixed_lt : forall s r, fixed s r -> r < length (kinds s).
Proof. intros s r (k & H & _). apply nth_error_Some. congruence. Qed.
Lemma fixed_kind : forall s r, fixed s r -> has_fixed (GetStyle (kind_of s r)) = true.
Proof. intros s r (k & H & F). unfold kind_of. rewrite (nth_error_nth _ _ _ H). exact F. Qed.
Lemma fixed_mono : forall s s' r, change s s' -> fixed s r -> fixed s' r.
Proof.
  intros s s' r C (k & H & F). destruct (change_kinds s s' C) as (l & E). exists k. split; [|exact F].
  rewrite E, nth_error_app1; [exact H|]. apply nth_error_Some. congruence.
Qed.
Lemma fixed_back : forall s s' r, change s s' -> r < length (kinds s) -> fixed s' r -> fixed s r.
Proof.
  intros s s' r C L (k & H & F). destruct (change_kinds s s' C) as (l & E). rewrite E in H. rewrite nth_error_app1 in H by exact L. exists k. auto.
Qed.

Lemma change_jobs : forall s s' r, change s s' -> fixed s r -> In r (jobs s') -> In r (jobs s).
Proof.
  intros s s' r C F H. destruct C as [u Hu HL| |k|k|q Aq Fq|u th k Ht G U|u th g Ht Lg NJob Hg|u th q Ht Es Ep Hq|u th g l Ht Es|u th q l Ht Es Hl]; cbn in H; auto.
  - destruct H as [<-|H]; [|exact H]. apply fixed_lt in F. lia.
  - destruct H as [<-|H]; [|exact H]. apply fixed_kind in F. congruence.
  - eapply remove1_in. exact H.
Qed.

Lemma only_change : forall r t s s', Inv s -> change s s' -> only r t s -> only r t s'.
Proof.
  intros r t s s' I C (F & J & O). split; [exact (fixed_mono _ _ _ C F)|]. split.
  - intros H. apply J. exact (change_jobs _ _ _ C F H).
  - intros t' th' H T. destruct (new_touch s s' t' th' r I C (fixed_lt _ _ F) H T) as [(th & H0 & T0)|[H0 _]]; [exact (O _ _ H0 T0)|contradiction].
Qed.

Lemma count_remove1 : forall r l, count_occ Nat.eq_dec l r <= 1 -> ~ In r (remove1 r l).
Proof.
  induction l as [|a l IH]; cbn; [auto|]. destruct (Nat.eq_dec a r) as [->|N].
  - rewrite Nat.eqb_refl. intros H. apply (count_occ_not_In Nat.eq_dec). lia.
  - intros H. destruct (Nat.eqb_spec a r) as [->|N']; [congruence|]. cbn. intros [E|E]; [congruence|]. exact (IH H E).
Qed.
Lemma count_remove1_le : forall r q l, count_occ Nat.eq_dec (remove1 q l) r <= count_occ Nat.eq_dec l r.
Proof.
  induction l as [|a l IH]; cbn; [auto|]. destruct (Nat.eqb_spec a q) as [->|N]; cbn; destruct (Nat.eq_dec _ r); lia.
Qed.

Lemma fix_init : forall l, Fix (init l).
Proof. intros l r (k & H & _). destruct r; discriminate. Qed.

Lemma fix_change : forall s s', Inv s -> Inv s' -> Fix s -> change s s' -> Fix s'.
Proof.
  intros s s' I I' FX C r F'. pose proof (fixed_lt _ _ F') as L'.
  destruct (Nat.ltb_spec r (length (kinds s))) as [L|L].
  - pose proof (fixed_back _ _ _ C L F') as F. destruct (FX r F) as [CO TO]. split.
    + destruct C as [u Hu HL| |k|k|q Aq Fq|u th k Ht G U|u th g Ht Lg NJob Hg|u th q Ht Es Ep Hq|u th g l Ht Es|u th q l Ht Es Hl]; cbn in *; auto.
      * destruct (Nat.eq_dec (length (kinds s)) r); [lia|exact CO].
      * destruct (Nat.eq_dec q r) as [->|N]; [|exact CO]. apply fixed_kind in F. congruence.
      * pose proof (count_remove1_le r q (jobs s)). lia.
    + intros t th' H T. destruct (new_touch s s' t th' r I C L H T) as [(th & H0 & T0)|[HJ EJ]].
      * exact (only_change _ _ _ _ I C (TO t th H0 T0)).
      * split; [exact F'|]. split; [rewrite EJ; apply count_remove1; exact CO|].
        assert (NT : forall t0 th0, nth_error (ths s) t0 = Some th0 -> ~ touches r th0).
        { intros t0 th0 H0 T0. destruct (TO _ _ H0 T0) as (_ & NJ & _). contradiction. }
        intros t2 th2 H2 T2.
        destruct C as [u Hu HL| |k|k|q Aq Fq|u th k Ht G U|u th g Ht Lg NJob Hg|u th q Ht Es Ep Hq|u th g l Ht Es|u th q l Ht Es Hl]; cbn [ths push with_th] in H, H2;
          try (exfalso; exact (NT _ _ H T)).
        -- exfalso. apply nth_set1 in H. destruct H as [[-> ->]|[N H]]; [|exact (NT _ _ H T)]. destruct T as [T|T]; cbn in T; [injection T as T; lia|]. exact (NT _ _ Ht (or_intror T)).
        -- exfalso. cbn in EJ. assert (In r (remove1 r (jobs s))) by (rewrite <- EJ; exact HJ). exact (count_remove1 r _ CO H0).
        -- apply nth_set1 in H. apply nth_set1 in H2. destruct H as [[-> ->]|[N H]]; [|exfalso; exact (NT _ _ H T)].
           destruct H2 as [[-> ->]|[N2 H2]]; [reflexivity|exfalso; exact (NT _ _ H2 T2)].
        -- exfalso. cbn in EJ. assert (In r (remove1 r (jobs s))) by (rewrite <- EJ; exact HJ). exact (count_remove1 r _ CO H0).
        -- exfalso. cbn in EJ. assert (In r (remove1 r (jobs s))) by (rewrite <- EJ; exact HJ). exact (count_remove1 r _ CO H0).
  - pose proof I as (IL & IJ & IT & IW).
    assert (NJ : ~ In r (jobs s)) by (intros H; apply IJ in H; lia).
    assert (NT : forall t0 th0, nth_error (ths s) t0 = Some th0 -> ~ touches r th0) by (intros t0 th0 H T; apply (IT _ _ _ H) in T; lia).
    apply (count_occ_not_In Nat.eq_dec) in NJ.
    destruct C as [u Hu HL| |k|k|q Aq Fq|u th k Ht G U|u th g Ht Lg NJob Hg|u th q Ht Es Ep Hq|u th g l Ht Es|u th q l Ht Es Hl]; cbn in L'; try lia; rewrite app_length in L'; cbn in L'.
    + cbn. split; [lia|]. intros t th H T. exfalso. exact (NT _ _ H T).
    + cbn. split; [destruct (Nat.eq_dec (length (kinds s)) r); lia|]. intros t th H T. exfalso. exact (NT _ _ H T).
    + cbn. split; [lia|]. intros t th' H T. split; [exact F'|]. split; [apply (count_occ_not_In Nat.eq_dec); exact NJ|].
      assert (O : forall t0 th0, nth_error (set (ths s) u (Th (pool th) (Some (length (kinds s))) (stack th))) t0 = Some th0 -> touches r th0 -> t0 = u).
      { intros t0 th0 H0 T0. apply nth_set1 in H0. destruct H0 as [[-> _]|[N H0]]; [reflexivity|]. exfalso. exact (NT _ _ H0 T0). }
      intros t2 th2 H2 T2. rewrite (O _ _ H2 T2), (O _ _ H T). reflexivity.
Qed.

Lemma reach_inv : forall l s, reach (init l) s -> Inv s /\ Fix s.
Proof.
  intros l s R. induction R as [|s1 e s2 a R [I F] H]; [split; [apply inv_init|apply fix_init]|].
  pose proof (step_change _ _ _ _ (proj1 I) H) as C. pose proof (inv_change _ _ I C) as I2.
  split; [exact I2|]. exact (fix_change _ _ I I2 F C).
Qed.
