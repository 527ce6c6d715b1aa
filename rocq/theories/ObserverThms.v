(** C42: ObserverPtr gives the observed object while it lives and null afterwards. *)
From Coq Require Import Lia Bool List Arith.
From Verif Require Import Slots SlotsProofs ObserverModel.
Import ListNotations.

(** * Specification: which objects live and what every observer was last set to *)
Record ist := IST { lives : list bool; target : list (option nat) }.
Definition iinit (n : nat) : ist := IST [] (repeat None n).
Definition ilive (i : ist) (o : nat) : bool := nth o (lives i) false.
Definition istep (x : op) (i : ist) : ist :=
  let ok v := Nat.ltb v (length (target i)) in
  match x with
  | NewObj => IST (lives i ++ [true]) (target i)
  | CopyObj o => if ilive i o then IST (lives i ++ [true]) (target i) else i
  | AssignObj _ _ => i
  | KillObj o => IST (set (lives i) o false) (target i)
  | FromObj v o => if ok v && ilive i o then IST (lives i) (set (target i) v (Some o)) else i
  | CopyCtor v w => if ok v && ok w && negb (Nat.eqb v w) then IST (lives i) (set (target i) v (get (target i) w)) else i
  | MoveCtor v w => if ok v && ok w && negb (Nat.eqb v w) then IST (lives i) (set (set (target i) w None) v (get (target i) w)) else i
  | Reset v | ResetNull v => if ok v then IST (lives i) (set (target i) v None) else i
  | Assign v w => if ok v && ok w then IST (lives i) (set (target i) v (get (target i) w)) else i
  | Move v w => if ok v && ok w then IST (lives i) (set (set (target i) w None) v (get (target i) w)) else i
  end.
Definition irun (l : list op) (i : ist) : ist := fold_left (fun i x => istep x i) l i.
(** What Get should give. *)
Definition expected (i : ist) (v : nat) : option nat :=
  match get (target i) v with Some o => if ilive i o then Some o else None | None => None end.

(** The operations without assignment between observers, and without copies of objects. *)
Definition no_assign (x : op) : bool := match x with Assign _ _ | Move _ _ => false | _ => true end.
Definition no_copy (x : op) : bool := match x with CopyObj _ => false | _ => true end.

(** * Refutations *)
(** After [v = w] the observer still gives the object it had before. *)
Theorem C42_assign_refuted : exists n l v, Get (run l (init n)) v <> expected (irun l (iinit n)) v.
Proof. exists 2, [NewObj; NewObj; FromObj 0 0; FromObj 1 1; Assign 0 1], 0. vm_compute. discriminate. Qed.
Print Assumptions C42_assign_refuted.

(** It even gives an object that is already destroyed. *)
Theorem C42_dangling_refuted : exists n l v o,
  Get (run l (init n)) v = Some o /\ ilive (irun l (iinit n)) o = false.
Proof. exists 2, [NewObj; NewObj; FromObj 0 0; FromObj 1 1; Assign 0 1; KillObj 0], 0, 0. vm_compute. auto. Qed.
Print Assumptions C42_dangling_refuted.

(** The same with a move. *)
Theorem C42_move_refuted : exists n l v o,
  Get (run l (init n)) v = Some o /\ ilive (irun l (iinit n)) o = false.
Proof. exists 2, [NewObj; NewObj; FromObj 0 0; FromObj 1 1; Move 0 1; KillObj 0], 0, 0. vm_compute. auto. Qed.
Print Assumptions C42_move_refuted.

(** A copy of an observed object shares its observer data: destroying the copy makes the
    observers of the original expire. *)
Theorem C42_copy_refuted : exists n l v o, forallb no_assign l = true /\
  expected (irun l (iinit n)) v = Some o /\ Get (run l (init n)) v = None.
Proof. exists 1, [NewObj; FromObj 0 0; CopyObj 0; KillObj 1], 0, 0. vm_compute. auto. Qed.
Print Assumptions C42_copy_refuted.

(** * The part that holds *)
Definition okobs (s : st) (b : ob) (t : option nat) : Prop :=
  match data b with
  | None => t = None
  | Some d => exists o x, ptr b = Some o /\ t = Some o /\ nth_error (objs s) o = Some x /\ odata x = Some d
  end.
(** [c]: objects were not copied. *)
Definition Rel (c : bool) (s : st) (i : ist) : Prop :=
  lives i = map alive (objs s) /\ Forall2 (okobs s) (obs s) (target i) /\
  (forall o x d, nth_error (objs s) o = Some x -> odata x = Some d -> d < length (gone s)) /\
  (forall o x d, nth_error (objs s) o = Some x -> odata x = Some d -> alive x = false -> nth d (gone s) true = true) /\
  (c = true ->
     (forall o p x y d, nth_error (objs s) o = Some x -> nth_error (objs s) p = Some y -> odata x = Some d -> odata y = Some d -> o = p) /\
     (forall o x d, nth_error (objs s) o = Some x -> odata x = Some d -> nth d (gone s) true = true -> alive x = false)).

Lemma F2_length : forall A B (R : A -> B -> Prop) l m, Forall2 R l m -> length l = length m.
Proof. induction 1; cbn; auto. Qed.
Lemma F2_set : forall A B (R : A -> B -> Prop) l m, Forall2 R l m -> forall i a b, R a b -> Forall2 R (set l i a) (set m i b).
Proof. induction 1 as [|x y l m H F IH]; intros [|i] a b Q; cbn; constructor; auto. Qed.
Lemma F2_get : forall s l m, Forall2 (okobs s) l m -> forall v, okobs s (nth v l (OB None None)) (get m v).
Proof.
  induction 1 as [|x y l m H F IH]; intros [|v]; try reflexivity; [exact H|].
  change (get (y :: m) (S v)) with (get m v). exact (IH v).
Qed.
Lemma okobs_mono : forall s s' b t,
  (forall o x d, nth_error (objs s) o = Some x -> odata x = Some d -> exists x', nth_error (objs s') o = Some x' /\ odata x' = Some d) ->
  okobs s b t -> okobs s' b t.
Proof.
  intros s s' b t H. unfold okobs. destruct (data b) as [d|]; [|auto]. intros (o & x & A & B & C & D).
  destruct (H o x d C D) as (x' & E & F). eauto 8.
Qed.
Lemma F2_mono : forall s s' l m,
  (forall o x d, nth_error (objs s) o = Some x -> odata x = Some d -> exists x', nth_error (objs s') o = Some x' /\ odata x' = Some d) ->
  Forall2 (okobs s) l m -> Forall2 (okobs s') l m.
Proof. intros s s' l m H F. induction F; constructor; eauto using okobs_mono. Qed.

Lemma ilive_living : forall c s i, Rel c s i -> forall o, ilive i o = living s o.
Proof.
  intros c s i (R & _) o. unfold ilive, living. rewrite R. destruct (nth_error (objs s) o) as [x|] eqn:E.
  - apply nth_error_nth. rewrite nth_error_map, E. reflexivity.
  - apply nth_overflow. rewrite map_length. apply nth_error_None. exact E.
Qed.
Lemma map_set : forall A B (f : A -> B) l i a, map f (set l i a) = set (map f l) i (f a).
Proof. induction l as [|x l IH]; intros [|i] a; cbn; auto. rewrite IH. reflexivity. Qed.
Lemma nth_app_new : forall A (l : list A) a o x, nth_error (l ++ [a]) o = Some x -> nth_error l o = Some x \/ (o = length l /\ x = a).
Proof.
  intros A l a o x H. destruct (Nat.ltb_spec o (length l)).
  - left. rewrite nth_error_app1 in H by assumption. exact H.
  - rewrite nth_error_app2 in H by assumption. destruct (o - length l) eqn:E; [|destruct n; discriminate].
    right. cbn in H. injection H as <-. split; [lia|reflexivity].
Qed.
Lemma nth_set_cases : forall A (l : list A) i a o x, nth_error (set l i a) o = Some x -> (o = i /\ x = a) \/ (o <> i /\ nth_error l o = Some x).
Proof.
  intros A l i a o x H. destruct (Nat.eq_dec i o) as [<-|N].
  - left. split; [reflexivity|]. destruct (Nat.ltb_spec i (length l)).
    + rewrite nth_set_eq in H by assumption. congruence.
    + rewrite (proj2 (nth_error_None _ i)) in H; [discriminate|]. rewrite set_length. assumption.
  - right. rewrite nth_set_neq in H by exact N. auto.
Qed.
Lemma nth_set_gone : forall l d b e, nth e (set l d b) true = if Nat.eqb d e && Nat.ltb d (length l) then b else nth e l true.
Proof.
  induction l as [|x l IH]; intros [|d] b [|e]; cbn; rewrite ?andb_false_r; try reflexivity. rewrite IH. reflexivity.
Qed.

(** Adding an object (new, or a copy with the data of another). *)
Lemma Rel_add : forall c s i y, Rel c s i ->
  (forall d, odata y = Some d -> c = false /\ d < length (gone s)) -> alive y = true ->
  Rel c (ST (objs s ++ [y]) (obs s) (gone s)) (IST (lives i ++ [true]) (target i)).
Proof.
  intros c s i y (R1 & R2 & R3 & R4 & R5) Y Al. unfold Rel; cbn [objs obs gone lives target]. split; [|split; [|split; [|split]]].
  - rewrite R1, map_app. cbn. rewrite Al. reflexivity.
  - eapply F2_mono; [|exact R2]. intros o x d A B. exists x. split; [|exact B]. cbn. rewrite nth_error_app1; [exact A|].
    apply nth_error_Some. congruence.
  - intros o x d A B. apply nth_app_new in A as [A|[-> ->]]; [eauto|]. apply Y, B.
  - intros o x d A B D. apply nth_app_new in A as [A|[-> ->]]; [eauto|congruence].
  - intros C. specialize (R5 C) as (R5 & R6). split.
    + intros o p x z d A B D E. apply nth_app_new in A as [A|[-> ->]]; apply nth_app_new in B as [B|[-> ->]]; eauto;
        [destruct (Y d E); congruence|destruct (Y d D); congruence].
    + intros o x d A B D. apply nth_app_new in A as [A|[-> ->]]; [eauto|]. destruct (Y d B). congruence.
Qed.

(** Setting an observer. *)
Lemma Rel_set : forall c s i v b t, Rel c s i -> okobs s b t -> Rel c (seto s v b) (IST (lives i) (set (target i) v t)).
Proof.
  intros c s i v b t (R1 & R2 & R3) O. unfold Rel, seto; cbn [objs obs gone lives target]. split; [exact R1|]. split; [|exact R3].
  apply (F2_set _ _ (okobs s)); assumption.
Qed.

Lemma Rel_kill : forall c s i o, Rel c s i -> Rel c (step (KillObj o) s) (istep (KillObj o) i).
Proof.
  intros c s i o (R1 & R2 & R3 & R4 & R5). cbn [step istep]. destruct (nth_error (objs s) o) as [[[|] d]|] eqn:E.
  - assert (L : o < length (objs s)) by (apply nth_error_Some; congruence).
    set (g := match d with Some d0 => set (gone s) d0 true | None => gone s end).
    assert (Lg : length g = length (gone s)) by (unfold g; destruct d; [apply set_length|reflexivity]).
    assert (G1 : forall e, nth e (gone s) true = true -> nth e g true = true).
    { intros e H. unfold g. destruct d as [d|]; [|exact H]. rewrite nth_set_gone. destruct (_ && _); [reflexivity|exact H]. }
    unfold Rel; cbn [objs obs gone lives target]. fold g. split; [|split; [|split; [|split]]].
    + rewrite R1, map_set. reflexivity.
    + eapply F2_mono; [|exact R2]. intros u x e A B. cbn [objs]. destruct (Nat.eq_dec o u) as [<-|N].
      * rewrite nth_set_eq by exact L. eexists. split; [reflexivity|]. cbn. rewrite E in A. injection A as <-. exact B.
      * rewrite nth_set_neq by exact N. eauto.
    + intros u x e A B. rewrite Lg. apply nth_set_cases in A as [[-> ->]|[N A]]; [|eauto]. cbn in B. eapply R3; [exact E|exact B].
    + intros u x e A B D. apply nth_set_cases in A as [[-> ->]|[N A]]; [|eauto]. cbn in B. unfold g. rewrite B, nth_set_gone, Nat.eqb_refl.
      rewrite (proj2 (Nat.ltb_lt e (length (gone s)))); [reflexivity|]. eapply R3; [exact E|exact B].
    + intros C. specialize (R5 C) as (R5 & R6). split.
      * intros u p x z e A B D F.
        assert (Q : forall u x, nth_error (set (objs s) o (OBJ false d)) u = Some x -> odata x = Some e ->
          exists x', nth_error (objs s) u = Some x' /\ odata x' = Some e).
        { intros u0 x0 H1 H2. apply nth_set_cases in H1 as [[-> ->]|[N H1]]; [|eauto]. eexists. split; [exact E|exact H2]. }
        destruct (Q _ _ A D) as (x1 & ? & ?). destruct (Q _ _ B F) as (x2 & ? & ?). eauto.
      * intros u x e A B D. apply nth_set_cases in A as [[-> ->]|[N A]]; [reflexivity|].
        unfold g in D. destruct d as [d|]; [|eauto]. rewrite nth_set_gone in D. destruct (Nat.eqb_spec d e) as [->|]; [|eauto].
        exfalso. apply N. eapply R5; [exact A|exact E|exact B|reflexivity].
  - unfold Rel; cbn [lives target]. split; [|tauto]. rewrite R1.
    clear - E. revert o E. induction (objs s) as [|x r IH]; intros [|o] E; cbn in *; try discriminate.
    + injection E as ->. reflexivity.
    + f_equal. apply IH, E.
  - unfold Rel; cbn [lives target]. split; [|tauto]. rewrite R1. clear - E. revert o E.
    induction (objs s) as [|x r IH]; intros [|o] E; cbn in *; try discriminate; try reflexivity. f_equal. apply IH, E.
Qed.

(** FromObj: the data of the object are created on demand. *)
Lemma Rel_from : forall c s i v o, Rel c s i -> living s o = true ->
  Rel c (let (d, s1) := GetObserverData o s in seto s1 v (OB (Some o) d)) (IST (lives i) (set (target i) v (Some o))).
Proof.
  intros c s i v o R Lv. unfold living in Lv. unfold GetObserverData. destruct (nth_error (objs s) o) as [x|] eqn:E; [|discriminate].
  assert (L : o < length (objs s)) by (apply nth_error_Some; congruence).
  destruct (odata x) as [d|] eqn:D.
  { apply Rel_set; [exact R|]. unfold okobs; cbn. eauto 8. }
  apply Rel_set.
  - destruct R as (R1 & R2 & R3 & R4 & R5). unfold Rel; cbn [objs obs gone]. split; [|split; [|split; [|split]]].
    + rewrite R1, map_set. cbn. clear - E. revert o E. induction (objs s) as [|z r IH]; intros [|o] E; cbn in *; try discriminate.
      * injection E as ->. reflexivity.
      * f_equal. apply IH, E.
    + eapply F2_mono; [|exact R2]. intros u y e A B. cbn [objs]. destruct (Nat.eq_dec o u) as [<-|N].
      * rewrite E in A. injection A as <-. congruence.
      * rewrite nth_set_neq by exact N. eauto.
    + intros u y e A B. rewrite app_length. cbn. apply nth_set_cases in A as [[-> ->]|[N A]].
      * cbn in B. injection B as <-. lia.
      * specialize (R3 _ _ _ A B). lia.
    + intros u y e A B F. apply nth_set_cases in A as [[-> ->]|[N A]]; [cbn in F; congruence|].
      rewrite app_nth1 by (exact (R3 _ _ _ A B)). eauto.
    + intros C. specialize (R5 C) as (R5 & R6). split.
      * intros u p y z e A B F G. apply nth_set_cases in A as [[-> ->]|[N A]]; apply nth_set_cases in B as [[-> ->]|[M B]].
        -- reflexivity.
        -- cbn in F. injection F as <-. specialize (R3 _ _ _ B G). lia.
        -- cbn in G. injection G as <-. specialize (R3 _ _ _ A F). lia.
        -- eauto.
      * intros u y e A B F. apply nth_set_cases in A as [[-> ->]|[N A]].
        -- cbn in B. injection B as <-. rewrite app_nth2, Nat.sub_diag in F by lia. discriminate.
        -- rewrite app_nth1 in F by (exact (R3 _ _ _ A B)). eauto.
  - unfold okobs; cbn. exists o. eexists. split; [reflexivity|]. split; [reflexivity|]. rewrite nth_set_eq by exact L.
    split; reflexivity.
Qed.

Lemma step_Rel : forall c x s i, Rel c s i -> no_assign x = true -> (c = true -> no_copy x = true) -> Rel c (step x s) (istep x i).
Proof.
  intros c x s i R NA NC.
  assert (Lo : length (target i) = length (obs s)) by (destruct R as (_ & R2 & _); apply F2_length in R2; auto).
  assert (G : forall v, okobs s (geto s v) (get (target i) v)) by (intros v; destruct R as (_ & R2 & _); apply F2_get, R2).
  destruct x; try discriminate NA; cbn [step istep]; rewrite ?Lo, ?(ilive_living c s i R).
  - apply Rel_add; [exact R|discriminate|reflexivity].
  - destruct (living s o) eqn:Lv; [|exact R]. apply Rel_add; [exact R| |reflexivity]. cbn [odata].
    unfold living in Lv. destruct (nth_error (objs s) o) as [y|] eqn:E; [|discriminate]. intros d D. split.
    + destruct c; [|reflexivity]. specialize (NC eq_refl). discriminate NC.
    + destruct R as (_ & _ & R3 & _). eauto.
  - exact R.
  - apply Rel_kill, R.
  - destruct (_ && living s o) eqn:Q; [|exact R]. apply andb_true_iff in Q as [_ Q]. apply Rel_from; assumption.
  - destruct (_ && _ && _); [|exact R]. apply Rel_set; [exact R|apply G].
  - destruct (_ && _ && _); [|exact R].
    pose proof (Rel_set c s i w (OB None None) None R eq_refl) as R1.
    apply (Rel_set c _ _ v (geto s w) (get (target i) w)) in R1; [exact R1|]. exact (G w).
  - destruct (Nat.ltb v (length (obs s))); [|exact R]. apply Rel_set; [exact R|reflexivity].
  - destruct (Nat.ltb v (length (obs s))); [|exact R]. apply Rel_set; [exact R|reflexivity].
Qed.

Lemma run_Rel : forall c l s i, Rel c s i -> forallb no_assign l = true -> (c = true -> forallb no_copy l = true) -> Rel c (run l s) (irun l i).
Proof.
  intros c. induction l as [|x l IH]; intros s i R A C; [exact R|]. cbn in A. apply andb_true_iff in A as [A1 A2].
  cbn [run irun fold_left]. fold (run l (step x s)). fold (irun l (istep x i)). apply IH; [|exact A2|].
  - apply step_Rel; [exact R|exact A1|]. intros H. specialize (C H). cbn in C. apply andb_true_iff in C as [? ?]. assumption.
  - intros H. specialize (C H). cbn in C. apply andb_true_iff in C as [? ?]. assumption.
Qed.
Lemma init_Rel : forall c n, Rel c (init n) (iinit n).
Proof.
  intros c n. unfold Rel, init, iinit; cbn. split; [reflexivity|]. split.
  - induction n; cbn; constructor; [reflexivity|assumption].
  - split; [|split; [|intros _; split]]; intros [|]; try discriminate; intros [|]; discriminate.
Qed.

(** As long as observers are not assigned to one another, Get never gives a destroyed object,
    nor an object other than the one the observer was set to. *)
Theorem C42_no_dangling_partial : forall n l v o, forallb no_assign l = true ->
  Get (run l (init n)) v = Some o -> expected (irun l (iinit n)) v = Some o.
Proof.
  intros n l v o A H. pose proof (run_Rel false l _ _ (init_Rel false n) A ltac:(discriminate)) as R.
  set (s := run l (init n)) in *. set (i := irun l (iinit n)) in *. clearbody s i.
  assert (G : okobs s (geto s v) (get (target i) v)) by (destruct R as (_ & R2 & _); apply F2_get, R2).
  unfold Get in H. unfold okobs in G. unfold expected. destruct (data (geto s v)) as [d|]; [|discriminate].
  destruct G as (u & x & G1 & G2 & G3 & G4). destruct (destroyed s d) eqn:D; [discriminate|].
  rewrite G1 in H. injection H as ->. rewrite G2, (ilive_living _ _ _ R). unfold living. rewrite G3.
  destruct (alive x) eqn:Al; [reflexivity|]. exfalso. destruct R as (_ & _ & _ & R4 & _).
  pose proof (R4 _ _ _ G3 G4 Al) as Q. unfold destroyed in D. congruence.
Qed.
Print Assumptions C42_no_dangling_partial.

(** If, besides, observed objects are not copied, the property holds as stated. *)
Theorem C42_get_partial : forall n l v, forallb no_assign l = true -> forallb no_copy l = true ->
  Get (run l (init n)) v = expected (irun l (iinit n)) v.
Proof.
  intros n l v A C. pose proof (run_Rel true l _ _ (init_Rel true n) A (fun _ => C)) as R.
  set (s := run l (init n)) in *. set (i := irun l (iinit n)) in *. clearbody s i.
  assert (G : okobs s (geto s v) (get (target i) v)) by (destruct R as (_ & R2 & _); apply F2_get, R2).
  unfold Get, expected. unfold okobs in G. destruct (data (geto s v)) as [d|]; [|rewrite G; reflexivity].
  destruct G as (u & x & G1 & G2 & G3 & G4). rewrite G1, G2, (ilive_living _ _ _ R). unfold living. rewrite G3.
  destruct R as (_ & _ & _ & R4 & R5). destruct (R5 eq_refl) as (_ & R6). unfold destroyed.
  destruct (nth d (gone s) true) eqn:D.
  - rewrite (R6 _ _ _ G3 G4 D). reflexivity.
  - destruct (alive x) eqn:Al; [reflexivity|]. rewrite (R4 _ _ _ G3 G4 Al) in D. discriminate.
Qed.
Print Assumptions C42_get_partial.

Example C42_example : let l := [NewObj; NewObj; FromObj 0 0; FromObj 1 1; CopyCtor 2 0; MoveCtor 3 1; FromObj 0 1; KillObj 0] in
  forallb no_assign l = true /\ forallb no_copy l = true /\ map (Get (run l (init 4))) [0; 1; 2; 3] = [Some 1; None; None; Some 1].
Proof. vm_compute. auto. Qed.
