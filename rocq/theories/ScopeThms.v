(** Property theorems C138 and C139: scope guards. *)
From Coq Require Import List Bool Arith Lia.
From Verif Require Import Slots SlotsProofs Threads ScopeModel.
Import ListNotations.

(** ** Specification *)
(** Every guard is left once, the last one first. *)
Inductive nested : list ev -> Prop :=
| n_nil : nested []
| n_did : forall n w, nested w -> nested (Did n :: w)
| n_open : forall c v w, nested v -> nested w -> nested (Open c :: v ++ Clean c :: w)
| n_acq : forall sh l v w, nested v -> nested w -> nested (Acq sh l :: v ++ Rel sh l :: w).
Definition is_open (c : nat) (e : ev) : bool := match e with Open c' => c' =? c | _ => false end.
Definition is_clean (c : nat) (e : ev) : bool := match e with Clean c' => c' =? c | _ => false end.
Definition count (f : ev -> bool) (w : list ev) : nat := length (filter f w).

(** ** One function *)
Lemma stmt_ind2 : forall P : stmt -> Prop,
  (forall n, P (Do n)) -> P Throw -> (forall c, P (Cleanup c)) -> (forall sh l, P (Lock sh l)) ->
  (forall b, Forall P b -> P (Block b)) -> (forall b h, Forall P b -> Forall P h -> P (Try b h)) -> forall s, P s.
Proof.
  intros P HD HT HC HL HB HTr. fix IH 1. intros [n| |c|sh l|b|b h].
  - apply HD. - apply HT. - apply HC. - apply HL.
  - apply HB. induction b as [|x b IHb]; constructor; [apply IH|exact IHb].
  - apply HTr; [induction b as [|x b IHb]|induction h as [|x h IHh]]; constructor; try apply IH; assumption.
Qed.
Lemma all_forall : forall P : stmt -> Prop, (forall s, P s) -> forall l, Forall P l.
Proof. intros P H l. induction l; constructor; auto. Qed.

Lemma nested_app : forall v w, nested v -> nested w -> nested (v ++ w).
Proof.
  intros v w H K. induction H as [|n v H IH|c v1 v2 H1 IH1 H2 IH2|sh l v1 v2 H1 IH1 H2 IH2]; cbn; [exact K|constructor; exact IH| |];
    rewrite <- app_assoc; cbn; constructor; assumption.
Qed.

Lemma good_dtors : forall bad c k, bad c = false -> dtors bad k c = (repeat (Clean c) k, Ok).
Proof. intros bad c k H. induction k as [|k IH]; [reflexivity|]. cbn. rewrite H, IH. reflexivity. Qed.

Lemma nested_list : forall bad, (forall c, bad c = false) -> forall l,
  Forall (fun s => nested (fst (one 0 bad s)) /\ snd (one 0 bad s) <> Dead) l ->
  nested (fst (exec 0 bad l)) /\ snd (exec 0 bad l) <> Dead.
Proof.
  intros bad HB l F. unfold exec. induction F as [|s l Hs F IH]; [split; [constructor|discriminate]|]. destruct IH as [IH1 IH2].
  assert (G : nested (fst (andthen (one 0 bad s) (list_ 0 bad (one 0 bad) l))) /\ snd (andthen (one 0 bad s) (list_ 0 bad (one 0 bad) l)) <> Dead).
  { destruct (one 0 bad s) as [w o]. cbn [fst snd] in Hs. destruct Hs as [Hs1 Hs2]. destruct o; cbn; auto. split; [apply nested_app; assumption|exact IH2]. }
  destruct s; try exact G; clear G; cbn [list_ dtors andthen fst snd app]; destruct (list_ 0 bad (one 0 bad) l) as [w o]; cbn [fst snd] in *;
    unfold leave, dtor; cbn [fst snd]; rewrite ?HB; destruct o; try congruence; cbn [fst snd]; (split; [constructor; [exact IH1|constructor]|discriminate]).
Qed.
Lemma nested_one : forall bad, (forall c, bad c = false) -> forall s, nested (fst (one 0 bad s)) /\ snd (one 0 bad s) <> Dead.
Proof.
  intros bad HB s. induction s as [n| |c|sh l|b Hb|b h Hb Hh] using stmt_ind2; try (split; [repeat constructor|discriminate]).
  - exact (nested_list bad HB b Hb).
  - pose proof (nested_list bad HB b Hb) as [B1 B2]. pose proof (nested_list bad HB h Hh) as [H1 H2]. unfold exec in *. cbn [one].
    destruct (list_ 0 bad (one 0 bad) b) as [w o]. cbn [fst snd] in *. destruct o; cbn [fst snd]; [auto| |congruence].
    split; [apply nested_app; assumption|exact H2].
Qed.

(** Whatever a function does, whether it returns or throws: every guard is left exactly
    once, inner ones first, nothing happens outside. Missing: callbacks that throw, and
    compilers that copy the guard; both refuted below. *)
Theorem C138_nested_partial : forall bad p, (forall c, bad c = false) -> nested (fst (exec 0 bad p)) /\ snd (exec 0 bad p) <> Dead.
Proof. intros bad p HB. apply nested_list; [exact HB|]. apply all_forall. apply nested_one. exact HB. Qed.

(** A guard encloses exactly what follows it in its block: if what comes before runs to its
    end, the callback is called once, at the end of the rest, whichever way that ends. *)
Theorem C138_scope : forall bad p c r, (forall c, bad c = false) -> snd (exec 0 bad p) = Ok ->
  exists a b, fst (exec 0 bad (p ++ Cleanup c :: r)) = a ++ Open c :: fst (exec 0 bad r) ++ Clean c :: b /\
    snd (exec 0 bad (p ++ Cleanup c :: r)) = snd (exec 0 bad r).
Proof.
  intros bad p c r HB. unfold exec.
  assert (ND : snd (list_ 0 bad (one 0 bad) r) <> Dead) by (apply (C138_nested_partial bad r HB)).
  assert (G : forall w o, list_ 0 bad (one 0 bad) r = (w, o) -> o <> Dead ->
    list_ 0 bad (one 0 bad) (Cleanup c :: r) = (Open c :: w ++ [Clean c], o)).
  { intros w o E N. cbn [list_ dtors andthen fst snd app]. rewrite E. unfold leave, dtor. cbn [fst snd]. rewrite HB. destruct o; try congruence; reflexivity. }
  destruct (list_ 0 bad (one 0 bad) r) as [w o] eqn:E. cbn [fst snd] in *. specialize (G w o eq_refl ND). cbn [fst snd].
  induction p as [|s p IH]; intros H.
  - cbn [app]. rewrite G. exists [], []. split; reflexivity.
  - cbn [app].
    assert (A : snd (andthen (one 0 bad s) (list_ 0 bad (one 0 bad) p)) = Ok ->
      exists a b, fst (andthen (one 0 bad s) (list_ 0 bad (one 0 bad) (p ++ Cleanup c :: r))) = a ++ Open c :: w ++ Clean c :: b /\
        snd (andthen (one 0 bad s) (list_ 0 bad (one 0 bad) (p ++ Cleanup c :: r))) = o).
    { intros K. destruct (one 0 bad s) as [w1 o1]. destruct o1; cbn [andthen fst snd] in K |- *; try discriminate. destruct (IH K) as (a & b & E1 & E2).
      exists (w1 ++ a), b. rewrite E1, <- app_assoc. auto. }
    destruct s; try exact (A H); clear A; cbn [list_ dtors andthen fst snd app] in H |- *.
    + destruct (list_ 0 bad (one 0 bad) p) as [w1 o1]. unfold leave, dtor in H. cbn [fst snd] in *. destruct o1; cbn [fst snd] in H; rewrite ?HB in H; try discriminate.
      destruct (IH eq_refl) as (a & b & E1 & E2). unfold leave, dtor. rewrite E1, E2. cbn [fst snd]. rewrite ?HB.
      exists (Open c0 :: a), (b ++ [Clean c0]). destruct o; try congruence; cbn [fst snd app]; rewrite <- !app_assoc; cbn [app]; rewrite <- !app_assoc; split; reflexivity.
    + destruct (list_ 0 bad (one 0 bad) p) as [w1 o1]. unfold leave in H. cbn [fst snd] in *. destruct o1; cbn [fst snd] in H; try discriminate.
      destruct (IH eq_refl) as (a & b & E1 & E2). unfold leave. rewrite E1, E2. cbn [fst snd].
      exists (Acq sh l :: a), (b ++ [Rel sh l]). destruct o; try congruence; cbn [fst snd app]; rewrite <- !app_assoc; cbn [app]; rewrite <- !app_assoc; split; reflexivity.
Qed.

Lemma count_app : forall f v w, count f (v ++ w) = count f v + count f w.
Proof. intros f v w. unfold count. rewrite filter_app, app_length. reflexivity. Qed.
Lemma count_cons : forall f e w, count f (e :: w) = (if f e then 1 else 0) + count f w.
Proof. intros f e w. unfold count. cbn. destruct (f e); reflexivity. Qed.
Lemma count_rep : forall f e k, count f (repeat e k) = (if f e then k else 0).
Proof. intros f e k. induction k as [|k IH]; cbn [repeat]; [destruct (f e); reflexivity|]. rewrite count_cons, IH. destruct (f e); lia. Qed.

Definition even_ (n : nat) (x : nat) (r : list ev * out) : Prop :=
  count (is_clean x) (fst r) = S n * count (is_open x) (fst r) /\ snd r <> Dead.
Lemma even_list : forall n bad x, (forall c, bad c = false) -> forall l,
  Forall (fun s => even_ n x (one n bad s)) l -> even_ n x (exec n bad l).
Proof.
  intros n bad x HB l F. unfold exec. induction F as [|s l Hs F IH]; [split; [cbn; lia|discriminate]|].
  assert (G : even_ n x (andthen (one n bad s) (list_ n bad (one n bad) l))).
  { unfold even_ in *. destruct (one n bad s) as [w o]. cbn [fst snd] in Hs. destruct Hs as [Hs1 Hs2]. destruct IH as [I1 I2]. destruct o; cbn [andthen fst snd]; auto. split; [rewrite !count_app; nia|exact I2]. }
  destruct s; try exact G; clear G; cbn [list_]; unfold even_ in *; destruct (list_ n bad (one n bad) l) as [w o]; cbn [fst snd] in IH; destruct IH as [I1 I2].
  - rewrite good_dtors by apply HB. cbn [andthen fst snd app]. unfold leave, dtor. cbn [fst snd]. rewrite ?HB.
    destruct o; try congruence; cbn [fst snd app]; (split; [|discriminate]); rewrite !count_cons, !count_app, !count_rep, !count_cons; cbn [is_clean is_open];
      destruct (c =? x); change (count (is_clean x) []) with 0; change (count (is_open x) []) with 0; nia.
  - cbn [andthen fst snd app]. unfold leave. cbn [fst snd].
    destruct o; try congruence; cbn [fst snd app]; (split; [|discriminate]); rewrite !count_cons, !count_app, !count_cons; cbn [is_clean is_open];
      change (count (is_clean x) []) with 0; change (count (is_open x) []) with 0; nia.
Qed.
Lemma even_one : forall n bad x, (forall c, bad c = false) -> forall s, even_ n x (one n bad s).
Proof.
  intros n bad x HB s. induction s as [m| |c|sh l|b Hb|b h Hb Hh] using stmt_ind2; try (split; [cbn; lia|discriminate]).
  - exact (even_list n bad x HB b Hb).
  - pose proof (even_list n bad x HB b Hb) as [B1 B2]. pose proof (even_list n bad x HB h Hh) as [H1 H2]. unfold exec, even_ in *. cbn [one].
    destruct (list_ n bad (one n bad) b) as [w o]. cbn [fst snd] in *. destruct o; cbn [fst snd]; [auto| |congruence].
    split; [rewrite !count_app; nia|exact H2].
Qed.
(** With [n] copies every callback is called [n + 1] times for each guard. *)
Theorem C138_calls : forall n bad p x, (forall c, bad c = false) ->
  count (is_clean x) (fst (exec n bad p)) = S n * count (is_open x) (fst (exec n bad p)).
Proof. intros n bad p x HB. apply (even_list n bad x HB p). apply all_forall. apply even_one. exact HB. Qed.

(** One copy, as C++14 allows (AutoCleanup.h 48 keeps the copy constructor then, and on every
    compiler that does not know Microsoft's _HAS_CXX17): the callback is called before the
    scope's first statement, and again at its end. *)
Theorem C138_copied_refuted : forall n bad c a, bad c = false -> 1 <= n ->
  exists v, fst (exec n bad [Cleanup c; Do a]) = Open c :: Clean c :: v ++ [Did a; Clean c].
Proof.
  intros n bad c a HB Hn. destruct n as [|n]; [lia|]. exists (repeat (Clean c) n).
  unfold exec. cbn [list_]. rewrite good_dtors by exact HB. unfold leave, dtor. cbn. rewrite ?HB. cbn. reflexivity.
Qed.

(** A callback that throws ends the process, also where the function would have caught the
    exception; outer guards are not left. *)
Theorem C138_throws_refuted : forall bad c d p, (forall e, bad e = (e =? c)) -> c <> d -> snd (exec 0 bad p) <> Dead ->
  snd (exec 0 bad [Cleanup d; Try (Cleanup c :: p) []]) = Dead /\
  count (is_clean d) (fst (exec 0 bad [Cleanup d; Try (Cleanup c :: p) []])) = count (is_clean d) (fst (exec 0 bad p)).
Proof.
  intros bad c d p HB N D. unfold exec in *.
  assert (E : bad c = true) by (rewrite HB; apply Nat.eqb_refl).
  assert (Q : (c =? d) = false) by (apply Nat.eqb_neq; congruence).
  assert (G : list_ 0 bad (one 0 bad) [Cleanup d; Try (Cleanup c :: p) []] = (Open d :: Open c :: fst (list_ 0 bad (one 0 bad) p) ++ [Clean c], Dead)).
  { cbn [list_ one dtors andthen fst snd app]. destruct (list_ 0 bad (one 0 bad) p) as [w o]. cbn [fst snd] in D. unfold leave, dtor. cbn [fst snd]. rewrite E.
    destruct o; try congruence; reflexivity. }
  rewrite G. split; [reflexivity|]. cbn [fst]. rewrite !count_cons, count_app, count_cons. cbn [is_clean]. rewrite Q. cbn. unfold count. lia.
Qed.

(** ** Threads *)
Definition done (s : list thread) : Prop := forall t, In t s -> t = ([], []).
Definition stuck (recu : nat -> bool) (s : list thread) : Prop := forall i, step recu s i = None.
(** Locks are taken in ascending order, or again by their owner; [h]: those held. *)
Section Up.
Variables (recu : nat -> bool) (rank : nat -> nat).
Definition may (h : list nat) (l : nat) : Prop := (recu l = true /\ In l h) \/ forall m, In m h -> rank m < rank l.
Section L.
Variable up1 : list nat -> stmt -> Prop.
Fixpoint up_l (h : list nat) (p : list stmt) : Prop :=
  match p with
  | [] => True
  | Lock sh l :: p => (sh = true -> recu l = false) /\ may h l /\ up_l (l :: h) p
  | s :: p => up1 h s /\ up_l h p
  end.
End L.
Fixpoint up1 (h : list nat) (s : stmt) : Prop :=
  match s with
  | Block b => up_l up1 h b
  | Try b c => up_l up1 h b /\ up_l up1 h c
  | _ => True
  end.
End Up.
(** A function that takes its locks in order. *)
Definition upward (recu : nat -> bool) (rank : nat -> nat) (p : list stmt) : Prop := up_l recu rank (up1 recu rank) [] p.

Lemma others_true : forall P s i, others P s i = true -> exists j t, j <> i /\ nth_error s j = Some t /\ P t = true.
Proof.
  intros P s. induction s as [|x s IH]; intros i H; cbn in H; [discriminate|]. destruct i as [|i].
  - apply existsb_exists in H. destruct H as (t & Ht & HP). apply In_nth_error in Ht. destruct Ht as (j & Hj). exists (S j), t. auto.
  - apply orb_true_iff in H. destruct H as [H|H]; [exists 0, x; auto|]. destruct (IH i H) as (j & t & N & Hj & HP). exists (S j), t. auto.
Qed.
Lemma others_false : forall P s i, others P s i = false -> forall j t, j <> i -> nth_error s j = Some t -> P t = false.
Proof.
  intros P s. induction s as [|x s IH]; intros i H j t N Hj; [destruct j; discriminate|]. cbn in H. destruct i as [|i].
  - destruct j as [|j]; [congruence|]. cbn in Hj. destruct (P t) eqn:E; [|reflexivity]. assert (existsb P s = true) by (apply existsb_exists; exists t; split; [eapply nth_error_In; exact Hj|exact E]). congruence.
  - apply orb_false_iff in H. destruct H as [H1 H2]. destruct j as [|j]; cbn in Hj; [congruence|]. apply (IH i H2 j t); [congruence|exact Hj].
Qed.
Lemma hx_h : forall l t, holds_x l t = true -> holds l t = true.
Proof.
  intros l t H. unfold holds_x, holds in *. apply existsb_exists in H. destruct H as (x & Hx & E). apply andb_true_iff in E. apply existsb_exists. exists x. tauto.
Qed.
Lemma holds_in : forall l t, holds l t = true <-> In l (map snd (snd t)).
Proof.
  intros l t. unfold holds. rewrite existsb_exists, in_map_iff. split; intros (x & A & B).
  - exists x. split; [apply Nat.eqb_eq; exact B|exact A].
  - exists x. split; [exact B|apply Nat.eqb_eq; exact A].
Qed.

Definition excl (s : list thread) : Prop :=
  forall i j t u l, i <> j -> nth_error s i = Some t -> nth_error s j = Some u -> holds_x l t = true -> holds l u = false.
Lemma excl_set : forall s i t t', excl s -> nth_error s i = Some t ->
  (forall l, holds_x l t' = true -> holds_x l t = true \/ others (holds l) s i = false) ->
  (forall l, holds l t' = true -> holds l t = true \/ others (holds_x l) s i = false) -> excl (set s i t').
Proof.
  intros s i t t' I H HX HH a b u v l N Ha Hb Hx. apply nth_set in Ha. apply nth_set in Hb.
  destruct Ha as [[<- ->]|[Na Ha]]; destruct Hb as [[<- ->]|[Nb Hb]]; [congruence| | |exact (I a b u v l N Ha Hb Hx)].
  - destruct (HX l Hx) as [X|X]; [exact (I i b t v l N H Hb X)|]. exact (others_false _ _ _ X b v ltac:(congruence) Hb).
  - destruct (holds l t') eqn:E; [|reflexivity]. destruct (HH l E) as [X|X]; [|pose proof (others_false _ _ _ X a u ltac:(congruence) Ha); congruence].
    pose proof (I a i u t l N Ha H Hx). congruence.
Qed.
Lemma excl_step : forall recu s i s', excl s -> step recu s i = Some s' -> excl s'.
Proof.
  intros recu s i s' I H. unfold step in H. destruct (nth_error s i) as [[[|e w] h]|] eqn:E; try discriminate.
  assert (SAME : forall w', excl (set s i (w', h))) by (intros w'; eapply excl_set; [exact I|exact E| |]; intros l X; left; exact X).
  destruct e as [n|c|c|sh l|sh l]; try (injection H as <-; apply SAME).
  - destruct (free recu s i (Acq sh l :: w, h) sh l) eqn:F; [|discriminate]. injection H as <-.
    unfold free in F. destruct sh; apply andb_true_iff in F; destruct F as [F1 F2]; apply negb_true_iff in F1.
    + eapply excl_set; [exact I|exact E| |]; intros m X; unfold holds, holds_x in X |- *; cbn [snd fst existsb negb] in X |- *.
      * rewrite andb_false_r in X. left. exact X.
      * destruct (Nat.eqb_spec l m) as [->|Nm]; [right; exact F1|left; exact X].
    + eapply excl_set; [exact I|exact E| |]; intros m X; unfold holds, holds_x in X |- *; cbn [snd fst existsb negb] in X |- *.
      * destruct (Nat.eqb_spec l m) as [->|Nm]; [right; exact F1|left; exact X].
      * destruct (Nat.eqb_spec l m) as [->|Nm]; [right|left; exact X].
        destruct (others (holds_x m) s i) eqn:O; [|unfold holds_x in O; exact O]. destruct (others_true _ _ _ O) as (j & u & Nj & Hj & P).
        pose proof (others_false _ _ _ F1 j u Nj Hj). apply hx_h in P. congruence.
  - destruct h as [|[sh' l'] h]; [discriminate|]. destruct (eqb sh sh' && (l =? l')); [|discriminate]. injection H as <-.
    eapply excl_set; [exact I|exact E| |]; intros m X; left; unfold holds, holds_x in *; cbn [snd fst existsb] in X |- *; rewrite X; apply orb_true_r.
Qed.
Lemma excl_start : forall copies bad ps, excl (start copies bad ps).
Proof.
  intros copies bad ps i j t u l N Hi Hj H. unfold start in Hi. apply nth_error_In in Hi. apply in_map_iff in Hi. destruct Hi as (p & <- & _). cbn in H. discriminate.
Qed.

(** While a thread is inside an AutoLock no other thread is inside an AutoLock or
    AutoSharedLock of the same lock. *)
Theorem C139_exclusive : forall recu copies bad ps l s, run recu (start copies bad ps) l = Some s ->
  forall i j t u m, i <> j -> nth_error s i = Some t -> nth_error s j = Some u -> In (false, m) (snd t) -> forall b, ~ In (b, m) (snd u).
Proof.
  intros recu copies bad ps l s H i j t u m N Hi Hj Hin b Hb.
  assert (I : excl s).
  { pose proof (excl_start copies bad ps) as I. revert I H. generalize (start copies bad ps). induction l as [|k l IH]; intros s0 I H; cbn in H; [injection H as <-; exact I|].
    destruct (step recu s0 k) as [s1|] eqn:E; [|discriminate]. apply (IH s1); [eapply excl_step; eauto|exact H]. }
  assert (X : holds_x m t = true). { apply existsb_exists. exists (false, m). cbn. rewrite Nat.eqb_refl. auto. }
  pose proof (I i j t u m N Hi Hj X) as Y. assert (Z : holds m u = true) by (apply holds_in; apply in_map_iff; exists (b, m); auto). congruence.
Qed.

(** Readers do not wait for readers. *)
Theorem C139_shared : forall recu (s : list thread) i w h l, nth_error s i = Some (Acq true l :: w, h) ->
  (forall t, In t s -> ~ In (false, l) (snd t)) -> step recu s i = Some (set s i (w, (true, l) :: h)).
Proof.
  intros recu s i w h l H N. unfold step. rewrite H. unfold free.
  assert (X : forall t, In t s -> holds_x l t = false).
  { intros t Ht. destruct (holds_x l t) eqn:E; [|reflexivity]. apply existsb_exists in E. destruct E as ([b m] & Hin & E). cbn in E. apply andb_true_iff in E. destruct E as [E1 E2].
    apply Nat.eqb_eq in E1. subst m. destruct b; [discriminate|]. destruct (N t Ht Hin). }
  rewrite (X _ (nth_error_In _ _ H)). destruct (others (holds_x l) s i) eqn:O; [|reflexivity].
  destruct (others_true _ _ _ O) as (j & u & _ & Hj & P). rewrite (X u (nth_error_In _ _ Hj)) in P. discriminate.
Qed.

(** ** Progress *)
Section Progress.
Variables (recu : nat -> bool) (rank : nat -> nat).
Fixpoint okw (h : list (bool * nat)) (w : list ev) : Prop :=
  match w with
  | [] => h = []
  | Acq sh l :: w => (sh = true -> recu l = false) /\ may recu rank (map snd h) l /\ okw ((sh, l) :: h) w
  | Rel sh l :: w => match h with (sh', l') :: h => sh = sh' /\ l = l' /\ okw h w | [] => False end
  | _ :: w => okw h w
  end.
Lemma okw_clean : forall c k h w, okw h w -> okw h (repeat (Clean c) k ++ w).
Proof. intros c k h w H. induction k as [|k IH]; cbn; auto. Qed.

Definition keeps (f : list nat -> Prop) (r : list ev * out) : Prop :=
  snd r <> Dead /\ forall h w, f (map snd h) -> okw h w -> okw h (fst r ++ w).
Lemma keeps_list : forall copies bad, (forall c, bad c = false) -> forall p,
  Forall (fun s => keeps (fun h => up1 recu rank h s) (one copies bad s)) p -> keeps (fun h => up_l recu rank (up1 recu rank) h p) (exec copies bad p).
Proof.
  intros copies bad HB p F. unfold exec. induction F as [|s p Hs F IH]; [split; [discriminate|intros h w _ H; exact H]|]. destruct IH as [I1 I2].
  assert (G : keeps (fun h => up1 recu rank h s /\ up_l recu rank (up1 recu rank) h p) (andthen (one copies bad s) (list_ copies bad (one copies bad) p))).
  { destruct (one copies bad s) as [v o]. destruct Hs as [H1 H2]. cbn [fst snd] in H1, H2. split.
    - destruct o; cbn [andthen fst snd]; [exact I1|discriminate|congruence].
    - intros h w [U1 U2] K. destruct o; cbn [andthen fst snd]; [|apply H2; assumption|congruence].
      rewrite <- app_assoc. apply H2; [exact U1|]. apply I2; assumption. }
  destruct s; try exact G; clear G; cbn [list_].
  - rewrite good_dtors by apply HB. cbn [andthen fst snd app]. destruct (list_ copies bad (one copies bad) p) as [v o]. cbn [fst snd] in I1, I2.
    unfold leave, dtor. cbn [fst snd]. rewrite ?HB. split; [destruct o; cbn; congruence|]. intros h w [_ U] K.
    assert (X : okw h (repeat (Clean c) copies ++ v ++ Clean c :: w)) by (apply okw_clean; apply I2; [exact U|exact K]).
    destruct o; cbn [fst snd app]; try congruence; cbn [okw]; rewrite <- !app_assoc; cbn [app]; exact X.
  - cbn [andthen fst snd app]. destruct (list_ copies bad (one copies bad) p) as [v o]. cbn [fst snd] in I1, I2.
    unfold leave. cbn [fst snd]. split; [destruct o; cbn; congruence|]. intros h w (U1 & U2 & U3) K.
    assert (X : okw ((sh, l) :: h) (v ++ Rel sh l :: w)) by (apply I2; [exact U3|cbn; auto]).
    destruct o; cbn [fst snd app]; try congruence; cbn [okw]; (split; [exact U1|split; [exact U2|]]); rewrite <- !app_assoc; cbn [app]; exact X.
Qed.
Lemma keeps_one : forall copies bad, (forall c, bad c = false) -> forall s, keeps (fun h => up1 recu rank h s) (one copies bad s).
Proof.
  intros copies bad HB s. induction s as [n| |c|sh l|b Hb|b h Hb Hh] using stmt_ind2; try (split; [discriminate|intros h w _ H; exact H]).
  - exact (keeps_list copies bad HB b Hb).
  - pose proof (keeps_list copies bad HB b Hb) as [B1 B2]. pose proof (keeps_list copies bad HB h Hh) as [H1 H2]. unfold exec in *. cbn [one up1].
    destruct (list_ copies bad (one copies bad) b) as [v o]. cbn [fst snd] in *. split.
    + destruct o; cbn [fst snd]; [discriminate|exact H1|congruence].
    + intros g w [U1 U2] K. destruct o; cbn [fst snd]; [apply B2; assumption| |congruence]. rewrite <- app_assoc. apply B2; [exact U1|]. apply H2; assumption.
Qed.
Lemma ok_start : forall copies bad, (forall c, bad c = false) -> forall p, upward recu rank p -> okw [] (fst (exec copies bad p)).
Proof.
  intros copies bad HB p U. destruct (keeps_list copies bad HB p) as [_ K]; [apply all_forall; apply keeps_one; exact HB|].
  specialize (K [] [] U eq_refl). rewrite app_nil_r in K. exact K.
Qed.

Definition okt (t : thread) : Prop := okw (snd t) (fst t) /\ forall sh l, In (sh, l) (snd t) -> sh = true -> recu l = false.
Lemma okt_step : forall s i s', (forall t, In t s -> okt t) -> step recu s i = Some s' -> forall t, In t s' -> okt t.
Proof.
  intros s i s' I H. unfold step in H. destruct (nth_error s i) as [[[|e w] h]|] eqn:E; try discriminate.
  pose proof (I _ (nth_error_In _ _ E)) as [O1 O2]. cbn [fst snd] in O1, O2.
  assert (G : forall t', okt t' -> forall t, In t (set s i t') -> okt t).
  { intros t' K t Ht. apply In_nth_error in Ht. destruct Ht as (j & Hj). apply nth_set in Hj. destruct Hj as [[-> ->]|[N Hj]]; [exact K|]. apply I. eapply nth_error_In. exact Hj. }
  destruct e as [n|c|c|sh l|sh l]; cbn [okw] in O1; try (injection H as <-; apply G; split; [exact O1|exact O2]).
  - destruct (free recu s i (Acq sh l :: w, h) sh l); [|discriminate]. injection H as <-. destruct O1 as (P1 & P2 & P3). apply G. split; [exact P3|].
    cbn [snd]. intros sh' l' [X|X]; [injection X as <- <-; exact P1|exact (O2 sh' l' X)].
  - destruct h as [|[sh' l'] h]; [discriminate|]. destruct (eqb sh sh' && (l =? l')); [|discriminate]. injection H as <-. destruct O1 as (_ & _ & P3). apply G. split; [exact P3|].
    cbn [snd]. intros a b X. apply O2. right. exact X.
Qed.

Lemma nobody_waits : forall s, excl s -> (forall t, In t s -> okt t) -> stuck recu s ->
  forall n i sh l w h, nth_error s i = Some (Acq sh l :: w, h) ->
  (forall i' sh' l' w' h', nth_error s i' = Some (Acq sh' l' :: w', h') -> rank l' < n + rank l) -> False.
Proof.
  intros s X I ST n. induction n as [|n IH]; intros i sh l w h H B; [pose proof (B _ _ _ _ _ H); lia|].
  assert (NR : forall i sh l w h, nth_error s i = Some (Acq sh l :: w, h) -> forall m, In m (map snd h) -> rank m < rank l).
  { clear i sh l w h H B IH n. intros i sh l w h H. pose proof (I _ (nth_error_In _ _ H)) as [O1 O2]. cbn [fst snd okw] in O1, O2. destruct O1 as (P1 & [[P2 P3]|P2] & _); [|exact P2].
    exfalso. pose proof (ST i) as S. unfold step in S. rewrite H in S.
    assert (sh = false) as -> by (destruct sh; [rewrite (P1 eq_refl) in P2; discriminate|reflexivity]).
    unfold free in S. rewrite P2 in S. cbn [orb] in S. rewrite andb_true_r in S.
    destruct (others (holds l) s i) eqn:O; [|discriminate]. destruct (others_true _ _ _ O) as (j & u & N & Hj & HU).
    assert (HX : holds_x l (Acq false l :: w, h) = true).
    { apply existsb_exists. apply in_map_iff in P3. destruct P3 as ([a b] & E & P3). cbn in E. subst b. exists (a, l). split; [exact P3|]. cbn. rewrite Nat.eqb_refl.
      destruct a; [rewrite (O2 true l P3 eq_refl) in P2; discriminate|reflexivity]. }
    pose proof (X i j _ u l ltac:(congruence) H Hj HX). congruence. }
  assert (BL : exists j u, j <> i /\ nth_error s j = Some u /\ holds l u = true).
  { pose proof (ST i) as S. unfold step in S. rewrite H in S. destruct (free recu s i (Acq sh l :: w, h) sh l) eqn:F; [discriminate|].
    assert (NH : holds l (Acq sh l :: w, h) = false).
    { destruct (holds l (Acq sh l :: w, h)) eqn:E; [|reflexivity]. apply holds_in in E. pose proof (NR _ _ _ _ _ H l E). lia. }
    assert (NX : holds_x l (Acq sh l :: w, h) = false).
    { destruct (holds_x l (Acq sh l :: w, h)) eqn:E; [|reflexivity]. apply hx_h in E. congruence. }
    unfold free in F. rewrite NH, NX in F. cbn [negb] in F. rewrite orb_true_r, !andb_true_r in F. destruct sh; apply negb_false_iff in F;
      destruct (others_true _ _ _ F) as (j & u & N & Hj & P); exists j, u; (split; [exact N|split; [exact Hj|]]); [apply hx_h|]; exact P. }
  destruct BL as (j & [v g] & N & Hj & HU). apply holds_in in HU. cbn [snd] in HU.
  pose proof (I _ (nth_error_In _ _ Hj)) as [O1 _]. cbn [fst snd] in O1. pose proof (ST j) as S. unfold step in S. rewrite Hj in S.
  destruct v as [|[k|c|c|sh' l'|sh' l'] v]; cbn [okw] in O1; try discriminate.
  - subst g. destruct HU.
  - clear S. apply (IH j sh' l' v g Hj). intros a b c d e Ha. pose proof (B a b c d e Ha). pose proof (NR _ _ _ _ _ Hj l HU). lia.
  - destruct g as [|[a b] g]; [destruct O1|]. destruct O1 as (-> & -> & _). rewrite eqb_reflx, Nat.eqb_refl in S. discriminate.
Qed.

Lemma top_rank : forall s : list thread, exists n, forall i sh l w h, nth_error s i = Some (Acq sh l :: w, h) -> rank l < n.
Proof.
  induction s as [|x s (n & IH)]; [exists 0; intros [|i] sh l w h H; discriminate|].
  exists (n + match fst x with Acq _ l :: _ => S (rank l) | _ => 0 end). intros [|i] sh l w h H; cbn in H; [injection H as ->; cbn; lia|].
  pose proof (IH _ _ _ _ _ H). lia.
Qed.
End Progress.

(** Functions that take their locks in one order (a CriticalSection also again and again),
    on any number of threads, return or throw in all schedules, and no lock stays taken. *)
Theorem C139_finishes_partial : forall recu rank copies bad ps l s, (forall c, bad c = false) ->
  (forall p, In p ps -> upward recu rank p) -> run recu (start copies bad ps) l = Some s -> stuck recu s -> done s.
Proof.
  intros recu rank copies bad ps l s HB U H ST.
  assert (G : excl s /\ forall t, In t s -> okt recu rank t).
  { assert (I : excl (start copies bad ps) /\ forall t, In t (start copies bad ps) -> okt recu rank t).
    { split; [apply excl_start|]. intros t Ht. apply in_map_iff in Ht. destruct Ht as (p & <- & Hp). split; [|intros sh m []]. cbn [fst snd].
      apply ok_start; [exact HB|auto]. }
    revert I H. generalize (start copies bad ps). induction l as [|k l IH]; intros s0 [I1 I2] H; cbn in H; [injection H as <-; auto|].
    destruct (step recu s0 k) as [s1|] eqn:E; [|discriminate]. apply (IH s1); [|exact H]. split; [eapply excl_step; eauto|]. intros t Ht. exact (okt_step recu rank s0 k s1 I2 E t Ht). }
  destruct G as [X I]. intros [w h] Ht. pose proof (I _ Ht) as [O1 _]. apply In_nth_error in Ht. destruct Ht as (i & Hi). cbn [fst snd] in O1.
  pose proof (ST i) as S. unfold step in S. rewrite Hi in S. destruct w as [|[k|c|c|sh m|sh m] w]; cbn [okw] in O1; try discriminate.
  - subst h. reflexivity.
  - exfalso. clear S. destruct (top_rank rank s) as (n & Hn). apply (nobody_waits recu rank s X I ST n i sh m w h Hi). intros a b c d e Ha. pose proof (Hn _ _ _ _ _ Ha). lia.
  - exfalso. destruct h as [|[a b] h]; [destruct O1|]. destruct O1 as (-> & -> & _). rewrite eqb_reflx, Nat.eqb_refl in S. discriminate.
Qed.

(** Every run ends: a step takes one event from what is left. *)
Theorem C139_ends : forall recu l s s', run recu s l = Some s' ->
  length l + suml (fun t : thread => length (fst t)) s' = suml (fun t : thread => length (fst t)) s.
Proof.
  intros recu l. induction l as [|i l IH]; intros s s' H; cbn in H; [injection H as <-; reflexivity|].
  destruct (step recu s i) as [s1|] eqn:E; [|discriminate]. pose proof (IH _ _ H) as K. cbn [length].
  assert (G : S (suml (fun t : thread => length (fst t)) s1) = suml (fun t : thread => length (fst t)) s).
  { unfold step in E. destruct (nth_error s i) as [[[|e w] h]|] eqn:N; try discriminate.
    assert (Q : exists h', s1 = set s i (w, h')).
    { destruct e as [n|c|c|sh m|sh m]; try (injection E as <-; eexists; reflexivity).
      - destruct (free recu s i (Acq sh m :: w, h) sh m); [|discriminate]. injection E as <-. eexists. reflexivity.
      - destruct h as [|[a b] h]; [discriminate|]. destruct (eqb sh a && (m =? b)); [|discriminate]. injection E as <-. eexists. reflexivity. }
    destruct Q as (h' & ->). pose proof (suml_set _ (fun t : thread => length (fst t)) s i _ (w, h') N) as Q. cbn [fst length] in Q. lia. }
  lia.
Qed.

(** Two threads that take two locks in opposite orders can stop each other for ever. *)
Theorem C139_order_refuted : forall recu, exists ps l s, run recu (start 0 (fun _ => false) ps) l = Some s /\ stuck recu s /\ ~ done s.
Proof.
  intros recu. exists [[Lock false 0; Lock false 1]; [Lock false 1; Lock false 0]], [0; 1].
  eexists. split; [|split].
  - cbn. rewrite !orb_true_r. cbn. rewrite !orb_true_r. reflexivity.
  - intros [|[|i]]; try reflexivity. unfold step. cbn. destruct i; reflexivity.
  - intros D. specialize (D _ (or_introl eq_refl)). discriminate.
Qed.
(** AutoLock of an SRWLock inside AutoLock or AutoSharedLock of the same: one thread suffices. *)
Theorem C139_again_refuted : forall recu m sh, recu m = false ->
  exists s, run recu (start 0 (fun _ => false) [[Lock sh m; Block [Lock false m]]]) [0] = Some s /\ stuck recu s /\ ~ done s.
Proof.
  intros recu m sh R. eexists. split; [|split].
  - cbn. destruct sh; cbn; rewrite ?orb_true_r; reflexivity.
  - intros [|i]; [|destruct i; reflexivity]. unfold step. cbn. unfold free, holds. cbn. rewrite R, Nat.eqb_refl. reflexivity.
  - intros D. specialize (D _ (or_introl eq_refl)). discriminate.
Qed.

(** ** Cases *)
Definition none_bad : nat -> bool := fun _ => false.
(** Two guards, an exception in an inner block with a third one, caught. *)
Example ex_scope : exec 0 none_bad [Cleanup 1; Try [Cleanup 2; Do 10; Block [Cleanup 3; Throw; Do 11]; Do 12] [Do 13]; Cleanup 4; Do 14] =
  ([Open 1; Open 2; Did 10; Open 3; Clean 3; Clean 2; Did 13; Open 4; Did 14; Clean 4; Clean 1], Ok).
Proof. reflexivity. Qed.
Example ex_copied : exec 1 none_bad [Cleanup 1; Do 10] = ([Open 1; Clean 1; Did 10; Clean 1], Ok).
Proof. reflexivity. Qed.
Example ex_bad : exec 0 (fun c => c =? 2) [Cleanup 1; Try [Cleanup 2; Do 10] [Do 11]] = ([Open 1; Open 2; Did 10; Clean 2], Dead).
Proof. reflexivity. Qed.
(** The second thread throws in its inner block; the first one takes its CriticalSection 0
    twice. *)
Definition two : list (list stmt) := [[Lock false 0; Lock false 1; Lock false 0; Do 1]; [Try [Lock true 1; Throw] [Lock false 0; Do 2]]].
Example ex_two_up : forall p, In p two -> upward (fun l => l =? 0) (fun l => l) p.
Proof.
  intros p [<-|[<-|[]]]; unfold upward, may; cbn.
  - split; [discriminate|]. split; [right; intros m []|]. split; [discriminate|]. split; [right; intros m [<-|[]]; lia|].
    split; [discriminate|]. split; [left; split; [reflexivity|right; left; reflexivity]|]. repeat split.
  - split; [|exact I]. split.
    + split; [reflexivity|]. split; [right; intros m []|]. repeat split.
    + split; [discriminate|]. split; [right; intros m []|]. repeat split.
Qed.
Example ex_two_run : run (fun l => l =? 0) (start 0 none_bad two) [1; 0; 1; 0; 0; 0; 0; 0; 0; 1; 1; 1] = Some [([], []); ([], [])].
Proof. reflexivity. Qed.

Print Assumptions C138_nested_partial.
Print Assumptions C138_scope.
Print Assumptions C138_calls.
Print Assumptions C138_copied_refuted.
Print Assumptions C138_throws_refuted.
Print Assumptions C139_exclusive.
Print Assumptions C139_shared.
Print Assumptions C139_finishes_partial.
Print Assumptions C139_ends.
Print Assumptions C139_order_refuted.
Print Assumptions C139_again_refuted.
