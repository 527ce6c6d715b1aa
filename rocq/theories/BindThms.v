(** Property C130: methods bound to objects. *)
From Coq Require Import List Bool Arith Lia.
From Verif Require Import Slots SlotsProofs Threads BindModel.
Import ListNotations.

(** What must not happen: a method was called on something that is not an object, or an object was destroyed while one of
    its methods runs. *)
Definition wrong (s : st) : Prop :=
  List.In Bad (ths s) \/ (dead s = true /\ List.In In (ths s)).

(** * Invariant *)
Record Inv (k : kind) (null : bool) (s : st) : Prop := {
  iown : null = false -> (dead s = false <-> 0 < owners k s);
  inull : null = true -> dead s = false /\ kills s = 0 /\ calls s = 0 /\ forall t, nth_error (ths s) t <> Some In;
  ikills : kills s = if dead s then 1 else 0;
  icaps : caps s = 0 -> suml busy (ths s) = 0;
  ibad : null = false -> (k = Owner \/ k = Weak) -> forall t, nth_error (ths s) t <> Some Bad
}.

Lemma settle_Inv : forall k null s,
  (null = false -> dead s = true -> owners k s = 0) ->
  (null = true -> dead s = false /\ kills s = 0 /\ calls s = 0 /\ forall t, nth_error (ths s) t <> Some In) ->
  (kills s = if dead s then 1 else 0) -> (caps s = 0 -> suml busy (ths s) = 0) ->
  (null = false -> (k = Owner \/ k = Weak) -> forall t, nth_error (ths s) t <> Some Bad) ->
  Inv k null (settle k null s).
Proof.
  intros k null [e c d q ts n] O U K C B. unfold settle. destruct null; cbn in *.
  - constructor; cbn; auto; discriminate.
  - destruct d; cbn.
    + constructor; cbn; [intros _|discriminate|exact K|exact C|exact B]. rewrite O by auto. split; intros X; [discriminate X|lia].
    + match goal with |- Inv _ _ (if ?b then _ else _) => destruct b eqn:Z end; [apply Nat.eqb_eq in Z|apply Nat.eqb_neq in Z].
      * constructor; cbn; [intros _|discriminate|lia|exact C|exact B]. unfold owners in *. cbn in *. rewrite Z. split; intros X; [discriminate X|lia].
      * constructor; cbn; [intros _|discriminate|exact K|exact C|exact B]. unfold owners in *. cbn in *. split; auto. intros _. lia.
Qed.

Lemma init_Inv : forall k null n e, fits k null e -> Inv k null (init null n e).
Proof.
  intros k null n e F.
  assert (Z : suml busy (repeat Idle n) = 0) by (apply suml_repeat; reflexivity).
  assert (N : forall p, p <> Idle -> forall t, nth_error (repeat Idle n) t <> Some p).
  { intros p P t E. apply nth_error_In, repeat_spec in E. congruence. }
  constructor; cbn; auto.
  - intros ->. unfold owners; cbn. rewrite Z. split; auto. intros _. destruct F as [F|[->|F]]; [discriminate|lia|lia].
  - intros ->. repeat split; auto. apply N; discriminate.
  - intros _ _. apply N; discriminate.
Qed.

Lemma nth_set : forall A (l : list A) i j x y, nth_error (set l i x) j = Some y -> (i = j /\ y = x) \/ nth_error l j = Some y.
Proof.
  intros A l i j x y H. destruct (Nat.eq_dec i j) as [->|N]; [|rewrite nth_set_neq in H; auto].
  destruct (Nat.lt_ge_cases j (length l)); [rewrite nth_set_eq in H by auto; injection H as <-; auto|].
  assert (L : length (set l j x) <= j) by (rewrite set_length; auto). apply nth_error_None in L. congruence.
Qed.

Lemma step_Inv : forall k null s a s', Inv k null s -> step k null s a = Some s' -> Inv k null s'.
Proof.
  intros k null s a s' [O U K C B] E. destruct s as [e c d q ts n]. cbn in *. destruct a as [| | | |t|t|t]; cbn in E.
  - destruct e; [discriminate|]. injection E as <-. constructor; cbn; auto. intros N. specialize (O N). unfold owners in *; cbn in *. split; intros X; [lia|apply O; lia].
  - destruct e; [discriminate|]. injection E as <-. apply settle_Inv; cbn; auto. intros N D. specialize (O N). subst d. unfold owners in *; cbn in *.
    exfalso. assert (true = false) by (apply O; lia). discriminate.
  - destruct c; [discriminate|]. injection E as <-. constructor; cbn; auto; try discriminate. intros N. specialize (O N). unfold owners in *; cbn in *. destruct k; try exact O. split; intros X; [lia|apply O; lia].
  - destruct c; [discriminate|]. destruct ((c =? 0) && negb (suml busy ts =? 0)) eqn:G; [discriminate|]. injection E as <-. apply settle_Inv; cbn; auto.
    + intros N D. specialize (O N). subst d. unfold owners in *; cbn in *.
      assert (~ 0 < e + match k with Owner => S c | _ => 0 end + match k with Weak => suml busy ts | _ => 0 end) by (intros X; apply O in X; discriminate).
      destruct k; lia.
    + intros ->. cbn in G. destruct (suml busy ts =? 0) eqn:Z; [apply Nat.eqb_eq in Z; exact Z|discriminate].
  - destruct (nth_error ts t) as [[]|] eqn:H; try discriminate. destruct c as [|c]; [discriminate|]. injection E as <-.
    pose proof (suml_set _ busy ts t Idle) as SM.
    set (p := match k with Owner | Unsafe => Got | _ => if there null (St e (S c) d q ts n) then Got else Threw end).
    specialize (SM p H). cbn in SM. assert (Pp : p = Got \/ p = Threw) by (unfold p; destruct k; auto; destruct (there _ _); auto).
    constructor; cbn; auto.
    + intros N. specialize (O N). unfold owners in *; cbn in *. destruct k; auto; try (exact O).
      unfold p in SM |- *. cbn. unfold there in *; cbn in *. rewrite N in *. cbn in *. destruct d; cbn in *.
      * replace (suml busy (set ts t Threw)) with (suml busy ts) by lia. exact O.
      * split; [lia|]. auto.
    + intros N. destruct (U N) as (U1 & U2 & U3 & U4). repeat split; auto. intros j X. apply nth_set in X. destruct X as [(_ & X)|X]; [destruct Pp; congruence|exact (U4 j X)].
    + discriminate.
    + intros N KK j X. apply nth_set in X. destruct X as [(_ & X)|X]; [destruct Pp; congruence|exact (B N KK j X)].
  - destruct (nth_error ts t) as [[]|] eqn:H; try discriminate. injection E as <-. pose proof (suml_set _ busy ts t Got) as SM.
    pose proof (suml_ge _ busy ts t Got H) as GE. cbn in GE.
    destruct (there null (St e c d q ts n)) eqn:Th; unfold there in Th; cbn in Th.
    + apply andb_true_iff in Th. destruct Th as (T1 & T2). apply negb_true_iff in T1, T2. subst null d. specialize (SM In H). cbn in SM.
      constructor; cbn; auto; try discriminate.
      * intros _. specialize (O eq_refl). unfold owners in *; cbn in *. replace (suml busy (set ts t In)) with (suml busy ts) by lia. exact O.
      * intros Z. specialize (C Z). lia.
      * intros N KK j X. apply nth_set in X. destruct X as [(_ & X)|X]; [congruence|exact (B N KK j X)].
    + specialize (SM Bad H). cbn in SM. constructor; cbn; auto.
      * intros N. specialize (O N). subst null. cbn in Th. apply negb_false_iff in Th. subst d. unfold owners in *; cbn in *.
        split; [discriminate|]. intros X. assert (true = false); [|discriminate]. apply O. destruct k; lia.
      * intros N. destruct (U N) as (U1 & U2 & U3 & U4). repeat split; auto. intros j X. apply nth_set in X. destruct X as [(_ & X)|X]; [congruence|exact (U4 j X)].
      * intros Z. specialize (C Z). lia.
      * intros N KK j X. specialize (O N). subst null. cbn in Th. apply negb_false_iff in Th. subst d. exfalso.
        assert (X1 : true = false); [|discriminate]. apply O. unfold owners; cbn. destruct KK as [->| ->]; [|lia].
        destruct c; [specialize (C eq_refl); lia|lia].
  - destruct (nth_error ts t) as [[]|] eqn:H; try discriminate. injection E as <-. pose proof (suml_set _ busy ts t In Back H) as SM. cbn in SM.
    pose proof (suml_ge _ busy ts t In H) as GE. cbn in GE.
    apply settle_Inv; cbn; auto.
    + intros N D. specialize (O N). subst d. unfold owners in *; cbn in *.
      assert (~ 0 < e + match k with Owner => c | _ => 0 end + match k with Weak => suml busy ts | _ => 0 end) by (intros X; apply O in X; discriminate).
      destruct k; lia.
    + intros N. destruct (U N) as (U1 & U2 & U3 & U4). repeat split; auto. intros j X. apply nth_set in X. destruct X as [(_ & X)|X]; [congruence|exact (U4 j X)].
    + intros Z. specialize (C Z). lia.
    + intros N KK j X. apply nth_set in X. destruct X as [(_ & X)|X]; [congruence|exact (B N KK j X)].
Qed.
Lemma run_Inv : forall k null l s s', Inv k null s -> run k null s l = Some s' -> Inv k null s'.
Proof.
  induction l as [|a l IH]; intros s s' I R; cbn in R; [injection R as <-; exact I|].
  destruct (step k null s a) as [s1|] eqn:E; [|discriminate]. exact (IH s1 s' (step_Inv _ _ _ _ _ I E) R).
Qed.

(** * Theorems *)
(** Full statement (C130): a bound method never runs on anything but a living object.  Proved for pointers that own the
    object and for weak pointers, if the pointer bound was not null; the rest is refuted below. *)
Theorem C130_safe_partial : forall k n e l s, k = Owner \/ k = Weak -> fits k false e ->
  run k false (init false n e) l = Some s -> ~ wrong s.
Proof.
  intros k n e l s KK F R. pose proof (run_Inv k false l _ s (init_Inv k false n e F) R) as I. intros [W|(D & W)]; apply In_nth_error in W; destruct W as (t & W).
  - exact (ibad _ _ _ I eq_refl KK t W).
  - pose proof (suml_ge _ busy (ths s) t In W) as G. cbn in G. pose proof (iown _ _ _ I eq_refl) as O. rewrite D in O.
    assert (X : true = false); [|discriminate]. apply O. unfold owners. destruct KK as [->| ->]; [|lia].
    destruct (caps s) eqn:Z; [pose proof (icaps _ _ _ I Z); lia|lia].
Qed.
(** A call through a weak pointer or an observer gives an OperationCanceledException exactly if the object is gone or there
    never was one; and it then does not reach the method. *)
Theorem C130_throws : forall k null n e l s t s', k = Weak \/ k = Observer -> fits k null e ->
  run k null (init null n e) l = Some s -> step k null s (Call t) = Some s' ->
  (nth_error (ths s') t = Some Threw <-> (null = true \/ dead s = true)) /\
  calls s' = calls s /\
  (nth_error (ths s') t = Some Threw -> forall l' s2, run k null s' l' = Some s2 -> nth_error (ths s2) t = Some Threw).
Proof.
  intros k null n e l s t s' KK F R E. cbn in E. destruct (nth_error (ths s) t) as [[]|] eqn:H; try discriminate. destruct (caps s) eqn:C; [discriminate|].
  injection E as <-. cbn. assert (L : t < length (ths s)) by (apply nth_error_Some; congruence). rewrite nth_set_eq by exact L.
  split; [|split; [reflexivity|]].
  - unfold there. destruct KK as [->| ->]; destruct null, (dead s); cbn; intuition congruence.
  - intros T l'. assert (H0 : nth_error (ths (put s t Threw)) t = Some Threw) by (cbn; apply nth_set_eq; exact L).
    injection T as T. rewrite T. clear T. generalize dependent (put s t Threw). clear. induction l' as [|a l' IH]; intros s H s2 R; cbn in R; [injection R as <-; exact H|].
    destruct (step k null s a) as [s1|] eqn:E; [|discriminate]. apply (IH s1); [|exact R]. clear IH R.
    assert (Q : forall x, ths (settle k null x) = ths x) by (intros x; unfold settle; destruct (_ && _); reflexivity).
    assert (P : forall u p, nth_error (ths s) u <> Some Threw -> nth_error (set (ths s) u p) t = Some Threw).
    { intros u p X. rewrite nth_set_neq; [exact H|]. intros ->. congruence. }
    destruct a as [| | | |u|u|u]; cbn in E.
    + destruct (ext s); [discriminate|]. injection E as <-. exact H.
    + destruct (ext s); [discriminate|]. injection E as <-. rewrite Q. exact H.
    + destruct (caps s); [discriminate|]. injection E as <-. exact H.
    + destruct (caps s); [discriminate|]. destruct (_ && _); [discriminate|]. injection E as <-. rewrite Q. exact H.
    + destruct (nth_error (ths s) u) as [[]|] eqn:X; try discriminate. destruct (caps s); [discriminate|]. injection E as <-. cbn. apply P. congruence.
    + destruct (nth_error (ths s) u) as [[]|] eqn:X; try discriminate. destruct (there null s); injection E as <-; cbn; apply P; congruence.
    + destruct (nth_error (ths s) u) as [[]|] eqn:X; try discriminate. injection E as <-. rewrite Q. cbn. apply P. congruence.
Qed.
(** Owning keeps alive: an object bound by an owning pointer exists as long as a copy of the bound function does. *)
Theorem C130_kept : forall n e l s, run Owner false (init false n e) l = Some s -> 0 < caps s -> dead s = false.
Proof.
  intros n e l s R C. pose proof (run_Inv Owner false l _ s (init_Inv Owner false n e (or_intror (or_introl eq_refl))) R) as I.
  apply (iown _ _ _ I eq_refl). unfold owners. lia.
Qed.
(** Binding leaks nothing: the object is destroyed exactly once, and it is destroyed when the owners elsewhere, the copies
    of the bound function and the calls in progress are gone. *)
Theorem C130_once : forall k n e l s, fits k false e -> run k false (init false n e) l = Some s ->
  kills s <= 1 /\ (ext s = 0 -> caps s = 0 -> suml busy (ths s) = 0 -> kills s = 1).
Proof.
  intros k n e l s F R. pose proof (run_Inv k false l _ s (init_Inv k false n e F) R) as I. rewrite (ikills _ _ _ I).
  split; [destruct (dead s); lia|]. intros E C B. pose proof (iown _ _ _ I eq_refl) as O. unfold owners in O. rewrite E, C, B in O.
  destruct (dead s); [reflexivity|]. assert (0 < 0 + match k with Owner => 0 | _ => 0 end + match k with Weak => 0 | _ => 0 end) by (apply O; reflexivity). destruct k; lia.
Qed.
(** A weak pointer or an observer in a bound function keeps nothing alive. *)
Theorem C130_not_kept : forall k n e l s, k <> Owner -> fits k false e -> run k false (init false n e) l = Some s ->
  ext s = 0 -> suml busy (ths s) = 0 -> dead s = true.
Proof.
  intros k n e l s KK F R E B. pose proof (run_Inv k false l _ s (init_Inv k false n e F) R) as I. pose proof (iown _ _ _ I eq_refl) as O.
  unfold owners in O. rewrite E, B in O. destruct (dead s); [reflexivity|]. assert (0 < 0 + match k with Owner => caps s | _ => 0 end + match k with Weak => 0 | _ => 0 end) by (apply O; reflexivity).
  destruct k; [congruence|lia..].
Qed.
(** The test of an observer protects only the moment it is made: another owner can destroy the object between the test and
    the call, and while the method runs.  The header calls this overload safe. *)
Theorem C130_observer_refuted :
  (exists l s, run Observer false (init false 1 1) l = Some s /\ List.In Bad (ths s)) /\
  (exists l s, run Observer false (init false 1 1) l = Some s /\ dead s = true /\ List.In In (ths s)).
Proof.
  split.
  - exists [Call 0; Give; Enter 0]. eexists. split; [reflexivity|]. cbn. auto.
  - exists [Call 0; Enter 0; Give]. eexists. split; [reflexivity|]. cbn. auto.
Qed.
(** The owning overloads do not look whether there is an object: a null UniquePtr, unique_ptr, RefPtr or shared_ptr is bound
    without complaint, and every call is a call on a null pointer. *)
Theorem C130_null_refuted : forall k n e l s t s1 s2, k = Owner \/ k = Unsafe ->
  run k true (init true n e) l = Some s -> step k true s (Call t) = Some s1 -> step k true s1 (Enter t) = Some s2 ->
  nth_error (ths s2) t = Some Bad.
Proof.
  intros k n e l s t s1 s2 KK R E1 E2. cbn in E1. destruct (nth_error (ths s) t) as [[]|] eqn:H; try discriminate. destruct (caps s); [discriminate|].
  injection E1 as <-. assert (L : t < length (ths s)) by (apply nth_error_Some; congruence).
  destruct KK as [->| ->]; cbn in E2; rewrite nth_set_eq in E2 by exact L; injection E2 as <-; cbn; apply nth_set_eq; rewrite set_length; exact L.
Qed.
(** What an observer needs: nobody gives the object up while a call is in progress. *)
Fixpoint calm (k : kind) (null : bool) (s : st) (l : list act) : Prop :=
  match l with
  | [] => True
  | a :: l => (a = Give -> suml busy (ths s) = 0) /\ match step k null s a with Some s' => calm k null s' l | None => True end
  end.
Theorem C130_observer_partial : forall n e l s, 0 < e -> calm Observer false (init false n e) l ->
  run Observer false (init false n e) l = Some s -> ~ wrong s.
Proof.
  intros n e l s P C R.
  assert (F : fits Observer false e) by (right; right; exact P).
  assert (G : forall l s s', Inv Observer false s -> (dead s = true -> suml busy (ths s) = 0) -> (forall t, nth_error (ths s) t <> Some Bad) ->
            calm Observer false s l -> run Observer false s l = Some s' -> (dead s' = true -> suml busy (ths s') = 0) /\ (forall t, nth_error (ths s') t <> Some Bad)).
  { clear. induction l as [|a l IH]; intros s s' I D B C R; cbn in R; [injection R as <-; auto|].
    cbn in C. destruct C as (C1 & C2). destruct (step Observer false s a) as [s1|] eqn:E; [|discriminate].
    pose proof (step_Inv _ _ _ _ _ I E) as I1. apply (IH s1); auto; clear IH R C2 I1; destruct s as [e c d q ts n]; cbn in *.
    - intros D1. destruct a as [| | | |t|t|t]; cbn in E.
      + destruct e; [discriminate|]. injection E as <-. auto.
      + destruct e; [discriminate|]. injection E as <-. specialize (C1 eq_refl). unfold settle; cbn. destruct (_ && _); exact C1.
      + destruct c; [discriminate|]. injection E as <-. auto.
      + destruct c; [discriminate|]. destruct (_ && _); [discriminate|]. injection E as <-. unfold settle in *; cbn in *. unfold owners in *; cbn in *.
        destruct d; cbn in *; [auto|]. pose proof (iown _ _ _ I eq_refl) as O. unfold owners in O; cbn in O.
        assert (0 < e + 0 + 0) by (apply O; reflexivity). destruct (e + 0 + 0 =? 0) eqn:Z; [apply Nat.eqb_eq in Z; lia|discriminate D1].
      + destruct (nth_error ts t) as [[]|] eqn:H; try discriminate. destruct c; [discriminate|]. injection E as <-. cbn in *. subst d. specialize (D eq_refl).
        unfold there; cbn. pose proof (suml_set _ busy ts t Idle Threw H) as SM. cbn in SM. lia.
      + destruct (nth_error ts t) as [[]|] eqn:H; try discriminate. pose proof (suml_ge _ busy ts t Got H) as SG. cbn in SG. injection E as <-. unfold there in *; cbn in *. destruct d; cbn in *; [specialize (D eq_refl); lia|discriminate].
      + destruct (nth_error ts t) as [[]|] eqn:H; try discriminate. pose proof (suml_ge _ busy ts t In H) as SG. cbn in SG. injection E as <-. unfold settle, owners in *; cbn in *. destruct d; cbn in *; [specialize (D eq_refl); lia|].
        pose proof (iown _ _ _ I eq_refl) as O. unfold owners in O; cbn in O. assert (0 < e + 0 + 0) by (apply O; reflexivity).
        destruct (e + 0 + 0 =? 0) eqn:Z; [apply Nat.eqb_eq in Z; lia|discriminate D1].
    - intros u X. destruct a as [| | | |t|t|t]; cbn in E.
      + destruct e; [discriminate|]. injection E as <-. exact (B u X).
      + destruct e; [discriminate|]. injection E as <-. unfold settle in X. destruct (_ && _); exact (B u X).
      + destruct c; [discriminate|]. injection E as <-. exact (B u X).
      + destruct c; [discriminate|]. destruct (_ && _); [discriminate|]. injection E as <-. unfold settle in X. destruct (_ && _); exact (B u X).
      + destruct (nth_error ts t) as [[]|] eqn:H; try discriminate. destruct c; [discriminate|]. injection E as <-. cbn in X. apply nth_set in X.
        destruct X as [(_ & X)|X]; [destruct d; discriminate X|exact (B u X)].
      + destruct (nth_error ts t) as [[]|] eqn:H; try discriminate. pose proof (suml_ge _ busy ts t Got H) as SG. cbn in SG. injection E as <-. unfold there in X; cbn in X.
        destruct d; cbn in *; [specialize (D eq_refl); lia|]. apply nth_set in X. destruct X as [(_ & X)|X]; [discriminate X|exact (B u X)].
      + destruct (nth_error ts t) as [[]|] eqn:H; try discriminate. injection E as <-. unfold settle in X.
        assert (X' : nth_error (set ts t Back) u = Some Bad) by (destruct (_ && _) in X; exact X). apply nth_set in X'. destruct X' as [(_ & X')|X']; [discriminate X'|exact (B u X')]. }
  destruct (G l (init false n e) s (init_Inv Observer false n e F)) as (G1 & G2); auto.
  - discriminate.
  - cbn. intros t E. apply nth_error_In, repeat_spec in E. discriminate.
  - intros [W|(D & W)]; apply In_nth_error in W; destruct W as (t & W); [exact (G2 t W)|].
    specialize (G1 D). pose proof (suml_ge _ busy (ths s) t In W) as X. cbn in X. lia.
Qed.

(** * Runs *)
(** A weak pointer: the owner goes while the method runs, the object goes when the method returns, the next call throws. *)
Example C130_weak_run : option_map (fun s => (ths s, dead s, kills s, calls s)) (run Weak false (init false 2 1) [Call 0; Give; Enter 0; Leave 0; Call 1])
  = Some ([Back; Threw], true, 1, 1).
Proof. reflexivity. Qed.
Example C130_owner_run : option_map (fun s => (ths s, dead s, kills s)) (run Owner false (init false 1 1) [Give; Call 0; Enter 0; Leave 0; Drop])
  = Some ([Back], true, 1).
Proof. reflexivity. Qed.
Example C130_observer_run : calm Observer false (init false 2 1) [Call 0; Enter 0; Leave 0; Give; Call 1] /\
  option_map ths (run Observer false (init false 2 1) [Call 0; Enter 0; Leave 0; Give; Call 1]) = Some [Back; Threw].
Proof. cbn. intuition (try discriminate). Qed.
Example C130_null_run : option_map ths (run Owner true (init true 1 0) [Call 0; Enter 0]) = Some [Bad].
Proof. reflexivity. Qed.

Print Assumptions C130_safe_partial.
Print Assumptions C130_throws.
Print Assumptions C130_kept.
Print Assumptions C130_once.
Print Assumptions C130_not_kept.
Print Assumptions C130_observer_refuted.
Print Assumptions C130_null_refuted.
Print Assumptions C130_observer_partial.
