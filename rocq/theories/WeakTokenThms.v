(** C140: what a token made from a weak pointer says. C141: giving back the memory of tokens and
    of what they watch. *)
From Coq Require Import List Bool Arith Lia.
From Verif Require Import Slots SlotsProofs Threads WeakTokenModel.
Import ListNotations.

(** Spec: a token; an object that some token watches. *)
Definition token (x : obj) : Prop := exists j, knd x = Tok j.
Definition watched (s : list obj) (i : nat) : Prop := exists t y, nth_error s t = Some y /\ knd y = Tok (Some i).
(** Spec: users have let go of everything. *)
Definition let_go (s : list obj) : Prop := forall i x, nth_error s i = Some x -> held x = 0 /\ wheld x = 0.

Definition watch (i : nat) (y : obj) : nat := match knd y with Tok (Some j) => if j =? i then 1 else 0 | _ => 0 end.
Definition extra (k : kind) : nat := match k with Tok _ => 1 | _ => 0 end.
Definition Ok (s : list obj) (i : nat) (x : obj) : Prop :=
  strong x = held x + extra (knd x) /\ dead x = (strong x =? 0) /\ freed x = (weak x =? 0) /\
  weak x = wheld x + (if strong x =? 0 then 0 else 1) + suml (watch i) s.
Definition Inv (s : list obj) : Prop :=
  (forall i x, nth_error s i = Some x -> Ok s i x) /\
  (forall t y j, nth_error s t = Some y -> knd y = Tok (Some j) -> j < length s).

Lemma nth_len : forall A (s : list A) i x, nth_error s i = Some x -> i < length s.
Proof. intros A s i x H. apply nth_error_Some. congruence. Qed.
Lemma suml_app : forall A (f : A -> nat) l y, suml f (l ++ [y]) = suml f l + f y.
Proof. induction l as [|x l IH]; intros y; simpl; [lia|]. rewrite IH. lia. Qed.
Lemma watch_far : forall s i, (forall t y j, nth_error s t = Some y -> knd y = Tok (Some j) -> j < length s) ->
  length s <= i -> suml (watch i) s = 0.
Proof.
  intros s i R L. destruct (suml (watch i) s) eqn:E; [reflexivity|]. exfalso.
  destruct (suml_pos _ (watch i) s) as [t [y [N P]]]; [lia|].
  unfold watch in P. destruct (knd y) as [|c|[j|]] eqn:K; try lia.
  destruct (j =? i) eqn:J; [|lia]. apply Nat.eqb_eq in J. pose proof (R t y j N K). lia.
Qed.
Lemma knd_watch : forall x x' k, knd x' = knd x -> watch k x' = watch k x.
Proof. intros x x' k E. unfold watch. rewrite E. reflexivity. Qed.

Lemma inv_set : forall s i x x', Inv s -> nth_error s i = Some x ->
  (forall j, knd x' = Tok j <-> knd x = Tok j) -> Ok s i x' -> Inv (set s i x').
Proof.
  intros s i x x' [A R] N K O.
  assert (W : forall k, watch k x' = watch k x).
  { intros k. unfold watch. destruct (knd x') as [|c|j] eqn:E1; destruct (knd x) as [|d|j2] eqn:E2; try reflexivity.
    - pose proof (proj2 (K j2) eq_refl). discriminate.
    - pose proof (proj2 (K j2) eq_refl). discriminate.
    - pose proof (proj1 (K j) eq_refl). discriminate.
    - pose proof (proj1 (K j) eq_refl). discriminate.
    - pose proof (proj1 (K j) eq_refl) as J. injection J as ->. reflexivity. }
  assert (S : forall k, suml (watch k) (set s i x') = suml (watch k) s).
  { intros k. pose proof (suml_set _ (watch k) s i x x' N). rewrite W in H. lia. }
  split.
  - intros k y H. destruct (Nat.eq_dec i k) as [<-|D].
    + rewrite nth_set_eq in H by exact (nth_len _ _ _ _ N). injection H as <-.
      destruct O as [O1 [O2 [O3 O4]]]. repeat split; auto. rewrite S. exact O4.
    + rewrite nth_set_neq in H by exact D. destruct (A k y H) as [O1 [O2 [O3 O4]]]. repeat split; auto. rewrite S. exact O4.
  - intros t y j H E. rewrite set_length. destruct (Nat.eq_dec i t) as [<-|D].
    + rewrite nth_set_eq in H by exact (nth_len _ _ _ _ N). injection H as <-. apply K in E. exact (R i x j N E).
    + rewrite nth_set_neq in H by exact D. exact (R t y j H E).
Qed.
Lemma inv_app : forall s y, Inv s -> (match knd y with Tok (Some j) => False | _ => True end) ->
  strong y = held y + extra (knd y) -> dead y = (strong y =? 0) -> freed y = (weak y =? 0) ->
  weak y = wheld y + (if strong y =? 0 then 0 else 1) -> Inv (s ++ [y]).
Proof.
  intros s y [A R] K E1 E2 E3 E4.
  assert (W : forall k, watch k y = 0) by (intros k; unfold watch; destruct (knd y) as [|c|[j|]]; [reflexivity|reflexivity|destruct K|reflexivity]).
  split.
  - intros i x H. destruct (Nat.lt_ge_cases i (length s)) as [L|L].
    + rewrite nth_error_app1 in H by exact L. destruct (A i x H) as [O1 [O2 [O3 O4]]]. repeat split; auto. rewrite suml_app, W, Nat.add_0_r. exact O4.
    + rewrite nth_error_app2 in H by exact L. destruct (i - length s) as [|n] eqn:D; [|destruct n; discriminate].
      injection H as <-. repeat split; auto. rewrite suml_app, W, (watch_far s i R L). lia.
  - intros t z j H E. rewrite app_length. simpl. destruct (Nat.lt_ge_cases t (length s)) as [L|L].
    + rewrite nth_error_app1 in H by exact L. pose proof (R t z j H E). lia.
    + rewrite nth_error_app2 in H by exact L. destruct (t - length s) as [|n]; [|destruct n; discriminate].
      injection H as <-. rewrite E in K. destruct K.
Qed.

Lemma release_weak_at : forall s i x, nth_error s i = Some x -> freed x = false -> weak x <> 0 ->
  ReleaseWeak s i = Some (set s i (Ob (knd x) (strong x) (weak x - 1) (dead x) (weak x =? 1) (held x) (wheld x))).
Proof.
  intros s i x N F W. unfold ReleaseWeak. rewrite N, F. destruct (weak x =? 0) eqn:E; [apply Nat.eqb_eq in E; congruence|reflexivity].
Qed.
Lemma eqb_pred : forall n, n <> 0 -> (n - 1 =? 0) = (n =? 1).
Proof. intros n H. destruct n as [|[|n]]; [congruence|reflexivity|reflexivity]. Qed.

(** Dropping a RefPtr of an object that is held. *)
Lemma drop_ok : forall s i x, Inv s -> nth_error s i = Some x -> held x <> 0 ->
  exists x', step s (Drop i) = Yes (set s i x') false /\ knd x' = knd x /\ held x' = held x - 1 /\ wheld x' = wheld x /\ Ok s i x'.
Proof.
  intros s i x [A R] N H. destruct (A i x N) as [O1 [O2 [O3 O4]]].
  pose proof (nth_len _ _ _ _ N) as L. unfold step. rewrite N.
  destruct (held x =? 0) eqn:H0; [apply Nat.eqb_eq in H0; congruence|]. clear H0.
  unfold Release. rewrite nth_set_eq by exact L. unfold give. cbn [knd strong weak dead freed held wheld].
  destruct (strong x =? 0) eqn:S0; [apply Nat.eqb_eq in S0; lia|]. apply Nat.eqb_neq in S0.
  assert (W0 : weak x <> 0) by lia.
  assert (F : freed x = false) by (rewrite O3; apply Nat.eqb_neq; exact W0).
  rewrite F. cbn [orb]. rewrite set_set. destruct (strong x =? 1) eqn:S1.
  - apply Nat.eqb_eq in S1.
    assert (K : extra (knd x) = 0) by lia.
    assert (E : match knd x with Tok (Some j) => ReleaseWeak (set s i (Ob (knd x) (strong x - 1) (weak x) true false (held x - 1) (wheld x))) j | _ => Some (set s i (Ob (knd x) (strong x - 1) (weak x) true false (held x - 1) (wheld x))) end
      = Some (set s i (Ob (knd x) (strong x - 1) (weak x) true false (held x - 1) (wheld x)))) by (destruct (knd x); [reflexivity|reflexivity|discriminate]).
    rewrite E. erewrite release_weak_at; [|apply nth_set_eq; exact L|reflexivity|exact W0].
    rewrite set_set. cbn [knd strong weak dead freed held wheld].
    eexists. split; [reflexivity|]. cbn [knd strong weak dead freed held wheld].
    repeat split; cbn [knd strong weak dead freed held wheld]; try lia.
    + rewrite S1. reflexivity.
    + symmetry. apply eqb_pred. exact W0.
    + rewrite S1. cbn. lia.
  - apply Nat.eqb_neq in S1. eexists. split; [reflexivity|].
    cbn [knd strong weak dead freed held wheld]. repeat split; cbn [knd strong weak dead freed held wheld]; try lia.
    + rewrite eqb_pred by exact S0. symmetry. apply Nat.eqb_neq. exact S1.
    + rewrite <- F. exact O3.
    + rewrite eqb_pred by exact S0. rewrite (proj2 (Nat.eqb_neq _ _) S1). exact O4.
Qed.
Lemma weak_drop_ok : forall s i x, Inv s -> nth_error s i = Some x -> wheld x <> 0 ->
  exists x', step s (WeakDrop i) = Yes (set s i x') false /\ knd x' = knd x /\ held x' = held x /\ wheld x' = wheld x - 1 /\ Ok s i x'.
Proof.
  intros s i x [A R] N H. destruct (A i x N) as [O1 [O2 [O3 O4]]].
  pose proof (nth_len _ _ _ _ N) as L. unfold step. rewrite N.
  destruct (wheld x =? 0) eqn:H0; [apply Nat.eqb_eq in H0; congruence|]. clear H0.
  assert (W0 : weak x <> 0) by lia.
  assert (F : freed x = false) by (rewrite O3; apply Nat.eqb_neq; exact W0).
  erewrite release_weak_at; [|apply nth_set_eq; exact L|exact F|exact W0].
  rewrite set_set. unfold give. cbn [knd strong weak dead freed held wheld].
  eexists. split; [reflexivity|]. cbn [knd strong weak dead freed held wheld]. repeat split; cbn [knd strong weak dead freed held wheld]; auto.
  - symmetry. apply eqb_pred. exact W0.
  - lia.
Qed.
Lemma not_freed : forall s i x, Inv s -> nth_error s i = Some x -> (held x <> 0 \/ wheld x <> 0 \/ watched s i) -> freed x = false.
Proof.
  intros s i x [A R] N H. destruct (A i x N) as [O1 [O2 [O3 O4]]]. rewrite O3. apply Nat.eqb_neq.
  destruct H as [H|[H|[t [y [M K]]]]].
  - destruct (strong x =? 0) eqn:E; [apply Nat.eqb_eq in E; lia|lia].
  - lia.
  - pose proof (suml_ge _ (watch i) s t y M) as G. unfold watch at 1 in G. rewrite K, Nat.eqb_refl in G. lia.
Qed.

Lemma inv_fromptr : forall s j x, Inv s -> nth_error s j = Some x -> freed x = false ->
  Inv (set s j (give x (strong x) (S (weak x)) (held x) (wheld x)) ++ [adopt (Tok (Some j))]).
Proof.
  intros s j x [A R] N F. pose proof (nth_len _ _ _ _ N) as L.
  set (s1 := set s j (give x (strong x) (S (weak x)) (held x) (wheld x))).
  assert (S : forall k, suml (watch k) s1 = suml (watch k) s).
  { intros k. pose proof (suml_set _ (watch k) s j x (give x (strong x) (S (weak x)) (held x) (wheld x)) N) as H.
    rewrite (knd_watch x (give x (strong x) (S (weak x)) (held x) (wheld x)) k eq_refl) in H. unfold s1. lia. }
  assert (L1 : length s1 = length s) by apply set_length.
  assert (W : forall k, watch k (adopt (Tok (Some j))) = if j =? k then 1 else 0) by reflexivity.
  split.
  - intros i y H. destruct (Nat.lt_ge_cases i (length s1)) as [Li|Li].
    + rewrite nth_error_app1 in H by exact Li. unfold s1 in H. destruct (Nat.eq_dec j i) as [<-|D].
      * rewrite nth_set_eq in H by exact L. injection H as <-. destruct (A j x N) as [O1 [O2 [O3 O4]]].
        unfold Ok, give. cbn [knd strong weak dead freed held wheld]. repeat split; auto.
        rewrite suml_app, W, Nat.eqb_refl, S. lia.
      * rewrite nth_set_neq in H by exact D. destruct (A i y H) as [O1 [O2 [O3 O4]]]. repeat split; auto.
        rewrite suml_app, W, (proj2 (Nat.eqb_neq _ _) D), S. lia.
    + rewrite nth_error_app2 in H by exact Li. destruct (i - length s1) as [|n] eqn:D; [|destruct n; discriminate].
      injection H as <-. unfold Ok. cbn [knd strong weak dead freed held wheld adopt fresh extra].
      repeat split; auto. rewrite suml_app, W, S, (watch_far s i R) by lia.
      rewrite (proj2 (Nat.eqb_neq j i)) by lia. reflexivity.
  - intros t z k H E. rewrite app_length. simpl. destruct (Nat.lt_ge_cases t (length s1)) as [Lt|Lt].
    + rewrite nth_error_app1 in H by exact Lt. unfold s1 in H. destruct (Nat.eq_dec j t) as [<-|D].
      * rewrite nth_set_eq in H by exact L. injection H as <-. pose proof (R j x k N E). lia.
      * rewrite nth_set_neq in H by exact D. pose proof (R t z k H E). lia.
    + rewrite nth_error_app2 in H by exact Lt. destruct (t - length s1) as [|n]; [|destruct n; discriminate].
      injection H as <-. injection E as ->. lia.
Qed.

(** How one step changes one object. *)
Definition same_kind (x x' : obj) : Prop := forall j, knd x' = Tok j <-> knd x = Tok j.
Inductive tr (s : list obj) (o : op) : list obj -> Prop :=
| tr_same : (forall i, o <> Cancel i) -> tr s o s
| tr_set : forall i x x', nth_error s i = Some x -> same_kind x x' -> Ok s i x' ->
    (extra (knd x) = 0 -> held x = 0 -> held x' = 0) ->
    (knd x' = knd x /\ (forall k, o <> Cancel k) \/ (o = Cancel i /\ knd x' = Source true /\ exists c, knd x = Source c)) -> tr s o (set s i x')
| tr_app : forall y, (knd y = Data \/ knd y = Source false \/ knd y = Tok None) -> (forall k, o <> Cancel k) ->
    Inv (s ++ [y]) -> tr s o (s ++ [y])
| tr_from : forall j x, nth_error s j = Some x -> (forall k, o <> Cancel k) ->
    Inv (set s j (give x (strong x) (S (weak x)) (held x) (wheld x)) ++ [adopt (Tok (Some j))]) ->
    tr s o (set s j (give x (strong x) (S (weak x)) (held x) (wheld x)) ++ [adopt (Tok (Some j))]).

Lemma same_refl : forall x x', knd x' = knd x -> same_kind x x'.
Proof. intros x x' E j. rewrite E. tauto. Qed.

Lemma step_ok : forall s o, Inv s -> step s o <> Bad /\ (forall s' b, step s o = Yes s' b -> tr s o s').
Proof.
  intros s o I. destruct o as [| |[j|]|i|i|i|i|i|i|i|i].
  - split; [discriminate|]. intros s' b H. injection H as <- <-. apply tr_app; [auto|discriminate|apply inv_app; auto; exact Logic.I].
  - split; [discriminate|]. intros s' b H. injection H as <- <-. apply tr_app; [auto|discriminate|apply inv_app; auto; exact Logic.I].
  - cbn [step]. destruct (nth_error s j) as [x|] eqn:N; [|split; [discriminate|intros; discriminate]].
    destruct ((held x =? 0) && (wheld x =? 0)) eqn:B; [split; [discriminate|intros; discriminate]|].
    assert (F : freed x = false).
    { apply (not_freed s j x I N). apply andb_false_iff in B. destruct B as [B|B]; apply Nat.eqb_neq in B; auto. }
    rewrite F. split; [discriminate|]. intros s' b H. injection H as <- <-.
    apply tr_from; [exact N|discriminate|apply inv_fromptr; assumption].
  - split; [discriminate|]. intros s' b H. injection H as <- <-. apply tr_app; [auto|discriminate|apply inv_app; auto; exact Logic.I].
  - cbn [step]. destruct (nth_error s i) as [x|] eqn:N; [|split; [discriminate|intros; discriminate]].
    destruct (held x =? 0) eqn:H0; [split; [discriminate|intros; discriminate]|]. apply Nat.eqb_neq in H0.
    rewrite (not_freed s i x I N) by auto. split; [discriminate|]. intros s' b H. injection H as <- <-.
    destruct (proj1 I i x N) as [O1 [O2 [O3 O4]]].
    apply tr_set with x; [exact N|apply same_refl; reflexivity| |intros; congruence|left; split; [reflexivity|discriminate]].
    unfold Ok, give. cbn [knd strong weak dead freed held wheld]. repeat split; auto; [lia| |].
    + rewrite O2. destruct (strong x); [lia|reflexivity].
    + rewrite O4. destruct (strong x); [lia|reflexivity].
  - destruct (nth_error s i) as [x|] eqn:N; [|cbn [step]; rewrite N; split; [discriminate|intros; discriminate]].
    destruct (Nat.eq_dec (held x) 0) as [H0|H0]; [cbn [step]; rewrite N, H0; split; [discriminate|intros; discriminate]|].
    destruct (drop_ok s i x I N H0) as [x' [E [K [HH [WW O]]]]]. rewrite E. split; [discriminate|].
    intros s' b H. injection H as <- <-. apply tr_set with x; [exact N|apply same_refl; exact K|exact O|congruence|left; split; [exact K|discriminate]].
  - cbn [step]. destruct (nth_error s i) as [x|] eqn:N; [|split; [discriminate|intros; discriminate]].
    destruct (held x =? 0) eqn:H0; [split; [discriminate|intros; discriminate]|]. apply Nat.eqb_neq in H0.
    pose proof (not_freed s i x I N (or_introl H0)) as F.
    rewrite F. split; [discriminate|]. intros s' b H. injection H as <- <-.
    destruct (proj1 I i x N) as [O1 [O2 [O3 O4]]].
    apply tr_set with x; [exact N|apply same_refl; reflexivity| |intros; congruence|left; split; [reflexivity|discriminate]].
    unfold Ok, give. cbn [knd strong weak dead freed held wheld]. repeat split; auto. lia.
  - destruct (nth_error s i) as [x|] eqn:N; [|cbn [step]; rewrite N; split; [discriminate|intros; discriminate]].
    destruct (Nat.eq_dec (wheld x) 0) as [H0|H0]; [cbn [step]; rewrite N, H0; split; [discriminate|intros; discriminate]|].
    destruct (weak_drop_ok s i x I N H0) as [x' [E [K [HH [WW O]]]]]. rewrite E. split; [discriminate|].
    intros s' b H. injection H as <- <-. apply tr_set with x; [exact N|apply same_refl; exact K|exact O|congruence|left; split; [exact K|discriminate]].
  - cbn [step]. destruct (nth_error s i) as [x|] eqn:N; [|split; [discriminate|intros; discriminate]].
    destruct (wheld x =? 0) eqn:H0; [split; [discriminate|intros; discriminate]|]. apply Nat.eqb_neq in H0.
    rewrite (not_freed s i x I N) by auto. destruct (strong x =? 0) eqn:S0.
    { split; [discriminate|]. intros s' b H. injection H as <- <-. apply tr_same. discriminate. }
    apply Nat.eqb_neq in S0. split; [discriminate|]. intros s' b H. injection H as <- <-.
    destruct (proj1 I i x N) as [O1 [O2 [O3 O4]]].
    apply tr_set with x; [exact N|apply same_refl; reflexivity| |intros; lia|left; split; [reflexivity|discriminate]].
    unfold Ok, give. cbn [knd strong weak dead freed held wheld]. repeat split; auto; [lia| |].
    + rewrite O2. destruct (strong x); [lia|reflexivity].
    + rewrite O4. destruct (strong x); [lia|reflexivity].
  - cbn [step]. destruct (nth_error s i) as [x|] eqn:N; [|split; [discriminate|intros; discriminate]].
    destruct (held x =? 0) eqn:H0; [split; [discriminate|intros; discriminate]|]. apply Nat.eqb_neq in H0.
    rewrite (not_freed s i x I N) by auto.
    destruct (knd x) as [|c|j] eqn:K; try (split; [discriminate|intros; discriminate]).
    split; [discriminate|]. intros s' b H. injection H as <- <-.
    destruct (proj1 I i x N) as [O1 [O2 [O3 O4]]].
    apply tr_set with x; [exact N| | |intros; congruence|right; split; [reflexivity|split; [reflexivity|exists c; exact K]]].
    + intros j. rewrite K. cbn [knd]. split; discriminate.
    + rewrite K in O1. unfold Ok. cbn [knd strong weak dead freed held wheld]. repeat split; auto.
      rewrite (not_freed s i x I N) in O3 by auto. exact O3.
  - cbn [step]. destruct (nth_error s i) as [x|] eqn:N; [|split; [discriminate|intros; discriminate]].
    destruct (held x =? 0) eqn:H0; [split; [discriminate|intros; discriminate]|]. apply Nat.eqb_neq in H0.
    rewrite (not_freed s i x I N) by auto.
    destruct (knd x) as [|c|j] eqn:K; [split; [discriminate|intros; discriminate]| |].
    + cbn. split; [discriminate|]. intros s' b H. injection H as <- <-. apply tr_same. discriminate.
    + unfold IsCancellationRequested, IsExpired. destruct j as [j|].
      * pose proof (proj2 I i x j N K) as L. destruct (nth_error s j) as [y|] eqn:M; [|apply nth_error_None in M; lia].
        rewrite (not_freed s j y I M) by (right; right; exists i, x; auto).
        split; [discriminate|]. intros s' b H. injection H as <- <-. apply tr_same. discriminate.
      * split; [discriminate|]. intros s' b H. injection H as <- <-. apply tr_same. discriminate.
  - cbn [step]. destruct (nth_error s i) as [x|] eqn:N; [|split; [discriminate|intros; discriminate]].
    destruct (held x =? 0) eqn:H0; [split; [discriminate|intros; discriminate]|]. apply Nat.eqb_neq in H0.
    rewrite (not_freed s i x I N) by auto.
    destruct (knd x) as [|c|j] eqn:K; (split; [discriminate|]); intros s' b H; try discriminate H; injection H as <- <-; apply tr_same; discriminate.
Qed.
Lemma tr_inv : forall s o s', Inv s -> tr s o s' -> Inv s'.
Proof.
  intros s o s' I T. destruct T as [C|i x x' N K O HH C|y K C J|j x N C J]; auto.
  apply inv_set with x; auto.
Qed.
Lemma run_inv : forall l s s' b, Inv s -> run s l = Yes s' b -> Inv s'.
Proof.
  induction l as [|o l IH]; intros s s' b I H; simpl in H.
  - injection H as <- <-. exact I.
  - destruct (step s o) as [| |s1 c] eqn:E; try discriminate.
    apply (IH s1 s' b); [|exact H]. apply (tr_inv s o); [exact I|]. exact (proj2 (step_ok s o I) s1 c E).
Qed.
Lemma inv_nil : Inv [].
Proof. split; intros [|i]; discriminate. Qed.
Lemma extra_token : forall x, extra (knd x) = 0 <-> ~ token x.
Proof.
  intros x. unfold token. destruct (knd x) as [|c|j]; simpl; split; intros H; try reflexivity; try discriminate.
  - intros [j E]. discriminate.
  - intros [j E]. discriminate.
  - exfalso. apply H. exists j. reflexivity.
Qed.
Lemma held_dead : forall s i x, Inv s -> nth_error s i = Some x -> ~ token x -> (strong x = 0 <-> held x = 0).
Proof.
  intros s i x I N T. destruct (proj1 I i x N) as [O1 _]. apply extra_token in T. rewrite T in O1. lia.
Qed.

(** C140: no call ever touches memory that has been given back. *)
Theorem C140_safe : forall l, run [] l <> Bad.
Proof.
  assert (G : forall l s, Inv s -> run s l <> Bad).
  { induction l as [|o l IH]; intros s I; simpl; [discriminate|].
    destruct (step_ok s o I) as [B T]. destruct (step s o) as [| |s1 c] eqn:E; [discriminate|congruence|].
    apply IH. apply (tr_inv s o); [exact I|]. exact (T s1 c eq_refl). }
  intros l. apply G. exact inv_nil.
Qed.

Lemma ask_tok : forall s t y j s' b, nth_error s t = Some y -> knd y = Tok j -> step s (Ask t) = Yes s' b ->
  s' = s /\ IsExpired s j = Some b.
Proof.
  intros s t y j s' b N K H. cbn [step] in H. rewrite N in H. destruct (held y =? 0); [discriminate|].
  destruct (freed y); [discriminate|]. rewrite K in H. cbn [IsCancellationRequested] in H.
  destruct (IsExpired s j) as [c|]; [|discriminate]. injection H as <- <-. auto.
Qed.
Lemma expired_iff : forall s i x b, Inv s -> nth_error s i = Some x -> IsExpired s (Some i) = Some b -> (b = true <-> strong x = 0).
Proof.
  intros s i x b I N E. unfold IsExpired in E. rewrite N in E. destruct (freed x); [discriminate|]. injection E as <-. apply Nat.eqb_eq.
Qed.

(** C140: a token says that the operation is cancelled if and only if nobody holds the watched
    object any more; one made from a null pointer always says so. *)
Theorem C140_truth : forall l s b0 t y j s' b,
  run [] l = Yes s b0 -> nth_error s t = Some y -> knd y = Tok j -> step s (Ask t) = Yes s' b ->
  s' = s /\
  match j with
  | None => b = true
  | Some i => exists x, nth_error s i = Some x /\ (~ token x -> (b = true <-> held x = 0))
  end.
Proof.
  intros l s b0 t y j s' b H N K E. pose proof (run_inv l [] s b0 inv_nil H) as I.
  destruct (ask_tok s t y j s' b N K E) as [-> X]. split; [reflexivity|]. destruct j as [i|].
  - pose proof (proj2 I t y i N K) as L. destruct (nth_error s i) as [x|] eqn:M; [|apply nth_error_None in M; lia].
    exists x. split; [reflexivity|]. intros T. rewrite (expired_iff s i x b I M X). exact (held_dead s i x I M T).
  - cbn in X. congruence.
Qed.

Lemma nth_app_l : forall (s : list obj) z i x, nth_error s i = Some x -> nth_error (s ++ [z]) i = Some x.
Proof. intros s z i x N. rewrite nth_error_app1; [exact N|]. exact (nth_len _ _ _ _ N). Qed.
(** What happens to an object that is there. *)
Lemma tr_keep : forall s o s' k x, Inv s -> tr s o s' -> nth_error s k = Some x ->
  exists x', nth_error s' k = Some x' /\ same_kind x x' /\ (extra (knd x) = 0 -> held x = 0 -> held x' = 0) /\
    (knd x' = knd x /\ o <> Cancel k \/ o = Cancel k /\ knd x' = Source true).
Proof.
  intros s o s' k x I T N. destruct T as [C|i z z' M K O HH C|y K C J|j z M C J].
  - exists x. split; [exact N|]. split; [apply same_refl; reflexivity|]. split; [auto|left; split; [reflexivity|apply C]].
  - destruct (Nat.eq_dec i k) as [<-|D].
    + rewrite N in M. injection M as <-. exists z'. rewrite nth_set_eq by exact (nth_len _ _ _ _ N).
      split; [reflexivity|]. split; [exact K|]. split; [exact HH|].
      destruct C as [[C1 C2]|[C1 [C2 _]]]; [left; split; [exact C1|apply C2]|right; auto].
    + exists x. rewrite nth_set_neq by exact D. split; [exact N|]. split; [apply same_refl; reflexivity|]. split; [auto|].
      left. split; [reflexivity|]. destruct C as [[_ C2]|[C1 _]]; [apply C2|congruence].
  - exists x. split; [apply nth_app_l; exact N|]. split; [apply same_refl; reflexivity|]. split; [auto|left; split; [reflexivity|apply C]].
  - destruct (Nat.eq_dec j k) as [<-|D].
    + rewrite N in M. injection M as <-. eexists. split; [apply nth_app_l; apply nth_set_eq; exact (nth_len _ _ _ _ N)|].
      split; [apply same_refl; reflexivity|]. split; [intros _ Z; exact Z|left; split; [reflexivity|apply C]].
    + exists x. split; [apply nth_app_l; rewrite nth_set_neq by exact D; exact N|]. split; [apply same_refl; reflexivity|]. split; [auto|left; split; [reflexivity|apply C]].
Qed.
Lemma extra_same : forall x x', same_kind x x' -> extra (knd x') = extra (knd x).
Proof.
  intros x x' K. destruct (knd x') as [|c|j] eqn:E1; destruct (knd x) as [|d|j2] eqn:E2; try reflexivity; unfold same_kind in K; rewrite E1, E2 in K.
  - pose proof (proj2 (K j2) eq_refl). discriminate.
  - pose proof (proj2 (K j2) eq_refl). discriminate.
  - pose proof (proj1 (K j) eq_refl). discriminate.
  - pose proof (proj1 (K j) eq_refl). discriminate.
Qed.
Lemma run_keep : forall l s s' b k x, Inv s -> run s l = Yes s' b -> nth_error s k = Some x ->
  exists x', nth_error s' k = Some x' /\ same_kind x x' /\ (extra (knd x) = 0 -> held x = 0 -> held x' = 0) /\
    (~ In (Cancel k) l /\ knd x' = knd x \/ In (Cancel k) l /\ knd x' = Source true).
Proof.
  induction l as [|o l IH]; intros s s' b k x I H N; simpl in H.
  - injection H as <- <-. exists x. split; [exact N|]. split; [apply same_refl; reflexivity|]. split; [auto|left; split; [intros []|reflexivity]].
  - destruct (step s o) as [| |s1 c] eqn:E; try discriminate.
    pose proof (proj2 (step_ok s o I) s1 c E) as T. pose proof (tr_inv s o s1 I T) as I1.
    destruct (tr_keep s o s1 k x I T N) as [x1 [N1 [K1 [H1 C1]]]].
    destruct (IH s1 s' b k x1 I1 H N1) as [x2 [N2 [K2 [H2 C2]]]].
    exists x2. split; [exact N2|]. split; [intros j; rewrite (K2 j); apply K1|]. split.
    + intros Z Y. apply H2; [rewrite (extra_same _ _ K1); exact Z|auto].
    + destruct C2 as [[C2 D2]|[C2 D2]]; [|right; split; [right; exact C2|exact D2]].
      destruct C1 as [[C1 D1]|[C1 D1]].
      * left. split; [|congruence]. intros [X|X]; [apply D1; exact X|apply C2; exact X].
      * right. split; [left; exact C1|congruence].
Qed.

(** C140: once a token has said so, it says so for ever. *)
Theorem C140_stays : forall l s b0 t s1 l' s2 b2 s3 b3,
  run [] l = Yes s b0 -> step s (Ask t) = Yes s1 true -> run s1 l' = Yes s2 b2 -> step s2 (Ask t) = Yes s3 b3 -> b3 = true.
Proof.
  intros l s b0 t s1 l' s2 b2 s3 b3 H E H' E'. pose proof (run_inv l [] s b0 inv_nil H) as I.
  destruct (nth_error s t) as [y|] eqn:N; [|cbn [step] in E; rewrite N in E; discriminate].
  destruct (knd y) as [|c|j] eqn:K.
  - cbn [step] in E. rewrite N, K in E. destruct (held y =? 0); [discriminate|]. destruct (freed y); discriminate.
  - assert (S : s1 = s /\ c = true).
    { cbn [step] in E. rewrite N, K in E. destruct (held y =? 0); [discriminate|]. destruct (freed y); [discriminate|].
      cbn in E. injection E as <- ->. auto. }
    destruct S as [-> ->].
    destruct (run_keep l' s s2 b2 t y I H' N) as [y2 [N2 [_ [_ C]]]].
    assert (K2 : knd y2 = Source true) by (destruct C as [[_ C]|[_ C]]; congruence).
    cbn [step] in E'. rewrite N2, K2 in E'. destruct (held y2 =? 0); [discriminate|]. destruct (freed y2); [discriminate|].
    cbn in E'. injection E' as <- <-. reflexivity.
  - destruct (ask_tok s t y j s1 true N K E) as [-> X].
    destruct (run_keep l' s s2 b2 t y I H' N) as [y2 [N2 [K2 _]]]. apply K2 in K.
    destruct (ask_tok s2 t y2 j s3 b3 N2 K E') as [_ X2].
    destruct j as [i|]; [|cbn in X2; congruence].
    assert (M : exists x, nth_error s i = Some x) by (unfold IsExpired in X; destruct (nth_error s i) as [x|]; [eauto|discriminate]).
    destruct M as [x M]. pose proof (run_inv l' s s2 b2 I H') as I2.
    pose proof (proj1 (expired_iff s i x true I M X) eq_refl) as S0.
    destruct (proj1 I i x M) as [O1 _].
    destruct (run_keep l' s s2 b2 i x I H' M) as [x2 [M2 [KK [HH _]]]].
    apply (expired_iff s2 i x2 b3 I2 M2 X2). destruct (proj1 I2 i x2 M2) as [P1 _].
    rewrite P1, (extra_same _ _ KK), HH by lia. lia.
Qed.

(** C140: a token of a source says so if and only if Cancel has been called on it. *)
Theorem C140_source : forall l s b0 i x c s' b,
  run [] l = Yes s b0 -> nth_error s i = Some x -> knd x = Source c -> step s (Ask i) = Yes s' b ->
  s' = s /\ (b = true <-> In (Cancel i) l).
Proof.
  intros l s b0 i x c s' b H N K E.
  assert (S : s' = s /\ b = c).
  { cbn [step] in E. rewrite N, K in E. destruct (held x =? 0); [discriminate|]. destruct (freed x); [discriminate|].
    cbn in E. injection E as <- <-. auto. }
  destruct S as [-> ->]. split; [reflexivity|].
  assert (G : forall l s0 s b0, Inv s0 -> run s0 l = Yes s b0 -> nth_error s0 i = None -> nth_error s i = Some x -> (c = true <-> In (Cancel i) l)).
  { clear l s b0 H N E. induction l as [|o l IH]; intros s0 s b0 I H Z N; simpl in H.
    - injection H as <- <-. congruence.
    - destruct (step s0 o) as [| |s1 d] eqn:E; try discriminate.
      pose proof (proj2 (step_ok s0 o I) s1 d E) as T. pose proof (tr_inv s0 o s1 I T) as I1.
      assert (O : o <> Cancel i) by (intros ->; cbn [step] in E; rewrite Z in E; discriminate).
      destruct (nth_error s1 i) as [x1|] eqn:N1.
      + assert (F : forall a, knd x1 = Source a -> a = false).
        { intros a A. apply nth_error_None in Z. destruct T as [C|k z z' M Q P HH C|y Q C J|j z M C J].
          - pose proof (nth_len _ _ _ _ N1). lia.
          - pose proof (nth_len _ _ _ _ N1) as L. rewrite set_length in L. lia.
          - rewrite nth_error_app2 in N1 by exact Z. destruct (i - length s0) as [|n]; [|destruct n; discriminate].
            injection N1 as <-. destruct Q as [Q|[Q|Q]]; congruence.
          - rewrite nth_error_app2 in N1 by (rewrite set_length; exact Z). rewrite set_length in N1.
            destruct (i - length s0) as [|n]; [|destruct n; discriminate]. injection N1 as <-. discriminate. }
        destruct (run_keep l s1 s b0 i x1 I1 H N1) as [x2 [N2 [_ [_ C]]]]. rewrite N in N2. injection N2 as <-.
        destruct C as [[C D]|[C D]].
        * rewrite K in D. symmetry in D. rewrite (F c D). split; [discriminate|]. intros [X|X]; [congruence|contradiction].
        * rewrite K in D. injection D as ->. split; [right; exact C|reflexivity].
      + rewrite (IH s1 s b0 I1 H N1 N). split; [right; assumption|]. intros [X|X]; [congruence|exact X]. }
  apply (G l [] s b0 inv_nil H); [destruct i; reflexivity|exact N].
Qed.

(** C140 refuted: a token that is not cancelled refuses a handler, so that the handler is not
    called when the object goes away. *)
Theorem C140_register_refuted : exists l s b0 t,
  run [] l = Yes s b0 /\ step s (Ask t) = Yes s false /\ step s (Register t) = Yes s false /\
  (forall s' b', step s (Drop 0) = Yes s' b' -> step s' (Ask t) = Yes s' true).
Proof.
  exists [New; FromPtr (Some 0)]. eexists. exists false, 1. split; [reflexivity|]. split; [reflexivity|]. split; [reflexivity|].
  intros s' b' H. injection H as <- <-. reflexivity.
Qed.

(** C141, in part: an object or a source is destroyed when nobody holds it, and its memory is
    given back when besides nobody has a WeakPtr of it and no token watches it. *)
Theorem C141_freed_partial : forall l s b0 i x,
  run [] l = Yes s b0 -> nth_error s i = Some x -> ~ token x ->
  (dead x = true <-> held x = 0) /\
  (freed x = true <-> held x = 0 /\ wheld x = 0 /\ ~ watched s i).
Proof.
  intros l s b0 i x H N T. pose proof (run_inv l [] s b0 inv_nil H) as I.
  pose proof (held_dead s i x I N T) as D. destruct (proj1 I i x N) as [O1 [O2 [O3 O4]]]. split.
  - rewrite O2, Nat.eqb_eq. exact D.
  - rewrite O3, Nat.eqb_eq. split.
    + intros W. assert (S0 : strong x = 0) by (destruct (strong x =? 0) eqn:E; [apply Nat.eqb_eq; exact E|lia]).
      split; [apply D; exact S0|]. split; [lia|]. intros Q.
      assert (F : freed x = false) by (apply (not_freed s i x I N); auto). rewrite O3, W in F. discriminate.
    + intros [HH [WW Q]]. apply D in HH. rewrite O4, HH, WW. cbn.
      destruct (suml (watch i) s) eqn:E; [reflexivity|]. exfalso.
      destruct (suml_pos _ (watch i) s) as [t [y [M P]]]; [lia|]. apply Q. exists t, y. split; [exact M|].
      unfold watch in P. destruct (knd y) as [|c|[j|]]; try lia. destruct (j =? i) eqn:J; [|lia]. apply Nat.eqb_eq in J. congruence.
Qed.

(** C141 refuted: a token made by FromPtr is never destroyed, the memory of what it watches is
    never given back, and that also when nobody holds anything any more. *)
Theorem C141_leak_refuted :
  (forall l s b0 t y, run [] l = Yes s b0 -> nth_error s t = Some y -> token y ->
     dead y = false /\ freed y = false /\
     (forall i x, knd y = Tok (Some i) -> nth_error s i = Some x -> freed x = false)) /\
  (exists l s b0 t y, run [] l = Yes s b0 /\ let_go s /\ nth_error s t = Some y /\ token y).
Proof.
  split.
  - intros l s b0 t y H N T. pose proof (run_inv l [] s b0 inv_nil H) as I.
    destruct (proj1 I t y N) as [O1 [O2 [O3 O4]]]. destruct T as [j K]. rewrite K in O1. cbn in O1.
    assert (S0 : (strong y =? 0) = false) by (apply Nat.eqb_neq; lia).
    split; [rewrite O2; exact S0|]. split; [rewrite O3; apply Nat.eqb_neq; rewrite S0 in O4; lia|].
    intros i x Q M. apply (not_freed s i x I M). right. right. exists t, y. auto.
  - exists [New; FromPtr (Some 0); Drop 0; Drop 1]. eexists. exists false, 1. eexists. split; [reflexivity|].
    split; [|split; [reflexivity|exists (Some 0); reflexivity]].
    intros [|[|i]] x N; [injection N as <-; auto|injection N as <-; auto|destruct i; discriminate].
Qed.

Print Assumptions C140_safe.
Print Assumptions C140_truth.
Print Assumptions C140_stays.
Print Assumptions C140_source.
Print Assumptions C140_register_refuted.
Print Assumptions C141_freed_partial.
Print Assumptions C141_leak_refuted.

(** The second reference that RefPtr's constructor takes is what does it: had the token one
    reference, as a source has, the last Drop would give everything back. *)
Example ex_adopted_right : Release (set [Ob Data 0 1 true false 0 0] 0 (Ob Data 0 1 true false 0 0) ++ [Ob (Tok (Some 0)) 1 1 false false 0 0]) 1
  = Some [Ob Data 0 0 true true 0 0; Ob (Tok (Some 0)) 0 0 true true 0 0].
Proof. reflexivity. Qed.
Example ex_object : exists s, run [] [New; FromPtr (Some 0); Copy 1; Ask 1; Weak 0; Drop 0; Ask 1; WeakGet 0; WeakDrop 0; Drop 1; Ask 1] = Yes s false /\ step s (Ask 1) = Yes s true.
Proof. eexists. split; reflexivity. Qed.
Example ex_source : exists s, run [] [Create; Copy 0; Ask 0; Cancel 0; Drop 0] = Yes s false /\ step s (Ask 0) = Yes s true /\ step s (Drop 0) = Yes [Ob (Source true) 0 0 true true 0 0] false.
Proof. eexists. split; [reflexivity|]. split; reflexivity. Qed.
