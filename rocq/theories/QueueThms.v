(** Property C47: the queue between one pushing and one popping thread. *)
From Coq Require Import List Arith Bool Lia.
From Verif Require Import QueueModel.
Import ListNotations.

(** * Specification *)
(** [l] is what remains of [m] when some elements are left out. *)
Inductive sub {A} : list A -> list A -> Prop :=
| sub_nil : sub [] []
| sub_take : forall x l m, sub l m -> sub (x :: l) (x :: m)
| sub_skip : forall x l m, sub l m -> sub l (x :: m).
Definition prefix {A} (l m : list A) : Prop := exists r, m = l ++ r.

Lemma sub_refl : forall A (l : list A), sub l l.
Proof. induction l; constructor; assumption. Qed.
Lemma sub_snoc : forall A (l m : list A) x, sub l m -> sub (l ++ [x]) (m ++ [x]).
Proof. intros A l m x H. induction H; cbn; repeat constructor; assumption. Qed.
Lemma sub_drop : forall A (a b c m : list A), sub (a ++ b ++ c) m -> sub (a ++ c) m.
Proof.
  intros A a b c m H. remember (a ++ b ++ c) as l eqn:E. revert a b c E. induction H; intros a b c E.
  - destruct a; [|discriminate]. destruct b; [|discriminate]. destruct c; [|discriminate]. constructor.
  - destruct a as [|y a].
    + destruct b as [|y b].
      * cbn in *. subst c. constructor. assumption.
      * injection E as <- E. constructor. apply (IHsub [] b c). exact E.
    + injection E as <- E. cbn. constructor. apply (IHsub a b c). exact E.
  - constructor. apply (IHsub a b c). exact E.
Qed.
Lemma sub_app : forall A (a b m : list A), sub (a ++ b) m -> sub a m.
Proof. intros A a b m H. rewrite <- (app_nil_r a). apply (sub_drop _ a b []). rewrite app_nil_r. assumption. Qed.

Section Thms.
  Variable V : Type.
  Variable B : nat.
  Hypothesis B1 : 1 <= B.
  Notation st := (st V).
  Notation act := (act V).
  Notation run := (run V B).
  Notation step := (step V B).
  Notation hp := (hp V).
  Notation fresh := (fresh V).
  Notation first := (first V).
  Notation last := (last V).
  Notation pc := (pc V).
  Notation cc := (cc V).
  Notation pushed := (pushed V).
  Notation popped := (popped V).
  Notation begun := (begun V).
  Notation nulls := (nulls V).
  Notation rd := (rd V).
  Notation wr := (wr V).
  Notation nb := (nb V).
  Notation buf := (buf V).

  (** No Push publishes an entry (line 85) into the block that Pop found empty (line 50) before Pop
      has looked at pNextBlock and moved on (lines 58-62). *)
  Definition quiet (s : st) (a : act) : Prop :=
    match a, pc s, cc s with P _, P9 _ _, (C5 _ | C6 _) => first s <> last s | _, _, _ => True end.
  Fixpoint calm (s : st) (l : list act) : Prop :=
    match l with [] => True | a :: r => quiet s a /\ match step s a with Some (Some s') => calm s' r | _ => True end end.

  (** * Proofs *)
  Definition blk_ok (b : block V) (l : list V) : Prop :=
    wr b = rd b + length l /\ length l <= B /\ forall i v, nth_error l i = Some v -> buf b ((rd b + i) mod B) = Some v.
  Fixpoint chain (h : nat -> option (block V)) (p : option nat) (cs : list (nat * list V)) : Prop :=
    match cs with
    | [] => p = None
    | (a, l) :: r => p = Some a /\ exists b, h a = Some b /\ blk_ok b l /\ chain h (nb b) r
    end.
  Definition addrs (cs : list (nat * list V)) : list nat := map fst cs.
  Definition rem (cs : list (nat * list V)) : list V := concat (map snd cs).
  (** The blocks known only to one thread. *)
  Definition pown (p : ppc V) : list nat := match p with P2 _ _ b | P3 _ _ b | P6 _ _ b => [b] | _ => [] end.
  Definition cown (c : cpc V) : list nat := match c with C7 _ o => [o] | _ => [] end.
  Definition atend (s : st) (cs0 : list (nat * list V)) (a : nat) (l : list V) (cs : list (nat * list V)) : Prop := cs = cs0 ++ [(a, l)].
  Definition pok (s : st) (cs : list (nat * list V)) : Prop :=
    match pc s with
    | PIdle _ | P1 _ _ => (cs = [] /\ last s = None) \/ (exists cs0 a l, cs = cs0 ++ [(a, l)] /\ last s = Some a)
    | P2 _ _ b => cs = [] /\ last s = None /\ hp s b = Some (new_block V)
    | P3 _ _ b => cs = [] /\ last s = Some b /\ hp s b = Some (new_block V)
    | P4 _ _ | P5 _ _ => exists cs0 a l, cs = cs0 ++ [(a, l)] /\ last s = Some a
    | P6 _ _ n => (exists cs0 a l, cs = cs0 ++ [(a, l)] /\ last s = Some a) /\ hp s n = Some (new_block V)
    | P7 _ _ n => exists cs0, cs = cs0 ++ [(n, [])]
    | P8 _ _ => exists cs0 a l, cs = cs0 ++ [(a, l)] /\ last s = Some a /\ length l < B
    | P9 _ v => exists cs0 a l b, cs = cs0 ++ [(a, l)] /\ last s = Some a /\ length l < B /\ hp s a = Some b /\ buf b (wr b mod B) = Some v
    end.
  Definition cok (strict : bool) (s : st) (cs : list (nat * list V)) : Prop :=
    match cc s with
    | CIdle _ | C1 _ => True
    | C2 _ => cs <> []
    | C3 _ => exists a v l r, cs = (a, v :: l) :: r
    | C4 _ v => exists a l r, cs = (a, v :: l) :: r
    | C5 _ => exists a l r, cs = (a, l) :: r /\ (strict = true -> l = [])
    | C6 _ => exists a l c r, cs = (a, l) :: c :: r /\ (strict = true -> l = [])
    | C7 _ _ => cs <> []
    end.
  Record Inv (strict : bool) (s : st) (cs : list (nat * list V)) : Prop := {
    i_chain : chain (hp s) (first s) cs;
    i_nd : NoDup (cown (cc s) ++ pown (pc s) ++ addrs cs);
    i_live : forall x, hp s x <> None <-> In x (cown (cc s) ++ pown (pc s) ++ addrs cs);
    i_fresh : forall x, hp s x <> None -> x < fresh s;
    i_p : pok s cs;
    i_c : cok strict s cs;
    i_sub : if strict then pushed s = popped s ++ rem cs else sub (popped s ++ rem cs) (pushed s);
    i_begun : cc s = CIdle _ \/ begun s <= length (pushed s);
    i_nulls : strict = true -> Forall (fun x => snd x <= fst x) (nulls s) }.

  Lemma chain_ext : forall h h' cs p, (forall x, In x (addrs cs) -> h x = h' x) -> chain h p cs -> chain h' p cs.
  Proof.
    intros h h' cs. induction cs as [|[a l] cs IH]; intros p E C; cbn in *; [assumption|]. destruct C as (-> & b & H & K & C). split; [reflexivity|].
    exists b. rewrite <- E by auto. split; [assumption|]. split; [assumption|]. apply IH; auto.
  Qed.
  Lemma chain_end : forall h cs0 a l p, chain h p (cs0 ++ [(a, l)]) -> exists b, h a = Some b /\ blk_ok b l /\ nb b = None.
  Proof.
    intros h cs0. induction cs0 as [|[a0 l0] cs0 IH]; intros a l p C; cbn in C.
    - destruct C as (_ & b & H & K & C). eauto.
    - destruct C as (_ & b & _ & _ & C). eapply IH. exact C.
  Qed.
  (** The last block changes. *)
  Lemma chain_end_set : forall h cs0 a l l' b' p, chain h p (cs0 ++ [(a, l)]) -> ~ In a (addrs cs0) -> blk_ok b' l' -> nb b' = None ->
    chain (upd h a (Some b')) p (cs0 ++ [(a, l')]).
  Proof.
    intros h cs0. induction cs0 as [|[a0 l0] cs0 IH]; intros a l l' b' p C N K E; cbn in *.
    - destruct C as (-> & _). split; [reflexivity|]. exists b'. unfold upd. rewrite Nat.eqb_refl. auto.
    - destruct C as (-> & b & H & K0 & C). split; [reflexivity|]. exists b. split; [|split; [assumption|]].
      + unfold upd. destruct (Nat.eqb_spec a0 a); [exfalso; apply N; auto|assumption].
      + eapply IH; eauto.
  Qed.
  (** The last block gets a successor. *)
  Lemma chain_end_link : forall h cs0 a l b n p, chain h p (cs0 ++ [(a, l)]) -> ~ In a (addrs cs0) -> h a = Some b -> h n = Some (new_block V) -> n <> a ->
    ~ In n (addrs cs0) ->
    chain (upd h a (Some (BK V (rd b) (wr b) (Some n) (buf b)))) p (cs0 ++ [(a, l); (n, [])]).
  Proof.
    intros h cs0. induction cs0 as [|[a0 l0] cs0 IH]; intros a l b n p C N Hb Hn NE Nn; cbn in *.
    - destruct C as (-> & b0 & H & K & C). split; [reflexivity|]. eexists. unfold upd at 1. rewrite Nat.eqb_refl. split; [reflexivity|].
      rewrite H in Hb. injection Hb as ->. split; [exact K|]. cbn. split; [reflexivity|]. exists (new_block V). unfold upd.
      destruct (Nat.eqb_spec n a); [contradiction|]. split; [assumption|]. split; [|reflexivity]. split; [reflexivity|]. split; [cbn; lia|]. intros [|i] v E; discriminate.
    - destruct C as (-> & b0 & H & K0 & C). split; [reflexivity|]. exists b0. split; [|split; [assumption|]].
      + unfold upd. destruct (Nat.eqb_spec a0 a); [exfalso; apply N; auto|assumption].
      + eapply IH; eauto.
  Qed.
  Lemma mod_neq : forall r i n, i < n -> n < B -> (r + i) mod B <> (r + n) mod B.
  Proof.
    intros r i n L N E. assert (B <> 0) by lia. pose proof (Nat.div_mod (r + i) B H). pose proof (Nat.div_mod (r + n) B H). rewrite E in H0.
    assert (n - i = B * ((r + n) / B - (r + i) / B)) by (rewrite Nat.mul_sub_distr_l; lia).
    destruct ((r + n) / B - (r + i) / B) as [|k]; [lia|]. rewrite Nat.mul_succ_r in H2. lia.
  Qed.
  Lemma rem_snoc : forall cs0 a l v, rem (cs0 ++ [(a, l ++ [v])]) = rem (cs0 ++ [(a, l)]) ++ [v].
  Proof. intros. unfold rem. rewrite !map_app, !concat_app. cbn. rewrite !app_nil_r, app_assoc. reflexivity. Qed.
  Lemma addrs_app : forall a b, addrs (a ++ b) = addrs a ++ addrs b.
  Proof. intros. apply map_app. Qed.

  Lemma init_inv : forall strict, Inv strict (init V) [].
  Proof.
    intros strict. split.
    - reflexivity.
    - constructor.
    - intros x. split; [intros H; contradiction|contradiction].
    - intros x H. contradiction.
    - left. auto.
    - exact Logic.I.
    - destruct strict; [reflexivity|constructor].
    - left. reflexivity.
    - constructor.
  Qed.
  Definition Good (strict : bool) (r : option (option st)) : Prop :=
    match r with Some (Some s) => exists cs, Inv strict s cs | Some None => False | None => True end.
  Lemma upd_eq : forall A (f : nat -> A) x v, upd f x v x = v.
  Proof. intros. unfold upd. rewrite Nat.eqb_refl. reflexivity. Qed.
  Lemma upd_neq : forall A (f : nat -> A) x v y, y <> x -> upd f x v y = f y.
  Proof. intros. unfold upd. destruct (Nat.eqb_spec y x); [contradiction|reflexivity]. Qed.

  (** Facts about the last block. *)
  Lemma end_facts : forall strict s cs0 a l, Inv strict s (cs0 ++ [(a, l)]) ->
    (exists b, hp s a = Some b /\ blk_ok b l /\ nb b = None) /\ ~ In a (addrs cs0) /\ ~ In a (cown (cc s)) /\ ~ In a (pown (pc s)) /\
    (forall n, In n (pown (pc s)) -> n <> a /\ ~ In n (addrs cs0)).
  Proof.
    intros strict s cs0 a l I. split; [eapply chain_end; apply I|]. pose proof (i_nd _ _ _ I) as N. rewrite addrs_app in N. cbn [addrs map fst] in N.
    assert (N2 : NoDup (pown (pc s) ++ addrs cs0 ++ [a])).
    { clear - N. induction (cown (cc s)) as [|x c IH]; [assumption|]. inversion N; subst. auto. }
    assert (N3 : NoDup (addrs cs0 ++ [a])).
    { clear - N2. induction (pown (pc s)) as [|x c IH]; [assumption|]. inversion N2; subst. auto. }
    split; [|split; [|split]].
    - intros J. apply NoDup_remove_2 in N3. apply N3. rewrite app_nil_r. assumption.
    - intros J. clear - N J. induction (cown (cc s)) as [|x c IH]; [contradiction|]. inversion N; subst. destruct J as [->|J]; [|auto].
      apply H1. apply in_or_app. right. apply in_or_app. right. apply in_or_app. right. left. reflexivity.
    - intros J. clear - N2 J. induction (pown (pc s)) as [|x c IH]; [contradiction|]. inversion N2; subst. destruct J as [->|J]; [|auto].
      apply H1. apply in_or_app. right. apply in_or_app. right. left. reflexivity.
    - intros n J. clear - N2 J. induction (pown (pc s)) as [|x c IH]; [contradiction|]. inversion N2; subst. destruct J as [->|J]; [|auto].
      split; [intros ->|intros Q]; apply H1; apply in_or_app; right; apply in_or_app; [right; left; reflexivity|left; assumption].
  Qed.
  Lemma strict_cok_snoc : forall strict s s' cs0 a l v, cok strict s (cs0 ++ [(a, l)]) -> cc s' = cc s ->
    (strict = true -> cs0 = [] -> cc s <> C5 V /\ cc s <> C6 V) -> cok strict s' (cs0 ++ [(a, l ++ [v])]).
  Proof.
    intros strict s s' cs0 a l v K E Q. unfold cok in *. rewrite E. destruct (cc s) as [| | | |v0| | |o]; auto.
    - intros H. destruct cs0; discriminate.
    - destruct K as (a1 & v1 & l1 & r1 & K). destruct cs0 as [|[a0 l0] cs0]; cbn in *; injection K as -> K; subst; eauto. cbn. eauto.
    - destruct K as (a1 & l1 & r1 & K). destruct cs0 as [|[a0 l0] cs0]; cbn in *; injection K as -> K; subst; eauto. cbn. eauto.
    - destruct K as (a1 & l1 & r1 & K & L). destruct cs0 as [|[a0 l0] cs0]; cbn in *.
      + injection K as -> -> <-. do 3 eexists. split; [reflexivity|]. intros S. destruct (Q S eq_refl) as [Q1 _]. contradiction.
      + injection K as -> -> <-. do 3 eexists. split; [reflexivity|assumption].
    - destruct K as (a1 & l1 & c1 & r1 & K & L). destruct cs0 as [|[a0 l0] [|[a2 l2] cs0]]; cbn in *.
      + discriminate.
      + injection K as -> -> <- <-. do 4 eexists. split; [reflexivity|assumption].
      + injection K as -> -> <- <-. do 4 eexists. split; [reflexivity|assumption].
    - intros H. destruct cs0; discriminate.
  Qed.

  Lemma prod_ok : forall strict s cs, Inv strict s cs -> (strict = true -> quiet s (P V)) -> Good strict (prod V B s).
  Proof.
    intros strict s cs I Q. pose proof (i_p _ _ _ I) as K. unfold pok in K. unfold prod.
    assert (LIVE : hp s (fresh s) = None).
    { destruct (hp s (fresh s)) eqn:E; [|reflexivity]. assert (fresh s < fresh s); [|lia]. apply (i_fresh _ _ _ I). congruence. }
    assert (NIN : ~ In (fresh s) (cown (cc s) ++ pown (pc s) ++ addrs cs)) by (intros J; apply (i_live _ _ _ I) in J; contradiction).
    destruct I as [I1 I2 I3 I4 I5 I6 I7 I8 I9].
    (* allocating a block *)
    assert (ALLOC : forall p, pown (pc s) = [] -> pown p = [fresh s] ->
       (forall s', last s' = last s -> hp s' (fresh s) = Some (new_block V) -> pc s' = p -> pok s' cs) ->
       forall f, f (fresh s) = p -> Good strict (Some (Some (alloc V s f)))).
    { intros p E0 E1 PK f Ef. cbn [Good]. exists cs. rewrite E0 in *. cbn [app] in *.
      split; cbn [alloc hp QueueModel.hp QueueModel.fresh QueueModel.first QueueModel.last QueueModel.pc QueueModel.cc QueueModel.pushed QueueModel.popped QueueModel.begun QueueModel.nulls]; rewrite ?Ef, ?E1; auto.
      - apply (chain_ext (hp s)); [|assumption]. intros x J. symmetry. apply upd_neq. intros ->. apply NIN. apply in_or_app. auto.
      - apply (NoDup_Add (a := fresh s) (l := cown (cc s) ++ addrs cs)); [apply Add_app|auto].
      - intros x. unfold upd. destruct (Nat.eqb_spec x (fresh s)) as [->|NE].
        + split; [|discriminate]. intros _. apply in_or_app. right. left. reflexivity.
        + rewrite I3. rewrite !in_app_iff. cbn. intuition congruence.
      - intros x. unfold upd. destruct (Nat.eqb_spec x (fresh s)) as [->|NE]; [lia|]. intros H. apply I4 in H. lia.
      - apply PK; cbn; auto. apply upd_eq. }
    assert (MOVE : forall p l', pown p = pown (pc s) -> (forall s', hp s' = hp s -> last s' = l' -> pc s' = p -> pok s' cs) ->
       exists cs, Inv strict (set_pc V (set_last V s l') p) cs).
    { intros p l' E PK. exists cs. split; cbn [set_pc set_last QueueModel.hp QueueModel.fresh QueueModel.first QueueModel.last QueueModel.pc QueueModel.cc QueueModel.pushed QueueModel.popped QueueModel.begun QueueModel.nulls]; rewrite ?E; auto. }
    assert (MOVE0 : forall p, pown p = pown (pc s) -> (forall s', hp s' = hp s -> last s' = last s -> pc s' = p -> pok s' cs) ->
       exists cs, Inv strict (set_pc V s p) cs).
    { intros p E PK. exists cs. split; cbn [set_pc set_last QueueModel.hp QueueModel.fresh QueueModel.first QueueModel.last QueueModel.pc QueueModel.cc QueueModel.pushed QueueModel.popped QueueModel.begun QueueModel.nulls]; rewrite ?E; auto. }
    destruct (pc s) as [|v|v b|v b|v|v|v n|v n|v|v] eqn:PC.
    - exact Logic.I.
    - (* P1 *) destruct K as [[-> L]|(cs0 & a & l & -> & L)]; rewrite L.
      + apply (ALLOC (P2 V v (fresh s))); auto. intros s' E1 E2 E3. unfold pok. rewrite E3, E1. auto.
      + apply MOVE0; [reflexivity|]. intros s' E1 E2 E3. unfold pok. rewrite E3, E2. eauto.
    - (* P2 *) destruct K as (-> & L & H). apply MOVE; [reflexivity|]. intros s' E1 E2 E3. unfold pok. rewrite E3, E2, E1. auto.
    - (* P3 *) destruct K as (-> & L & H). exists [(b, [])]. cbn in I1.
      split; cbn [set_pc set_first QueueModel.hp QueueModel.fresh QueueModel.first QueueModel.last QueueModel.pc QueueModel.cc QueueModel.pushed QueueModel.popped QueueModel.begun QueueModel.nulls]; auto.
      + cbn. split; [reflexivity|]. exists (new_block V). split; [assumption|]. split; [|reflexivity]. split; [reflexivity|]. split; [cbn; lia|]. intros [|i] w E; discriminate.
      + unfold pok. cbn. exists [], b, []. auto.
      + unfold cok in *. cbn. destruct (cc s); auto; try (intros E; discriminate).
        * destruct I6 as (? & ? & ? & ? & E). discriminate.
        * destruct I6 as (? & ? & ? & E). discriminate.
        * destruct I6 as (? & ? & ? & E & _). discriminate.
        * destruct I6 as (? & ? & ? & ? & E & _). discriminate.
    - (* P4 *) destruct K as (cs0 & a & l & -> & L). rewrite L. cbn [at_]. destruct (chain_end _ _ _ _ _ I1) as (b & Hb & BK & NB). rewrite Hb.
      destruct (Nat.eqb_spec (rd b + B) (wr b)) as [F|F].
      + apply MOVE0; [reflexivity|]. intros s' E1 E2 E3. unfold pok. rewrite E3, E2. eauto.
      + apply MOVE0; [reflexivity|]. intros s' E1 E2 E3. unfold pok. rewrite E3, E2. destruct BK as (W & LB & _). exists cs0, a, l. repeat split; auto. lia.
    - (* P5 *) destruct K as (cs0 & a & l & -> & L). apply (ALLOC (P6 V v (fresh s))); auto. intros s' E1 E2 E3. unfold pok. rewrite E3, E1. eauto 8.
    - (* P6 *) destruct K as ((cs0 & a & l & -> & L) & Hn). rewrite L. cbn [at_].
      assert (I : Inv strict s (cs0 ++ [(a, l)])) by (split; rewrite ?PC; auto).
      destruct (end_facts _ _ _ _ _ I) as ((b & Hb & BK & NB) & N1 & N2 & N3 & N4). rewrite PC in *. rewrite Hb.
      destruct (N4 n (or_introl eq_refl)) as [N5 N6]. exists (cs0 ++ [(a, l); (n, [])]).
      assert (RM : rem (cs0 ++ [(a, l); (n, [])]) = rem (cs0 ++ [(a, l)])) by (unfold rem; rewrite !map_app, !concat_app; cbn; rewrite !app_nil_r; reflexivity).
      assert (AD : addrs (cs0 ++ [(a, l); (n, [])]) = addrs (cs0 ++ [(a, l)]) ++ [n]) by (rewrite !addrs_app; cbn; rewrite <- app_assoc; reflexivity).
      split; cbn [set_pc write set_hp QueueModel.hp QueueModel.fresh QueueModel.first QueueModel.last QueueModel.pc QueueModel.cc QueueModel.pushed QueueModel.popped QueueModel.begun QueueModel.nulls pown app]; rewrite ?RM, ?AD; auto.
      + apply chain_end_link with (b := b); auto.
      + cbn [pown app] in I2. apply NoDup_remove in I2. destruct I2 as [I2 I2']. rewrite app_assoc. 
        apply (NoDup_Add (a := n) (l := cown (cc s) ++ addrs (cs0 ++ [(a, l)]))); [|auto].
        rewrite <- (app_nil_r (cown (cc s) ++ addrs (cs0 ++ [(a, l)]))) at 1. apply Add_app.
      + intros x. unfold upd. destruct (Nat.eqb_spec x a) as [->|NE].
        * split; [|discriminate]. intros _. apply in_or_app. right. apply in_or_app. left. rewrite addrs_app. apply in_or_app. right. left. reflexivity.
        * rewrite I3. rewrite !in_app_iff. cbn. tauto.
      + intros x. unfold upd. destruct (Nat.eqb_spec x a) as [->|NE]; intros H; apply I4; congruence.
      + unfold pok. cbn. exists (cs0 ++ [(a, l)]). rewrite <- app_assoc. reflexivity.
      + unfold cok in *. cbn. destruct (cc s) as [| | | |v0| | |o]; auto.
        * intros E. destruct cs0; discriminate.
        * destruct I6 as (a1 & v1 & l1 & r1 & E). destruct cs0 as [|[a0 l0] cs0]; cbn in *; injection E as -> E; subst; eauto.
        * destruct I6 as (a1 & l1 & r1 & E). destruct cs0 as [|[a0 l0] cs0]; cbn in *; injection E as -> E; subst; eauto.
        * destruct I6 as (a1 & l1 & r1 & E & S). destruct cs0 as [|[a0 l0] cs0]; cbn in *; injection E as -> -> E; do 3 eexists; (split; [reflexivity|assumption]).
        * destruct I6 as (a1 & l1 & c1 & r1 & E & S). destruct cs0 as [|[a0 l0] [|c0 cs0]]; cbn in *; [discriminate| |]; injection E as -> -> E; do 4 eexists; (split; [reflexivity|assumption]).
        * intros E. destruct cs0; discriminate.
    - (* P7 *) destruct K as (cs0 & ->). apply MOVE; [reflexivity|]. intros s' E1 E2 E3. unfold pok. rewrite E3, E2. exists cs0, n, []. repeat split; auto; cbn; lia.
    - (* P8 *) destruct K as (cs0 & a & l & -> & L & LB). rewrite L. cbn [at_].
      assert (I : Inv strict s (cs0 ++ [(a, l)])) by (split; rewrite ?PC; auto).
      destruct (end_facts _ _ _ _ _ I) as ((b & Hb & BK & NB) & N1 & N2 & N3 & N4). rewrite PC in *. rewrite Hb. exists (cs0 ++ [(a, l)]).
      assert (BK' : blk_ok (QueueModel.BK V (rd b) (wr b) (nb b) (upd (buf b) (wr b mod B) (Some v))) l).
      { destruct BK as (B2 & B3 & B4). split; [exact B2|]. split; [exact B3|]. cbn. intros i w E. rewrite upd_neq; [apply B4; assumption|]. rewrite B2.
        apply mod_neq; [|assumption]. apply nth_error_Some. congruence. }
      split; cbn [set_pc write set_hp QueueModel.hp QueueModel.fresh QueueModel.first QueueModel.last QueueModel.pc QueueModel.cc QueueModel.pushed QueueModel.popped QueueModel.begun QueueModel.nulls pown app]; auto.
      + apply chain_end_set with (l := l); auto.
      + intros x. unfold upd. destruct (Nat.eqb_spec x a) as [->|NE].
        * split; [|discriminate]. intros _. apply in_or_app. right. rewrite addrs_app. apply in_or_app. right. left. reflexivity.
        * apply I3.
      + intros x. unfold upd. destruct (Nat.eqb_spec x a) as [->|NE]; intros H; apply I4; congruence.
      + unfold pok. cbn. exists cs0, a, l. eexists. split; [reflexivity|]. split; [assumption|]. split; [assumption|]. rewrite upd_eq. split; [reflexivity|]. cbn. apply upd_eq.
    - (* P9 *) destruct K as (cs0 & a & l & b & -> & L & LB & Hb & BF). rewrite L. cbn [at_]. rewrite Hb.
      assert (I : Inv strict s (cs0 ++ [(a, l)])) by (split; rewrite ?PC; auto; unfold pok; rewrite PC; eauto 8).
      destruct (end_facts _ _ _ _ _ I) as ((b' & Hb' & BK & NB) & N1 & N2 & N3 & N4). rewrite Hb in Hb'. injection Hb' as <-. rewrite PC in *.
      exists (cs0 ++ [(a, l ++ [v])]).
      assert (BK' : blk_ok (QueueModel.BK V (rd b) (S (wr b)) (nb b) (buf b)) (l ++ [v])).
      { destruct BK as (B2 & B3 & B4). split; [cbn; rewrite app_length; cbn; lia|]. split; [rewrite app_length; cbn; lia|]. cbn. intros i w E.
        destruct (Nat.lt_ge_cases i (length l)) as [Li|Li]; [rewrite nth_error_app1 in E by assumption; auto|]. rewrite nth_error_app2 in E by assumption.
        destruct (i - length l) as [|k] eqn:Ek; [|destruct k; discriminate]. cbn in E. injection E as <-. replace (rd b + i) with (wr b) by lia. assumption. }
      assert (AD : addrs (cs0 ++ [(a, l ++ [v])]) = addrs (cs0 ++ [(a, l)])) by (rewrite !addrs_app; reflexivity).
      split; cbn [set_pc write set_hp QueueModel.hp QueueModel.fresh QueueModel.first QueueModel.last QueueModel.pc QueueModel.cc QueueModel.pushed QueueModel.popped QueueModel.begun QueueModel.nulls pown app]; rewrite ?AD; auto.
      + apply chain_end_set with (l := l); auto.
      + intros x. unfold upd. destruct (Nat.eqb_spec x a) as [->|NE].
        * split; [|discriminate]. intros _. apply in_or_app. right. rewrite addrs_app. apply in_or_app. right. left. reflexivity.
        * apply I3.
      + intros x. unfold upd. destruct (Nat.eqb_spec x a) as [->|NE]; intros H; apply I4; congruence.
      + unfold pok. cbn. right. exists cs0, a, (l ++ [v]). auto.
      + eapply strict_cok_snoc; [exact I6|reflexivity|]. intros S ->. specialize (Q S). unfold quiet in Q. rewrite PC in Q. cbn in I1. destruct I1 as [I1 _].
        split; intros E; rewrite E in Q; congruence.
      + rewrite rem_snoc. destruct strict; [rewrite I7, app_assoc; reflexivity|]. rewrite app_assoc. apply sub_snoc. assumption.
      + rewrite app_length. destruct I8; [auto|right; lia].
  Qed.

  (** Facts about the first block. *)
  Lemma chain_upd_head : forall h a l r l' b b', chain h (Some a) ((a, l) :: r) -> h a = Some b -> blk_ok b' l' -> nb b' = nb b -> ~ In a (addrs r) ->
    chain (upd h a (Some b')) (Some a) ((a, l') :: r).
  Proof.
    intros h a l r l' b b' C H K E N. cbn in C. destruct C as (_ & b0 & H0 & K0 & C). rewrite H in H0. injection H0 as <-. cbn. split; [reflexivity|].
    exists b'. rewrite upd_eq. split; [reflexivity|]. split; [assumption|]. rewrite E. apply (chain_ext h); [|assumption]. intros x J. symmetry. apply upd_neq.
    intros ->. contradiction.
  Qed.
  (** What the producer relies on when the first block loses its first entry. *)
  Lemma pok_pop : forall s s' a v l r b, pok s ((a, v :: l) :: r) -> hp s a = Some b ->
    pc s' = pc s -> last s' = last s -> (forall x, x <> a -> hp s' x = hp s x) ->
    (forall b', hp s' a = Some b' -> wr b' = wr b /\ buf b' = buf b) -> hp s' a <> None -> (forall n, In n (pown (pc s)) -> n <> a) ->
    pok s' ((a, l) :: r).
  Proof.
    intros s s' a v l r b K Hb E1 E2 E3 E4 E5 E6. unfold pok in *. rewrite E1, E2.
    assert (SPLIT : forall cs0 x m, (a, v :: l) :: r = cs0 ++ [(x, m)] -> exists cs1 m', (a, l) :: r = cs1 ++ [(x, m')] /\ length m' <= length m /\ (m = [] -> m' = [])).
    { intros cs0 x m E. destruct cs0 as [|c0 cs0].
      - cbn in E. injection E as -> <- ->. exists [], l. split; [reflexivity|]. split; [cbn; lia|]. discriminate.
      - cbn in E. injection E as <- ->. exists ((a, l) :: cs0), m. auto. }
    destruct (pc s) as [|w|w b0|w b0|w|w|w n|w n|w|w].
    - destruct K as [[E _]|(cs0 & x & m & E & L)]; [discriminate|]. right. destruct (SPLIT _ _ _ E) as (cs1 & m' & E' & _). eauto.
    - destruct K as [[E _]|(cs0 & x & m & E & L)]; [discriminate|]. right. destruct (SPLIT _ _ _ E) as (cs1 & m' & E' & _). eauto.
    - destruct K as [E _]. discriminate.
    - destruct K as [E _]. discriminate.
    - destruct K as (cs0 & x & m & E & L). destruct (SPLIT _ _ _ E) as (cs1 & m' & E' & _). eauto.
    - destruct K as (cs0 & x & m & E & L). destruct (SPLIT _ _ _ E) as (cs1 & m' & E' & _). eauto.
    - destruct K as ((cs0 & x & m & E & L) & Hn). destruct (SPLIT _ _ _ E) as (cs1 & m' & E' & _). split; [eauto|]. rewrite E3; [assumption|]. apply E6. left. reflexivity.
    - destruct K as (cs0 & E). destruct (SPLIT _ _ _ E) as (cs1 & m' & E' & _ & Z). exists cs1. rewrite (Z eq_refl) in E'. assumption.
    - destruct K as (cs0 & x & m & E & L & LB). destruct (SPLIT _ _ _ E) as (cs1 & m' & E' & G & _). exists cs1, x, m'. repeat split; auto. lia.
    - destruct K as (cs0 & x & m & b1 & E & L & LB & H1 & BF). destruct (SPLIT _ _ _ E) as (cs1 & m' & E' & G & _). exists cs1, x, m'.
      destruct (Nat.eq_dec x a) as [->|NE].
      + rewrite Hb in H1. injection H1 as <-. destruct (hp s' a) as [b'|] eqn:Hs; [|contradiction]. destruct (E4 b' eq_refl) as [W1 W2]. exists b'. rewrite W1, W2. repeat split; auto. lia.
      + exists b1. rewrite E3 by assumption. repeat split; auto. lia.
  Qed.
  Lemma cons_ok : forall strict s cs, Inv strict s cs -> Good strict (cons V B s).
  Proof.
    intros strict s cs I. pose proof (i_c _ _ _ I) as K. unfold cok in K. unfold cons. destruct I as [I1 I2 I3 I4 I5 I6 I7 I8 I9].
    assert (BE : cc s <> CIdle V -> begun s <= length (pushed s)) by (intros; tauto).
    assert (MOVE : forall c, cown c = cown (cc s) -> cc s <> CIdle V -> (forall s', cc s' = c -> cok strict s' cs) -> exists cs, Inv strict (set_cc V s c) cs).
    { intros c E NI PK. exists cs. split; cbn [set_cc QueueModel.hp QueueModel.fresh QueueModel.first QueueModel.last QueueModel.pc QueueModel.cc QueueModel.pushed QueueModel.popped QueueModel.begun QueueModel.nulls]; rewrite ?E; auto. }
    assert (NULL : cown (cc s) = [] -> (strict = true -> begun s <= length (popped s)) -> exists cs, Inv strict (null V s) cs).
    { intros E G. exists cs. rewrite E in *. split; cbn [null QueueModel.hp QueueModel.fresh QueueModel.first QueueModel.last QueueModel.pc QueueModel.cc QueueModel.pushed QueueModel.popped QueueModel.begun QueueModel.nulls]; auto.
      - exact Logic.I.
      - intros S. apply Forall_app. split; [auto|]. constructor; [cbn; auto|constructor]. }
    destruct (cc s) as [| | | |v| | |old] eqn:CC.
    - exact Logic.I.
    - (* C1 *) destruct (first s) as [a|] eqn:F.
      + apply MOVE; [reflexivity|discriminate|]. intros s' E. unfold cok. rewrite E. intros ->. cbn in I1. congruence.
      + apply NULL; [reflexivity|]. intros S. destruct cs as [|[a l] cs]; [|destruct I1 as [I1 _]; congruence]. subst strict. cbn in I7. rewrite app_nil_r in I7. rewrite <- I7. apply BE. discriminate.
    - (* C2 *) destruct cs as [|[a l] r]; [contradiction|]. destruct I1 as (F & b & Hb & BK & C). rewrite F. cbn [at_]. rewrite Hb.
      apply MOVE; [destruct (rd b =? wr b); reflexivity|discriminate|]. intros s' E. unfold cok. rewrite E. destruct BK as (B2 & B3 & _).
      destruct (Nat.eqb_spec (rd b) (wr b)) as [Q|Q].
      + exists a, l, r. split; [reflexivity|]. intros _. destruct l; [reflexivity|cbn in B2; lia].
      + destruct l as [|v l]; [cbn in B2; lia|]. eauto.
    - (* C3 *) destruct K as (a & v & l & r & ->). destruct I1 as (F & b & Hb & BK & C). rewrite F. cbn [at_]. rewrite Hb.
      destruct BK as (B2 & B3 & B4). specialize (B4 0 v eq_refl). rewrite Nat.add_0_r in B4. rewrite B4.
      apply MOVE; [reflexivity|discriminate|]. intros s' E. unfold cok. rewrite E. eauto.
    - (* C4 *) destruct K as (a & l & r & ->). destruct (I1) as (F & b & Hb & BK & C). rewrite F in *. cbn [at_]. rewrite Hb. exists ((a, l) :: r).
      cbn [cown app] in I2, I3. assert (NA : ~ In a (addrs r)).
      { intros J. clear - I2 J. cbn in I2. induction (pown (pc s)) as [|x c IH]; cbn in I2; inversion I2; auto. }
      assert (NP : forall n, In n (pown (pc s)) -> n <> a).
      { intros n J ->. clear - I2 J. cbn in I2. induction (pown (pc s)) as [|x c IH]; cbn in I2; [contradiction|]. inversion I2; subst. destruct J as [->|J]; [|auto]. apply H1. apply in_or_app. right. left. reflexivity. }
      assert (BK' : blk_ok (QueueModel.BK V (S (rd b)) (wr b) (nb b) (buf b)) l).
      { destruct BK as (B2 & B3 & B4). cbn in B2, B3. split; [cbn; lia|]. split; [lia|]. cbn. intros i w E. replace (S (rd b + i)) with (rd b + S i) by lia. apply B4. assumption. }
      split; cbn [set_cc write set_hp QueueModel.hp QueueModel.fresh QueueModel.first QueueModel.last QueueModel.pc QueueModel.cc QueueModel.pushed QueueModel.popped QueueModel.begun QueueModel.nulls cown app]; auto.
      + rewrite F. eapply chain_upd_head; eauto.
      + intros x. unfold upd. destruct (Nat.eqb_spec x a) as [->|NE]; [|apply I3]. split; [|discriminate]. intros _. apply in_or_app. right. left. reflexivity.
      + intros x. unfold upd. destruct (Nat.eqb_spec x a) as [->|NE]; intros H; apply I4; congruence.
      + eapply pok_pop; [exact I5|exact Hb|reflexivity|reflexivity| | | |]; cbn.
        * intros x NE. apply upd_neq. assumption.
        * rewrite upd_eq. intros b' E. injection E as <-. auto.
        * rewrite upd_eq. discriminate.
        * assumption.
      + exact Logic.I.
      + cbn in *. change (rem ((a, v :: l) :: r)) with (v :: rem ((a, l) :: r)) in I7. destruct strict; rewrite <- app_assoc; cbn; assumption.
    - (* C5 *) destruct K as (a & l & r & -> & S). destruct I1 as (F & b & Hb & BK & C). rewrite F. cbn [at_]. rewrite Hb. cbn [Good].
      destruct (nb b) as [n|] eqn:NB.
      + apply MOVE; [reflexivity|discriminate|]. intros s' E. unfold cok. rewrite E. destruct r as [|c r]; [cbn in C; discriminate|]. exists a, l, c, r. auto.
      + apply NULL; [reflexivity|]. intros ST. specialize (S ST). subst strict l. destruct r as [|[a1 l1] r]; [|destruct C; discriminate]. cbn in I7. rewrite app_nil_r in I7.
        rewrite <- I7. apply BE. discriminate.
    - (* C6 *) destruct K as (a & l & [n m] & r & -> & S). destruct I1 as (F & b & Hb & BK & C). rewrite F. cbn [at_]. rewrite Hb. exists ((n, m) :: r).
      assert (NBB : nb b = Some n) by (cbn in C; tauto).
      cbn [cown app] in I2, I3. split; cbn [set_cc set_first QueueModel.hp QueueModel.fresh QueueModel.first QueueModel.last QueueModel.pc QueueModel.cc QueueModel.pushed QueueModel.popped QueueModel.begun QueueModel.nulls cown app]; auto.
      + cbn in I2. apply NoDup_remove in I2. destruct I2 as [X Y]. constructor; assumption.
      + intros x. rewrite I3. cbn. rewrite !in_app_iff. cbn. tauto.
      + unfold pok in *. cbn. clear - I5.
        assert (SPLIT : forall cs0 x k, (a, l) :: (n, m) :: r = cs0 ++ [(x, k)] -> exists cs1, (n, m) :: r = cs1 ++ [(x, k)]).
        { intros [|c0 cs0] x k E; cbn in E; [discriminate|]. injection E as <- E. eauto. }
        destruct (pc s) as [|w|w b0|w b0|w|w|w n0|w n0|w|w].
        * destruct I5 as [[E _]|(cs0 & x & k & E & L)]; [discriminate|]. right. destruct (SPLIT _ _ _ E) as (cs1 & E'). eauto.
        * destruct I5 as [[E _]|(cs0 & x & k & E & L)]; [discriminate|]. right. destruct (SPLIT _ _ _ E) as (cs1 & E'). eauto.
        * destruct I5. discriminate.
        * destruct I5. discriminate.
        * destruct I5 as (cs0 & x & k & E & L). destruct (SPLIT _ _ _ E) as (cs1 & E'). eauto.
        * destruct I5 as (cs0 & x & k & E & L). destruct (SPLIT _ _ _ E) as (cs1 & E'). eauto.
        * destruct I5 as ((cs0 & x & k & E & L) & Hn). destruct (SPLIT _ _ _ E) as (cs1 & E'). eauto 6.
        * destruct I5 as (cs0 & E). destruct (SPLIT _ _ _ E) as (cs1 & E'). eauto.
        * destruct I5 as (cs0 & x & k & E & L & LB). destruct (SPLIT _ _ _ E) as (cs1 & E'). eauto 6.
        * destruct I5 as (cs0 & x & k & b1 & E & L & LB & H1 & BF). destruct (SPLIT _ _ _ E) as (cs1 & E'). exists cs1, x, k, b1. auto.
      + unfold cok. cbn. discriminate.
      + destruct strict; [rewrite (S eq_refl) in I7; exact I7|]. change (rem ((a, l) :: (n, m) :: r)) with (l ++ rem ((n, m) :: r)) in I7. eapply sub_drop. exact I7.
      + right. apply BE. discriminate.
    - (* C7 *) cbn [cown app] in *. destruct (hp s old) eqn:H; [|assert (hp s old <> None) by (apply I3; left; reflexivity); contradiction]. cbn [Good]. exists cs.
      inversion I2 as [|? ? N1 N2]; subst.
      split; cbn [set_cc set_hp QueueModel.hp QueueModel.fresh QueueModel.first QueueModel.last QueueModel.pc QueueModel.cc QueueModel.pushed QueueModel.popped QueueModel.begun QueueModel.nulls cown app]; auto.
      + apply (chain_ext (hp s)); [|assumption]. intros x J. symmetry. apply upd_neq. intros ->. apply N1. apply in_or_app. auto.
      + intros x. unfold upd. destruct (Nat.eqb_spec x old) as [->|NE]; [tauto|]. rewrite I3. split; [intros [E|E]; [congruence|assumption]|intros E; right; assumption].
      + intros x. unfold upd. destruct (Nat.eqb_spec x old) as [->|NE]; [congruence|]. apply I4.
      + assert (HE : forall x, In x (pown (pc s) ++ addrs cs) -> upd (hp s) old None x = hp s x) by (intros x J; apply upd_neq; intros ->; contradiction).
        assert (HA : forall cs0 x m, cs = cs0 ++ [(x, m)] -> In x (pown (pc s) ++ addrs cs)) by (intros cs0 x m ->; apply in_or_app; right; rewrite addrs_app; apply in_or_app; right; left; reflexivity).
        unfold pok in *. cbn in *. destruct (pc s) as [|w|w b0|w b0|w|w|w n0|w n0|w|w]; auto.
        * rewrite HE by (left; reflexivity). assumption.
        * rewrite HE by (left; reflexivity). assumption.
        * rewrite HE by (left; reflexivity). assumption.
        * destruct I5 as (cs0 & x & k & b1 & E & L & LB & H1 & BF). exists cs0, x, k, b1. rewrite HE by (eapply HA; exact E). auto.
      + right. apply BE. discriminate.
  Qed.
  Lemma step_ok : forall strict s cs a, Inv strict s cs -> (strict = true -> quiet s a) -> Good strict (step s a).
  Proof.
    intros strict s cs a I Q. destruct a as [v| | |]; cbn [QueueModel.step].
    - destruct (pc s) eqn:PC; try exact Logic.I. exists cs. destruct I as [I1 I2 I3 I4 I5 I6 I7 I8 I9]. unfold pok in I5. rewrite PC in *.
      split; cbn [set_pc QueueModel.hp QueueModel.fresh QueueModel.first QueueModel.last QueueModel.pc QueueModel.cc QueueModel.pushed QueueModel.popped QueueModel.begun QueueModel.nulls]; auto.
    - destruct (cc s) eqn:CC; try exact Logic.I. exists cs. destruct I as [I1 I2 I3 I4 I5 I6 I7 I8 I9]. unfold cok in I6. rewrite CC in *.
      split; cbn [QueueModel.hp QueueModel.fresh QueueModel.first QueueModel.last QueueModel.pc QueueModel.cc QueueModel.pushed QueueModel.popped QueueModel.begun QueueModel.nulls]; auto.
    - apply (prod_ok strict s cs I). exact Q.
    - apply (cons_ok strict s cs I).
  Qed.
  Lemma run_ok : forall strict l s cs, Inv strict s cs -> (strict = true -> calm s l) ->
    match run s l with Ok _ s' => exists cs', Inv strict s' cs' | Stuck _ => True | UB _ => False end.
  Proof.
    intros strict l. induction l as [|a l IH]; intros s cs I Q; cbn [QueueModel.run]; [eauto|].
    pose proof (step_ok strict s cs a I ltac:(intros S; apply (Q S))) as G. unfold Good in G.
    destruct (step s a) as [[s'|]|] eqn:E; try contradiction; [|exact Logic.I]. destruct G as [cs' I']. apply (IH s' cs' I'). intros S. specialize (Q S). cbn in Q.
    rewrite E in Q. tauto.
  Qed.

  (** ** Memory: whatever the interleaving, no null or deleted block is used, no entry read before
      it was written. *)
  Theorem C47_no_ub : forall l, run (init V) l <> UB V.
  Proof. intros l E. pose proof (run_ok false l _ _ (init_inv false) ltac:(discriminate)) as X. rewrite E in X. exact X. Qed.

  (** ** Order: the popped entries are pushed ones, in the order of the pushes, none twice. *)
  Theorem C47_subsequence_partial : forall l s, run (init V) l = Ok V s -> sub (popped s) (pushed s).
  Proof.
    intros l s E. pose proof (run_ok false l _ _ (init_inv false) ltac:(discriminate)) as X. rewrite E in X. destruct X as [cs I].
    eapply sub_app. apply (i_sub _ _ _ I).
  Qed.
  (** ** Without the race nothing is lost either, and Pop returns null only when everything that
      was pushed before Pop was called has been popped. *)
  Theorem C47_prefix_partial : forall l s, calm (init V) l -> run (init V) l = Ok V s ->
    prefix (popped s) (pushed s) /\ Forall (fun x => snd x <= fst x) (nulls s).
  Proof.
    intros l s Q E. pose proof (run_ok true l _ _ (init_inv true) (fun _ => Q)) as X. rewrite E in X. destruct X as [cs I]. split; [|apply I; reflexivity].
    exists (rem cs). apply (i_sub _ _ _ I).
  Qed.
  (** What is not popped is still there: with both threads idle the entries that were pushed and
      not popped are exactly what lies in the blocks from pFirstReadBlock on. *)
  Theorem C47_stored_partial : forall l s, calm (init V) l -> run (init V) l = Ok V s ->
    exists cs, chain (hp s) (first s) cs /\ pushed s = popped s ++ concat (map snd cs).
  Proof.
    intros l s Q E. pose proof (run_ok true l _ _ (init_inv true) (fun _ => Q)) as X. rewrite E in X. destruct X as [cs I]. exists cs. split; apply I.
  Qed.
  (** ** Blocks: while no call is in progress, the allocated blocks are those that Pop can still
      reach, and there is at least one after the first Push; as the class has no destructor, it is
      never freed. *)
  Theorem C47_blocks : forall l s, run (init V) l = Ok V s -> pc s = PIdle V -> cc s = CIdle V ->
    exists cs, chain (hp s) (first s) cs /\ NoDup (map fst cs) /\ (forall x, hp s x <> None <-> In x (map fst cs)) /\ (pushed s <> [] -> cs <> []).
  Proof.
    intros l s E PI CI. pose proof (run_ok false l _ _ (init_inv false) ltac:(discriminate)) as X. rewrite E in X. destruct X as [cs I]. exists cs.
    pose proof (i_nd _ _ _ I) as N. pose proof (i_live _ _ _ I) as L. rewrite PI, CI in *. cbn in N, L. split; [apply I|]. split; [assumption|]. split; [assumption|].
    intros PN ->. assert (G : last s <> None).
    { clear - E PN. assert (G : forall l s0 s, (pushed s0 <> [] -> last s0 <> None) -> (forall v, pc s0 = P9 V v -> last s0 <> None) -> run s0 l = Ok V s -> pushed s <> [] -> last s <> None).
      { clear. induction l as [|a l IH]; intros s0 s H1 H2 E; cbn in E; [injection E as <-; assumption|]. destruct (step s0 a) as [[s1|]|] eqn:X; try discriminate.
        apply (IH s1 s); auto; clear IH E; destruct a as [v| | |]; cbn in X.
        - destruct (pc s0); try discriminate. injection X as <-. exact H1.
        - destruct (cc s0); try discriminate. injection X as <-. exact H1.
        - unfold prod in X. destruct (pc s0); try discriminate; unfold at_ in X; destruct (last s0) eqn:L; try discriminate; try (destruct (hp s0 _); try discriminate);
            injection X as <-; cbn in *; try rewrite L; try (intros _; discriminate); exact H1.
        - unfold cons in X. destruct (cc s0); try discriminate; try (injection X as <-; destruct (first s0); exact H1);
            try (unfold at_ in X; destruct (first s0); try discriminate; destruct (hp s0 _); try discriminate; repeat destruct (nb _); repeat destruct (buf _ _); try discriminate; injection X as <-; exact H1).
        - destruct (pc s0); try discriminate. injection X as <-. cbn. discriminate.
        - destruct (cc s0); try discriminate. injection X as <-. exact H2.
        - unfold prod in X. destruct (pc s0) eqn:PC; try discriminate; unfold at_ in X; destruct (last s0) eqn:L; try discriminate; try (destruct (hp s0 _); try discriminate);
            injection X as <-; cbn in *; try rewrite L; try (intros; discriminate).
        - unfold cons in X. destruct (cc s0); try discriminate; try (injection X as <-; destruct (first s0); exact H2);
            try (unfold at_ in X; destruct (first s0); try discriminate; destruct (hp s0 _); try discriminate; repeat destruct (nb _); repeat destruct (buf _ _); try discriminate; injection X as <-; exact H2). }
      apply (G l (init V) s); auto. cbn. discriminate. }
    pose proof (i_p _ _ _ I) as P. unfold pok in P. rewrite PI in P. destruct P as [[_ P]|(cs0 & a & m & P & _)]; [contradiction|]. destruct cs0; discriminate.
  Qed.

  (** ** The race, for every block size
      One entry is pushed and popped; Pop is called again and finds the block empty; a block full
      of entries and one more are pushed; Pop goes on, finds the next block and deletes the first
      with all its entries. *)
  Definition times (n : nat) (a : act) : list act := repeat a n.
  Definition push (v : V) : list act := Push V v :: times 4 (P V).
  Definition race (v0 : V) (vs : list V) (w : V) : list act :=
    Push V v0 :: times 6 (P V) ++ Pop V :: times 4 (C V) ++ Pop V :: times 2 (C V) ++
    concat (map push vs) ++ Push V w :: times 7 (P V) ++ times 6 (C V).
  Lemma run_cons : forall s a r, run s (a :: r) = match step s a with Some (Some s') => run s' r | Some None => UB V | None => Stuck V end.
  Proof. reflexivity. Qed.
  Ltac ev := cbn [QueueModel.step QueueModel.pc set_pc prod QueueModel.last at_ QueueModel.hp init alloc QueueModel.fresh set_last set_first QueueModel.first write set_hp
    QueueModel.cc cons set_cc QueueModel.rd QueueModel.wr QueueModel.nb QueueModel.buf QueueModel.pushed QueueModel.popped QueueModel.begun QueueModel.nulls new_block].
  Ltac go := rewrite run_cons; ev; rewrite ?upd_eq; ev; rewrite ?upd_eq; change (0 =? 1) with false; change (1 =? 1) with true; cbv beta iota.
  Lemma push_run : forall vs h fr a b pu po be nu rest, h a = Some b -> nb b = None -> rd b <= wr b -> wr b + length vs <= rd b + B ->
    exists h' b', h' a = Some b' /\ nb b' = None /\ rd b' = rd b /\ wr b' = wr b + length vs /\
      run (ST V h fr (Some a) (Some a) (PIdle V) (C5 V) pu po be nu) (concat (map push vs) ++ rest) =
      run (ST V h' fr (Some a) (Some a) (PIdle V) (C5 V) (pu ++ vs) po be nu) rest.
  Proof.
    induction vs as [|v vs IH]; intros h fr a b pu po be nu rest Hb NB RW L.
    - exists h, b. rewrite app_nil_r. cbn. repeat split; auto.
    - cbn [length] in L.
      set (b1 := BK V (rd b) (wr b) (nb b) (upd (buf b) (wr b mod B) (Some v))). set (h1 := upd h a (Some b1)).
      set (b2 := BK V (rd b1) (S (wr b1)) (nb b1) (buf b1)). set (h2 := upd h1 a (Some b2)).
      destruct (IH h2 fr a b2 (pu ++ [v]) po be nu rest) as (h' & b' & H1 & H2 & H3 & H4 & H5); [apply upd_eq|exact NB|cbn; lia|cbn; lia|].
      exists h', b'. split; [assumption|]. split; [assumption|]. split; [assumption|]. split; [rewrite H4; cbn; lia|].
      change (concat (map push (v :: vs)) ++ rest) with (Push V v :: P V :: P V :: P V :: P V :: (concat (map push vs) ++ rest)).
      replace (pu ++ v :: vs) with ((pu ++ [v]) ++ vs) by (rewrite <- app_assoc; reflexivity). rewrite <- H5.
      go. go. go. rewrite Hb. destruct (Nat.eqb_spec (rd b + B) (wr b)); [lia|]. go. rewrite Hb. go. reflexivity.
  Qed.
  Lemma start_run : forall v0 rest, exists h b, h 0 = Some b /\ nb b = None /\ rd b = 1 /\ wr b = 1 /\
      run (init V) (Push V v0 :: times 6 (P V) ++ Pop V :: times 4 (C V) ++ Pop V :: times 2 (C V) ++ rest) =
      run (ST V h 1 (Some 0) (Some 0) (PIdle V) (C5 V) [v0] [v0] 1 []) rest.
  Proof.
    intros v0 rest. cbn [times repeat app]. go. go. go. go. go. destruct (Nat.eqb_spec (0 + B) 0) as [|_]; [lia|]. go. go. go. go. go. go. go. go. go. go.
    eexists. eexists. split; [|split; [|split; [|split; [|reflexivity]]]]; [apply upd_eq|reflexivity|reflexivity|reflexivity].
  Qed.
  Theorem C47_race : forall v0 vs w, length vs = B ->
    exists s, run (init V) (race v0 vs w) = Ok V s /\ pushed s = v0 :: vs ++ [w] /\ popped s = [v0; w].
  Proof.
    intros v0 vs w L. unfold race.
    destruct (start_run v0 (concat (map push vs) ++ Push V w :: times 7 (P V) ++ times 6 (C V))) as (h & b & Hb & NB & RD & WR & E). rewrite E. clear E.
    destruct (push_run vs h 1 0 b [v0] [v0] 1 [] (Push V w :: times 7 (P V) ++ times 6 (C V)) Hb NB ltac:(lia) ltac:(lia)) as (h' & b' & H1 & H2 & H3 & H4 & H5).
    rewrite H5. clear H5. cbn [times repeat app].
    go. go. go. rewrite H1. destruct (Nat.eqb_spec (rd b' + B) (wr b')) as [_|N]; [|lia].
    go. go. rewrite upd_neq by lia. rewrite H1. go. go. rewrite !(upd_neq _ _ 0 _ 1) by lia. rewrite upd_eq. go.
    go. rewrite !(upd_neq _ _ 1 _ 0) by lia. rewrite upd_eq. ev.
    go. rewrite !(upd_neq _ _ 1 _ 0) by lia. rewrite upd_eq. ev.
    go. rewrite !(upd_neq _ _ 1 _ 0) by lia. rewrite upd_eq. ev.
    go. rewrite !(upd_neq _ _ 0 _ 1) by lia. rewrite upd_eq. ev. change (0 =? 1) with false.
    go. rewrite !(upd_neq _ _ 0 _ 1) by lia. rewrite upd_eq. ev. rewrite upd_eq.
    go. rewrite !(upd_neq _ _ 0 _ 1) by lia. rewrite upd_eq. ev.
    eexists. split; [reflexivity|]. split; reflexivity.
  Qed.
  Theorem C47_refuted : forall v w : V, v <> w -> exists l s, run (init V) l = Ok V s /\ ~ prefix (popped s) (pushed s).
  Proof.
    intros v w N. destruct (C47_race v (repeat v B) w (repeat_length v B)) as (s & E & A & Q). exists (race v (repeat v B) w), s. split; [assumption|].
    rewrite A, Q. intros [r X]. destruct B; [lia|]. cbn in X. congruence.
  Qed.
End Thms.

(** * Examples *)
Definition exq : list (act nat) :=
  Push nat 1 :: repeat (P nat) 6 ++ Push nat 2 :: repeat (P nat) 4 ++ Pop nat :: repeat (C nat) 3 ++ Push nat 3 :: repeat (P nat) 5 ++ [C nat] ++ repeat (P nat) 2 ++
  Pop nat :: repeat (C nat) 4 ++ Pop nat :: repeat (C nat) 8 ++ Pop nat :: repeat (C nat) 3.
Example ex_run : match run nat 2 (init nat) exq with
  | Ok _ s => pushed nat s = [1; 2; 3] /\ popped nat s = [1; 2; 3] /\ nulls nat s = [(3, 3)] /\ pc nat s = PIdle nat /\ cc nat s = CIdle nat
  | _ => False end.
Proof. vm_compute. repeat split. Qed.
Example ex_calm : calm nat 2 (init nat) exq.
Proof. vm_compute. repeat split. Qed.
Example ex_not_calm : ~ calm nat 1 (init nat) (race nat 1 [2] 3).
Proof. vm_compute. intros H. repeat (destruct H as [? H]; try congruence). Qed.

Print Assumptions C47_no_ub.
Print Assumptions C47_subsequence_partial.
Print Assumptions C47_prefix_partial.
Print Assumptions C47_stored_partial.
Print Assumptions C47_blocks.
Print Assumptions C47_race.
Print Assumptions C47_refuted.
