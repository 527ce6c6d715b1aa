(** Property C12: a [HashSet] is a set of keys. *)
From Coq Require Import ZArith Lia Bool List Permutation.
From Verif Require Import HashSetModel.
Import ListNotations.
Local Open Scope Z_scope.

(** Specification: a set of keys as a predicate; [Pop] may return any member. *)
Definition kset := Z -> Prop.
Definition same (a b : kset) : Prop := forall k, a k <-> b k.

Inductive hspec (S : kset) : hop -> kset -> Z -> Prop :=
| H_present k mem : S k -> hspec S (HInsert k mem) S S_FALSE
| H_nomem k : ~ S k -> hspec S (HInsert k false) S E_OUTOFMEMORY
| H_insert k S' : ~ S k -> same S' (fun x => x = k \/ S x) -> hspec S (HInsert k true) S' S_OK
| H_remove k S' : S k -> same S' (fun x => x <> k /\ S x) -> hspec S (HRemove k) S' S_OK
| H_absent k : ~ S k -> hspec S (HRemove k) S S_FALSE
| H_popempty : (forall k, ~ S k) -> hspec S HPop S 0
| H_pop k S' : S k -> same S' (fun x => x <> k /\ S x) -> hspec S HPop S' k.

Inductive hspecs (S : kset) : list hop -> kset -> list Z -> Prop :=
| HS_nil : hspecs S [] S []
| HS_cons o S1 r ops S2 rs : hspec S o S1 r -> hspecs S1 ops S2 rs -> hspecs S (o :: ops) S2 (r :: rs).

(** ** Invariant *)
Definition keys (s : hset) : list Z := map snd (concat (hs_buckets s)).
Definition Inv (n : nat) (s : hset) : Prop :=
  length (hs_buckets s) = n
  /\ (forall i a k, In (a, k) (nth i (hs_buckets s) []) -> bucket n k = i)
  /\ (forall i, NoDup (map snd (nth i (hs_buckets s) []))).

Lemma nth_set_bucket : forall bs i b j,
  nth j (set_bucket bs i b) [] = if (j =? i)%nat && (i <? length bs)%nat then b else nth j bs [].
Proof.
  induction bs as [|x bs IH]; intros i b j; cbn [set_bucket].
  - destruct (Nat.ltb_spec i (length (@nil (list node)))) as [L|]; [cbn in L; lia|]. rewrite andb_false_r. reflexivity.
  - destruct i as [|i].
    + destruct j as [|j]; [reflexivity|]. reflexivity.
    + destruct j as [|j]; [reflexivity|]. cbn [nth]. rewrite IH. reflexivity.
Qed.

Lemma length_set_bucket : forall bs i b, length (set_bucket bs i b) = length bs.
Proof. induction bs as [|x bs IH]; intros [|i] b; cbn; try reflexivity. rewrite IH. reflexivity. Qed.

Lemma bucket_lt : forall n k, (0 < n)%nat -> (bucket n k < n)%nat.
Proof. intros n k H. unfold bucket. assert (B := Z.mod_pos_bound k (Z.of_nat n) ltac:(lia)). lia. Qed.

Lemma in_nth : forall (bs : list (list node)) x, In x (concat bs) <-> exists i, In x (nth i bs []).
Proof.
  intros bs x. rewrite in_concat. split.
  - intros (b & Hb & Hx). apply In_nth with (d := []) in Hb. destruct Hb as (i & _ & <-). exists i. exact Hx.
  - intros (i & Hx). exists (nth i bs []). split; [|exact Hx]. apply nth_In.
    destruct (Nat.lt_ge_cases i (length bs)) as [L|G]; [exact L|]. rewrite nth_overflow in Hx by exact G. destruct Hx.
Qed.

Lemma in_keys : forall n s k, Inv n s -> (In k (keys s) <-> exists a, In (a, k) (nth (bucket n k) (hs_buckets s) [])).
Proof.
  intros n s k (_ & H & _). unfold keys. rewrite in_map_iff. split.
  - intros ([a k'] & E & I). cbn in E. subst k'. apply in_nth in I. destruct I as (i & I).
    exists a. rewrite (H i a k I). exact I.
  - intros (a & I). exists (a, k). split; [reflexivity|]. apply in_nth. exists (bucket n k). exact I.
Qed.

Lemma chain_has_in : forall b k, chain_has b k = true <-> exists a, In (a, k) b.
Proof.
  induction b as [|[a d] b IH]; intros k; cbn [chain_has].
  - split; [discriminate|intros (a & [])].
  - destruct (Z.eqb_spec d k) as [->|NE].
    + split; [intros _; exists a; left; reflexivity|reflexivity].
    + rewrite IH. split; intros (a' & I); exists a'; [right; exact I|].
      destruct I as [[= -> ->]|I]; [contradiction|exact I].
Qed.

Lemma chain_remove_some : forall b k b' a, NoDup (map snd b) -> chain_remove b k = Some (b', a) ->
  In (a, k) b /\ (forall x, In x b' <-> In x b /\ snd x <> k) /\ NoDup (map snd b') /\ Permutation b ((a, k) :: b').
Proof.
  induction b as [|[a0 d] b IH]; intros k b' a ND H; cbn [chain_remove] in H; [discriminate|].
  cbn [map snd] in ND. apply NoDup_cons_iff in ND. destruct ND as [Nd ND].
  destruct (Z.eqb_spec d k) as [->|NE].
  - injection H as <- <-. split; [left; reflexivity|]. split; [|split; [exact ND|reflexivity]].
    intros [a1 k1]. cbn. split.
    + intros I. split; [right; exact I|]. intros ->. apply Nd. change k with (snd (a1, k)). apply in_map. exact I.
    + intros [[[= <- <-]|I] N]; [contradiction|exact I].
  - destruct (chain_remove b k) as [[b1 a1]|] eqn:E; [|discriminate]. injection H as <- <-.
    destruct (IH k b1 a1 ND E) as (H1 & H2 & H3 & H4). split; [right; exact H1|]. split; [|split].
    + intros x. cbn [In]. rewrite H2. split.
      * intros [<-|[I N]]; [split; [left; reflexivity|exact NE]|split; [right; exact I|exact N]].
      * intros [[<-|I] N]; [left; reflexivity|right; split; assumption].
    + cbn [map snd]. apply NoDup_cons_iff. split; [|exact H3]. intros I. apply Nd.
      apply in_map_iff in I. destruct I as (x & Ex & Ix). apply H2 in Ix. apply in_map_iff. exists x. tauto.
    + rewrite H4. apply perm_swap.
Qed.

Lemma chain_remove_none : forall b k, chain_remove b k = None -> forall a, ~ In (a, k) b.
Proof.
  induction b as [|[a0 d] b IH]; intros k H a; cbn [chain_remove] in H; [intros []|].
  destruct (Z.eqb_spec d k) as [->|NE]; [discriminate|].
  destruct (chain_remove b k) as [[b1 a1]|] eqn:E; [discriminate|].
  intros [[= -> ->]|I]; [contradiction|]. exact (IH k E a I).
Qed.

Lemma pop_some : forall bs bs' k, pop_buckets bs = Some (bs', k) ->
  exists i a b, nth i bs [] = (a, k) :: b /\ (i < length bs)%nat /\ bs' = set_bucket bs i b.
Proof.
  induction bs as [|[|[a d] b] bs IH]; intros bs' k H; cbn [pop_buckets] in H; try discriminate.
  - destruct (pop_buckets bs) as [[t k']|] eqn:E; [|discriminate]. injection H as <- <-.
    destruct (IH t k' eq_refl) as (i & a & b & H1 & H2 & H3). exists (S i), a, b. cbn. subst t. repeat split; [exact H1|lia].
  - injection H as <- <-. exists O, a, b. cbn. repeat split; lia.
Qed.

Lemma pop_none : forall bs, pop_buckets bs = None -> concat bs = [].
Proof.
  induction bs as [|[|[a d] b] bs IH]; intros H; cbn [pop_buckets] in H; try discriminate; [reflexivity|].
  destruct (pop_buckets bs) as [[t k']|] eqn:E; [discriminate|]. exact (IH eq_refl).
Qed.

Lemma concat_set_bucket : forall bs i b, (i < length bs)%nat -> forall x rest,
  Permutation (nth i bs []) (x :: rest) -> Permutation rest b ->
  Permutation (concat bs) (x :: concat (set_bucket bs i b)).
Proof.
  induction bs as [|b0 bs IH]; intros i b L x rest P1 P2; [cbn in L; lia|].
  destruct i as [|i]; cbn [set_bucket concat nth] in *.
  - rewrite P1, P2. reflexivity.
  - cbn in L. rewrite (IH i b ltac:(lia) x rest P1 P2). rewrite <- Permutation_middle. reflexivity.
Qed.

Lemma hstep_ok : forall n s o, (0 < n)%nat -> Inv n s ->
  let '(s', r) := hstep n s o in
  Inv n s' /\ hspec (fun k => In k (keys s)) o (fun k => In k (keys s')) r.
Proof.
  intros n s o Hn I. assert (I' := I). destruct I' as (L & HB & ND).
  destruct o as [k mem|k|]; cbn [hstep].
  - unfold Insert. destruct (chain_has (nth (bucket n k) (hs_buckets s) []) k) eqn:E.
    + split; [exact I|]. apply H_present. apply (in_keys n s k I). apply chain_has_in. exact E.
    + assert (NI : ~ In k (keys s)).
      { intros H. apply (in_keys n s k I) in H. apply chain_has_in in H. congruence. }
      destruct mem; cbn [negb]; [|split; [exact I|apply H_nomem; exact NI]].
      assert (Bk := bucket_lt n k Hn).
      assert (I2 : Inv n (mkhs (set_bucket (hs_buckets s) (bucket n k) ((hs_next s, k) :: nth (bucket n k) (hs_buckets s) []))
                 (hs_next s :: hs_live s) (S (hs_next s)))).
      { unfold Inv. cbn [hs_buckets]. rewrite length_set_bucket. split; [exact L|]. split.
        - intros i a k' H. rewrite nth_set_bucket, L in H.
          destruct (Nat.eqb_spec i (bucket n k)) as [->|]; destruct (Nat.ltb_spec (bucket n k) n) as [Lb|Lb]; cbn [andb] in H; try lia.
          + destruct H as [[= _ <-]|H]; [reflexivity|]. eapply HB. exact H.
          + eapply HB. exact H.
        - intros i. rewrite nth_set_bucket, L.
          destruct (Nat.eqb_spec i (bucket n k)) as [->|]; destruct (Nat.ltb_spec (bucket n k) n) as [Lb|Lb]; cbn [andb]; try lia.
          + cbn [map snd]. apply NoDup_cons_iff. split; [|apply ND]. intros H. apply NI.
            apply in_map_iff in H. destruct H as ([a k'] & <- & H). apply (in_keys n s _ I). exists a. exact H.
          + apply ND. }
      split; [exact I2|]. apply H_insert; [exact NI|].
      intros k'. rewrite (in_keys n _ k' I2), (in_keys n s k' I). cbn [hs_buckets]. rewrite nth_set_bucket, L.
      destruct (Nat.eqb_spec (bucket n k') (bucket n k)) as [E'|E']; destruct (Nat.ltb_spec (bucket n k) n) as [Lb|Lb]; cbn [andb]; try lia.
      * split.
        { intros (a & [[= _ ->]|H]); [left; reflexivity|]. right. exists a. rewrite E'. exact H. }
        { intros [->|(a & H)]; [exists (hs_next s); left; reflexivity|]. exists a. right. rewrite E' in H. exact H. }
      * split; [intros H; right; exact H|]. intros [->|H]; [contradiction|exact H].
  - unfold Remove. destruct (chain_remove (nth (bucket n k) (hs_buckets s) []) k) as [[b a]|] eqn:E.
    + assert (Bk := bucket_lt n k Hn).
      destruct (chain_remove_some _ _ _ _ (ND _) E) as (H1 & H2 & H3 & _).
      assert (I2 : Inv n (mkhs (set_bucket (hs_buckets s) (bucket n k) b) (free (hs_live s) a) (hs_next s))).
      { unfold Inv. cbn [hs_buckets]. rewrite length_set_bucket. split; [exact L|]. split.
        - intros i a' k' H. rewrite nth_set_bucket, L in H.
          destruct (Nat.eqb_spec i (bucket n k)) as [->|]; destruct (Nat.ltb_spec (bucket n k) n) as [Lb|Lb]; cbn [andb] in H; try lia.
          + apply H2 in H. eapply HB. apply H.
          + eapply HB. exact H.
        - intros i. rewrite nth_set_bucket, L.
          destruct (Nat.eqb_spec i (bucket n k)) as [->|]; destruct (Nat.ltb_spec (bucket n k) n) as [Lb|Lb]; cbn [andb]; try lia; [exact H3|apply ND]. }
      split; [exact I2|]. apply H_remove; [apply (in_keys n s k I); exists a; exact H1|].
      intros k'. rewrite (in_keys n _ k' I2), (in_keys n s k' I). cbn [hs_buckets]. rewrite nth_set_bucket, L.
      destruct (Nat.eqb_spec (bucket n k') (bucket n k)) as [E'|E']; destruct (Nat.ltb_spec (bucket n k) n) as [Lb|Lb]; cbn [andb]; try lia.
      * split.
        { intros (a' & H). apply H2 in H. cbn [snd] in H. split; [apply H|]. exists a'. rewrite E'. apply H. }
        { intros (N & a' & H). exists a'. apply H2. rewrite <- E'. split; [exact H|exact N]. }
      * split; [intros H; split; [intros ->; contradiction|exact H]|]. intros [_ H]. exact H.
    + split; [exact I|]. apply H_absent. intros H. apply (in_keys n s k I) in H. destruct H as (a & H).
      exact (chain_remove_none _ _ E a H).
  - unfold Pop. destruct (pop_buckets (hs_buckets s)) as [[bs k]|] eqn:E.
    + destruct (pop_some _ _ _ E) as (i & a & b & H1 & H2 & ->).
      assert (Bi : bucket n k = i) by (apply (HB i a k); rewrite H1; left; reflexivity).
      assert (NDi := ND i). rewrite H1 in NDi. cbn [map snd] in NDi. apply NoDup_cons_iff in NDi. destruct NDi as [Nk NDb].
      assert (I2 : Inv n (mkhs (set_bucket (hs_buckets s) i b) (hs_live s) (hs_next s))).
      { unfold Inv. cbn [hs_buckets]. rewrite length_set_bucket. split; [exact L|]. split.
        - intros j a' k' H. rewrite nth_set_bucket in H.
          destruct (Nat.eqb_spec j i) as [->|]; destruct (Nat.ltb_spec i (length (hs_buckets s))) as [Lb|Lb]; cbn [andb] in H; try lia.
          + apply (HB i a'). rewrite H1. right. exact H.
          + eapply HB. exact H.
        - intros j. rewrite nth_set_bucket.
          destruct (Nat.eqb_spec j i) as [->|]; destruct (Nat.ltb_spec i (length (hs_buckets s))) as [Lb|Lb]; cbn [andb]; try lia; [exact NDb|apply ND]. }
      split; [exact I2|]. apply H_pop; [apply (in_keys n s k I); exists a; rewrite Bi, H1; left; reflexivity|].
      intros k'. rewrite (in_keys n _ k' I2), (in_keys n s k' I). cbn [hs_buckets]. rewrite nth_set_bucket.
      destruct (Nat.eqb_spec (bucket n k') i) as [E'|E']; destruct (Nat.ltb_spec i (length (hs_buckets s))) as [Lb|Lb]; cbn [andb]; try lia.
      * rewrite E', H1. split.
        { intros (a' & H'). split; [|exists a'; right; exact H'].
          intros ->. apply Nk. change k with (snd (a', k)). apply in_map. exact H'. }
        { intros (N & a' & [[= _ <-]|H']); [contradiction|]. exists a'. exact H'. }
      * split; [intros H'; split; [intros ->; contradiction|exact H']|]. intros [_ H']. exact H'.
    + split; [exact I|]. apply H_popempty. intros k. unfold keys. rewrite (pop_none _ E). intros [].
Qed.

Lemma Inv_init : forall n, Inv n (hs_init n) /\ keys (hs_init n) = [].
Proof.
  intros n. assert (N : forall i, nth i (repeat (@nil node) n) [] = []).
  { induction n as [|n IH]; intros [|i]; cbn; try reflexivity. apply IH. }
  split.
  - unfold Inv, hs_init. cbn [hs_buckets]. split; [apply repeat_length|]. split.
    + intros i a k H. rewrite N in H. destruct H.
    + intros i. rewrite N. constructor.
  - unfold keys, hs_init. cbn [hs_buckets]. clear N. induction n as [|n IH]; cbn; [reflexivity|exact IH].
Qed.

(** ** C12 *)
(** Every history of Insert (with the allocation succeeding or not), Remove and Pop:
    all results are results of the set specification started empty. *)
Theorem C12_set : forall n ops, (0 < n)%nat ->
  hspecs (fun _ => False) ops (fun k => In k (keys (fst (hruns n (hs_init n) ops)))) (snd (hruns n (hs_init n) ops)).
Proof.
  intros n ops Hn.
  assert (G : forall ops s, Inv n s ->
     hspecs (fun k => In k (keys s)) ops (fun k => In k (keys (fst (hruns n s ops)))) (snd (hruns n s ops))).
  { clear ops. induction ops as [|o ops IH]; intros s I; cbn [hruns]; [apply HS_nil|].
    assert (H := hstep_ok n s o Hn I). destruct (hstep n s o) as [s1 r]. destruct H as [I1 H1].
    specialize (IH s1 I1). destruct (hruns n s1 ops) as [s2 rs]. cbn [fst snd] in *.
    eapply HS_cons; eassumption. }
  destruct (Inv_init n) as [I E]. specialize (G ops (hs_init n) I). rewrite E in G.
  exact G.
Qed.

(** The keys are stored without duplicates. *)
Theorem C12_no_duplicates : forall n ops, (0 < n)%nat -> NoDup (keys (fst (hruns n (hs_init n) ops))).
Proof.
  intros n ops Hn.
  assert (G : forall ops s, Inv n s -> Inv n (fst (hruns n s ops))).
  { clear ops. induction ops as [|o ops IH]; intros s I; cbn [hruns]; [exact I|].
    assert (H := hstep_ok n s o Hn I). destruct (hstep n s o) as [s1 r]. destruct H as [I1 _].
    specialize (IH s1 I1). destruct (hruns n s1 ops) as [s2 rs]. exact IH. }
  destruct (G ops _ (proj1 (Inv_init n))) as (_ & HB & ND). unfold keys.
  set (bs := hs_buckets _) in *. clearbody bs. clear G ops.
  (* buckets hold different keys: their index is a function of the key *)
  assert (G : forall off (bs : list (list node)), (forall i a k, In (a, k) (nth i bs []) -> bucket n k = (off + i)%nat) ->
     (forall i, NoDup (map snd (nth i bs []))) -> NoDup (map snd (concat bs))).
  { clear. intros off bs. revert off. induction bs as [|b bs IH]; intros off HB ND; [constructor|].
    cbn [concat]. rewrite map_app.
    assert (IHb : NoDup (map snd (concat bs))).
    { apply (IH (S off)); [|intros i; exact (ND (S i))]. intros i a k H. rewrite (HB (S i) a k H). lia. }
    assert (N0 := ND O). cbn in N0.
    assert (Dis : forall k, In k (map snd b) -> ~ In k (map snd (concat bs))).
    { intros k I1 I2. apply in_map_iff in I1. destruct I1 as ([a1 k1] & <- & I1). cbn [snd] in *.
      apply in_map_iff in I2. destruct I2 as ([a2 k2] & E & I2). cbn [snd] in E. subst k2.
      apply in_nth in I2. destruct I2 as (i & I2).
      assert (E1 := HB O a1 k1 I1). assert (E2 := HB (S i) a2 k1 I2). lia. }
    clear - IHb N0 Dis. unfold node in *. induction (map snd b) as [|x l IHl]; [exact IHb|].
    cbn. apply NoDup_cons_iff in N0. destruct N0 as [Nx N0]. constructor.
    - rewrite in_app_iff. intros [I|I]; [exact (Nx I)|]. apply (Dis x); [left; reflexivity|exact I].
    - apply IHl; [exact N0|]. intros k I. apply Dis. right. exact I. }
  apply (G O); assumption.
Qed.

(** [Pop] on non-null keys: null exactly when the set is empty. *)
Theorem C12_Pop_null : forall n ops, (0 < n)%nat ->
  let s := fst (hruns n (hs_init n) ops) in
  ~ In 0 (keys s) -> (snd (Pop s) = 0 <-> keys s = []).
Proof.
  intros n ops Hn s N0.
  unfold Pop. destruct (pop_buckets (hs_buckets s)) as [[bs k]|] eqn:E; cbn [snd].
  - destruct (pop_some _ _ _ E) as (i & a & b & H1 & _ & _).
    assert (I : In k (keys s)).
    { unfold keys. change k with (snd (a, k)). apply in_map. apply in_nth. exists i. rewrite H1. left. reflexivity. }
    split; [intros ->; contradiction|]. intros E'. rewrite E' in I. destruct I.
  - split; [|reflexivity]. intros _. unfold keys. rewrite (pop_none _ E). reflexivity.
Qed.

(** *** Memory *)
(** The number of [Pop]s that took an entry. *)
Fixpoint popped (n : nat) (s : hset) (ops : list hop) : nat :=
  match ops with
  | [] => 0%nat
  | o :: ops' =>
      ((match o with HPop => match keys s with [] => 0 | _ => 1 end | _ => 0 end)
       + popped n (fst (hstep n s o)) ops')%nat
  end.

(** [out]: nodes taken out by [Pop], never freed. *)
Definition MInv (s : hset) (out : nat) : Prop :=
  exists lost, Permutation (hs_live s) (map fst (concat (hs_buckets s)) ++ lost)
    /\ length lost = out /\ NoDup (hs_live s) /\ (forall a, In a (hs_live s) -> (a < hs_next s)%nat).

Lemma remove_perm : forall (l : list nat) a r, NoDup l -> Permutation l (a :: r) ->
  Permutation (remove Nat.eq_dec a l) r /\ NoDup (remove Nat.eq_dec a l)
  /\ (forall x, In x (remove Nat.eq_dec a l) -> In x l).
Proof.
  intros l a r ND P.
  assert (Hin : In a l) by (apply Permutation_sym in P; apply (Permutation_in a P); left; reflexivity).
  apply in_split in Hin. destruct Hin as (l1 & l2 & ->).
  assert (ND' := ND). apply NoDup_remove in ND'. destruct ND' as [ND' NI]. rewrite in_app_iff in NI.
  assert (E : remove Nat.eq_dec a (l1 ++ a :: l2) = l1 ++ l2).
  { rewrite remove_app. cbn [remove]. destruct (Nat.eq_dec a a) as [_|C]; [|contradiction].
    rewrite !notin_remove by tauto. reflexivity. }
  rewrite E. split; [|split; [exact ND'|]].
  - apply Permutation_cons_inv with (a := a). rewrite <- P. apply Permutation_middle.
  - intros x. rewrite !in_app_iff. cbn. tauto.
Qed.

Lemma mem_step : forall n s o out, (0 < n)%nat -> Inv n s -> MInv s out ->
  MInv (fst (hstep n s o)) (out + match o with HPop => match keys s with [] => 0 | _ => 1 end | _ => 0 end)%nat.
Proof.
  intros n s o out Hn I M. assert (M' := M). destruct M' as (lost & P & Len & ND & Lt).
  assert (I' := I). destruct I' as (L & HB & NDk).
  destruct o as [k mem|k|]; cbn [hstep]; rewrite ?Nat.add_0_r.
  - unfold Insert. destruct (chain_has _ k); [exact M|]. destruct mem; cbn [negb fst]; [|exact M].
    exists lost. cbn [hs_live hs_buckets hs_next]. split; [|split; [exact Len|split]].
    + rewrite P.
      assert (C := concat_set_bucket (set_bucket (hs_buckets s) (bucket n k) ((hs_next s, k) :: nth (bucket n k) (hs_buckets s) []))
                     (bucket n k) (nth (bucket n k) (hs_buckets s) [])).
      rewrite length_set_bucket, L in C. specialize (C (bucket_lt n k Hn) (hs_next s, k) (nth (bucket n k) (hs_buckets s) [])).
      rewrite nth_set_bucket, Nat.eqb_refl, L in C. destruct (Nat.ltb_spec (bucket n k) n) as [Lb|Lb]; [|assert (B := bucket_lt n k Hn); lia].
      cbn [andb] in C. specialize (C (Permutation_refl _) (Permutation_refl _)).
      assert (E : set_bucket (set_bucket (hs_buckets s) (bucket n k) ((hs_next s, k) :: nth (bucket n k) (hs_buckets s) [])) (bucket n k) (nth (bucket n k) (hs_buckets s) []) = hs_buckets s).
      { clear. generalize (bucket n k). induction (hs_buckets s) as [|b bs IH]; intros [|i]; cbn; try reflexivity.
        f_equal. apply IH. }
      rewrite E in C. apply (Permutation_map fst) in C. rewrite C. reflexivity.
    + constructor; [|exact ND]. intros H'. apply Lt in H'. lia.
    + intros a [<-|H']; [lia|]. apply Lt in H'. lia.
  - unfold Remove. destruct (chain_remove (nth (bucket n k) (hs_buckets s) []) k) as [[b a]|] eqn:E; [|exact M]. cbn [fst].
    destruct (chain_remove_some _ _ _ _ (NDk _) E) as (_ & _ & _ & Pb).
    assert (Bk := bucket_lt n k Hn).
    assert (C := concat_set_bucket (hs_buckets s) (bucket n k) b ltac:(lia) (a, k) b Pb (Permutation_refl _)).
    apply (Permutation_map fst) in C. cbn [map fst] in C. rewrite C in P. cbn [app] in P.
    destruct (remove_perm _ _ _ ND P) as (R1 & R2 & R3).
    exists lost. cbn [hs_live hs_buckets hs_next]. unfold free. split; [exact R1|]. split; [exact Len|]. split; [exact R2|].
    intros x H'. apply Lt, R3, H'.
  - unfold Pop. destruct (pop_buckets (hs_buckets s)) as [[bs k]|] eqn:E; cbn [fst].
    + destruct (pop_some _ _ _ E) as (i & a & b & H1 & H2 & ->).
      assert (C := concat_set_bucket (hs_buckets s) i b H2 (a, k) b). rewrite H1 in C.
      specialize (C (Permutation_refl _) (Permutation_refl _)). 
      destruct (keys s) as [|k0 ks] eqn:Ek.
      { unfold keys in Ek. apply map_eq_nil in Ek. rewrite Ek in C. apply Permutation_nil in C. discriminate. }
      apply (Permutation_map fst) in C. cbn [map fst] in C.
      exists (a :: lost). cbn [hs_live hs_buckets hs_next]. split; [|split; [cbn; lia|split; assumption]].
      rewrite P, C. cbn [app]. apply Permutation_middle.
    + unfold keys. rewrite (pop_none _ E). cbn. rewrite Nat.add_0_r. exact M.
Qed.

(** Exactly the nodes taken out by [Pop] are still allocated after the destructor: one
    node is leaked by each [Pop] that returns an entry, and nothing else is. *)
Theorem C12_leak : forall n ops, (0 < n)%nat ->
  length (Destroy (fst (hruns n (hs_init n) ops))) = popped n (hs_init n) ops.
Proof.
  intros n ops Hn.
  assert (G : forall ops s out, Inv n s -> MInv s out -> MInv (fst (hruns n s ops)) (out + popped n s ops)%nat).
  { clear ops. induction ops as [|o ops IH]; intros s out I M; cbn [hruns popped]; [rewrite Nat.add_0_r; exact M|].
    assert (H := hstep_ok n s o Hn I). assert (M1 := mem_step n s o out Hn I M).
    destruct (hstep n s o) as [s1 r]. cbn [fst] in *. destruct H as [I1 _].
    specialize (IH s1 _ I1 M1). destruct (hruns n s1 ops) as [s2 rs]. cbn [fst] in *. rewrite Nat.add_assoc. exact IH. }
  destruct (Inv_init n) as [I E].
  assert (M0 : MInv (hs_init n) 0).
  { exists []. unfold keys in E. apply map_eq_nil in E. rewrite E. cbn. repeat split; [constructor|constructor|intros a []]. }
  destruct (G ops _ _ I M0) as (lost & P & Len & ND & _). cbn [Nat.add] in Len. rewrite <- Len. clear - P ND.
  unfold Destroy. set (s := fst (hruns n (hs_init n) ops)) in *. clearbody s.
  revert P ND. generalize (hs_live s). induction (concat (hs_buckets s)) as [|[a k] c IH]; intros live P ND.
  - cbn in *. apply Permutation_length. exact P.
  - cbn [fold_left map app fst] in *. destruct (remove_perm _ _ _ ND P) as (R1 & R2 & _). apply IH; assumption.
Qed.

Theorem C12_memory_refuted : exists ops, Destroy (fst (hruns 128 (hs_init 128) ops)) <> [].
Proof. exists [HInsert 8 true; HPop]. vm_compute. discriminate. Qed.

Example ex_hs : snd (hruns 128 (hs_init 128) [HInsert 8 true; HInsert 136 true; HInsert 8 true; HInsert 7 false; HRemove 136; HRemove 7; HInsert 9 true; HPop; HPop; HPop])
  = [0; 0; 1; -2147024882; 0; 1; 0; 8; 9; 0].
Proof. vm_compute. reflexivity. Qed.

Print Assumptions C12_set.
Print Assumptions C12_no_duplicates.
Print Assumptions C12_Pop_null.
Print Assumptions C12_leak.
Print Assumptions C12_memory_refuted.
