(** Lemmas about the functions of NStringModel.v that work on one pointer. *)
From Coq Require Import List Bool Arith ZArith Lia.
From Verif Require Import Slots NStringModel.
Import ListNotations.

Definition own (p : ptr) (a : nat) : nat := match p with Heap x => if x =? a then 1 else 0 | Stat _ => 0 end.
Definition plus (c : nat -> nat) (p : ptr) : nat -> nat := fun a => c a + own p a.
(** A block's capacity is the number of its bytes in characters of its encoding, less one. *)
Definition bok (b : blk) : Prop :=
  1 <= rc b /\ (Z.of_nat (length (txt b)) <= cap b)%Z /\ ((cap b + 1) * Z.of_nat (width (tag b)) = Z.of_nat (byt b))%Z /\ (exists k, byt b = 16 * k).
(** Block [a] exists iff it has holders, [t a] of them. *)
Definition W (h : heap) (t : nat -> nat) : Prop :=
  (forall a b, snd h a = Some b -> a < fst h /\ rc b = t a /\ bok b) /\ (forall a, 1 <= t a -> exists b, snd h a = Some b).
Definition val (h : heap) (p : ptr) : option (enc * list nat) := match look h p with Some (e, t, _) => Some (e, t) | None => None end.
(** The blocks of the other holders keep their values. *)
Definition same (h h' : heap) (c : nat -> nat) : Prop := forall a, 1 <= c a -> val h' (Heap a) = val h (Heap a).

Lemma W_ext : forall h t t', (forall a, t a = t' a) -> W h t -> W h t'.
Proof.
  intros h t t' E (A & B). split.
  - intros a b H. rewrite <- E. exact (A a b H).
  - intros a H. apply B. rewrite E. exact H.
Qed.
Lemma same_refl : forall h c, same h h c.
Proof. intros h c a _. reflexivity. Qed.
Lemma same_trans : forall a b d c, same a b c -> same b d c -> same a d c.
Proof. intros a b d c X Y k K. rewrite (Y k K). exact (X k K). Qed.
Lemma same_plus : forall a b c p, same a b (plus c p) -> same a b c.
Proof. intros a b c p X k K. apply X. unfold plus. lia. Qed.
Lemma same_own : forall a b c p, same a b (plus c p) -> val b p = val a p.
Proof. intros a b c [e|x] X; [reflexivity|]. apply X. unfold plus. cbn. rewrite Nat.eqb_refl. lia. Qed.
Lemma own_self : forall a, own (Heap a) a = 1.
Proof. intros. cbn. rewrite Nat.eqb_refl. reflexivity. Qed.
Lemma own_other : forall a k, a <> k -> own (Heap a) k = 0.
Proof. intros a k N. cbn. destruct (Nat.eqb_spec a k); [contradiction|reflexivity]. Qed.
Lemma upd_eq : forall f k v, upd f k v k = v.
Proof. intros. unfold upd. rewrite Nat.eqb_refl. reflexivity. Qed.
Lemma upd_neq : forall f k v a, a <> k -> upd f k v a = f a.
Proof. intros f k v a N. unfold upd. destruct (Nat.eqb_spec a k); [contradiction|reflexivity]. Qed.
Lemma W_look : forall h c p, W h (plus c p) -> exists e t sh, look h p = Some (e, t, sh) /\ val h p = Some (e, t).
Proof.
  intros h c [e|a] (A & B); unfold val; cbn [look]; [exists e, [], true; split; reflexivity|].
  destruct (B a) as (b & E); [unfold plus; rewrite own_self; lia|]. rewrite E. eexists _, _, _. split; reflexivity.
Qed.
Lemma W_heap : forall h c a, W h (plus c (Heap a)) -> exists b, snd h a = Some b /\ rc b = S (c a) /\ bok b.
Proof.
  intros h c a (A & B). destruct (B a) as (b & E); [unfold plus; rewrite own_self; lia|]. destruct (A a b E) as (_ & R & K). exists b. unfold plus in R. rewrite own_self in R. split; [assumption|split; [lia|assumption]].
Qed.
Lemma W_fresh : forall h t, W h t -> t (fst h) = 0.
Proof. intros h t (A & B). destruct (t (fst h)) eqn:E; [reflexivity|]. destruct (B (fst h)) as (b & X); [lia|]. destruct (A _ _ X). lia. Qed.

(** Changing a block of one's own. *)
Lemma W_put : forall h c a b, W h (plus c (Heap a)) -> rc b = S (c a) -> bok b -> W (put h a (Some b)) (plus c (Heap a)).
Proof.
  intros h c a b (A & B) R K. split.
  - intros x y H. cbn in *. destruct (Nat.eq_dec x a) as [->|N].
    + rewrite upd_eq in H. injection H as <-. destruct (B a) as (b0 & E0); [unfold plus; rewrite own_self; lia|]. split; [exact (proj1 (A _ _ E0))|]. unfold plus. rewrite own_self. split; [lia|assumption].
    + rewrite upd_neq in H by assumption. exact (A _ _ H).
  - intros x H. cbn. destruct (Nat.eq_dec x a) as [->|N]; [rewrite upd_eq; eexists; reflexivity|rewrite upd_neq by assumption; exact (B x H)].
Qed.
Lemma same_put : forall h c a b, c a = 0 -> same h (put h a b) c.
Proof. intros h c a b Z k K. unfold val. cbn. rewrite upd_neq; [reflexivity|intros ->; lia]. Qed.
Lemma W_del : forall h c a, W h (plus c (Heap a)) -> c a = 0 -> W (put h a None) c.
Proof.
  intros h c a (A & B) Z. split.
  - intros x y H. cbn in *. destruct (Nat.eq_dec x a) as [->|N]; [rewrite upd_eq in H; discriminate|]. rewrite upd_neq in H by assumption. destruct (A _ _ H) as (P & Q & R). unfold plus in Q. rewrite own_other in Q by congruence. split; [assumption|split; [lia|assumption]].
  - intros x H. cbn. destruct (Nat.eq_dec x a) as [->|N]; [lia|rewrite upd_neq by assumption]. apply B. unfold plus. lia.
Qed.
Lemma new_ok : forall h t b h' q, W h t -> new h b = (h', q) -> rc b = 1 -> bok b ->
  W h' (plus t q) /\ same h h' t /\ (exists a, q = Heap a /\ t a = 0 /\ snd h' a = Some b).
Proof.
  intros h t b h' q I E R K. injection E as <- <-. pose proof (W_fresh _ _ I) as Z. destruct I as (A & B). split; [|split].
  - split.
    + intros x y H. cbn in *. destruct (Nat.eq_dec x (fst h)) as [->|N].
      * rewrite upd_eq in H. injection H as <-. unfold plus. rewrite own_self. split; [lia|split; [lia|assumption]].
      * rewrite upd_neq in H by assumption. destruct (A _ _ H) as (P & Q & S). unfold plus. rewrite own_other by congruence. split; [lia|split; [lia|assumption]].
    + intros x H. cbn. destruct (Nat.eq_dec x (fst h)) as [->|N]; [rewrite upd_eq; eexists; reflexivity|]. rewrite upd_neq by assumption. apply B. unfold plus in H. rewrite own_other in H by congruence. lia.
  - intros k Hk. unfold val. cbn. rewrite upd_neq; [reflexivity|intros ->; lia].
  - exists (fst h). split; [reflexivity|split; [exact Z|cbn; apply upd_eq]].
Qed.
Lemma addref_ok : forall h c p, W h (plus c p) -> exists h', addref h p = Some h' /\ W h' (plus (plus c p) p) /\ same h h' (plus c p).
Proof.
  intros h c [e|a] I; cbn [addref].
  - exists h. split; [reflexivity|]. split; [|apply same_refl]. apply W_ext with (2 := I). intros x. unfold plus. cbn. lia.
  - destruct (W_heap _ _ _ I) as (b & E & R & K). rewrite E. eexists. split; [reflexivity|]. pose proof I as (A & B). split.
    + split.
      * intros x y H. cbn in *. destruct (Nat.eq_dec x a) as [->|N].
        { rewrite upd_eq in H. injection H as <-. unfold plus. rewrite own_self. cbn. split; [exact (proj1 (A _ _ E))|]. split; [lia|]. destruct K as (K1 & K2 & K3 & K4). repeat split; cbn; auto; lia. }
        rewrite upd_neq in H by assumption. destruct (A _ _ H) as (P & Q & S). unfold plus in *. rewrite own_other in * by congruence. split; [lia|split; [lia|assumption]].
      * intros x H. cbn. destruct (Nat.eq_dec x a) as [->|N]; [rewrite upd_eq; eexists; reflexivity|]. rewrite upd_neq by assumption. apply B. unfold plus in *. rewrite own_other in * by congruence. lia.
    + intros k Hk. unfold val. cbn. destruct (Nat.eq_dec k a) as [->|N]; [rewrite upd_eq, E; reflexivity|rewrite upd_neq by assumption; reflexivity].
Qed.
Lemma release_ok : forall h c p, W h (plus c p) -> exists h', release h p = Some h' /\ W h' c /\ same h h' c.
Proof.
  intros h c [e|a] I; cbn [release].
  - exists h. split; [reflexivity|]. split; [|apply same_refl]. apply W_ext with (2 := I). intros x. unfold plus. cbn. lia.
  - destruct (W_heap _ _ _ I) as (b & E & R & K). rewrite E. eexists. split; [reflexivity|].
    destruct (Nat.eqb_spec (rc b) 1) as [O|O]; [split; [apply W_del; [assumption|lia]|apply same_put; lia]|]. pose proof I as (A & B). split.
    + split.
      * intros x y H. cbn in *. destruct (Nat.eq_dec x a) as [->|N].
        { rewrite upd_eq in H. injection H as <-. cbn. split; [exact (proj1 (A _ _ E))|]. split; [lia|]. destruct K as (K1 & K2 & K3 & K4). repeat split; cbn; auto; lia. }
        rewrite upd_neq in H by assumption. destruct (A _ _ H) as (P & Q & S). unfold plus in *. rewrite own_other in * by congruence. split; [lia|split; [lia|assumption]].
      * intros x H. cbn. destruct (Nat.eq_dec x a) as [->|N]; [rewrite upd_eq; eexists; reflexivity|]. rewrite upd_neq by assumption. apply B. unfold plus in *. lia.
    + intros k Hk. unfold val. cbn. destruct (Nat.eq_dec k a) as [->|N]; [rewrite upd_eq, E; reflexivity|rewrite upd_neq by assumption; reflexivity].
Qed.

Lemma align16_ge : forall n, n <= align16 n.
Proof. intros n. unfold align16. pose proof (Nat.div_mod (n + 15) 16 ltac:(lia)). pose proof (Nat.mod_upper_bound (n + 15) 16 ltac:(lia)). lia. Qed.
Lemma align16_16 : forall n, exists k, align16 n = 16 * k.
Proof. intros n. exists ((n + 15) / 16). unfold align16. lia. Qed.
Lemma alloc_ok : forall c n l, length l <= n -> rc (alloc c n l) = 1 /\ bok (alloc c n l).
Proof.
  intros c n l L. split; [reflexivity|]. pose proof (align16_ge (n + 1)). unfold bok, alloc. cbn [rc txt cap byt tag]. repeat split; try lia.
  destruct (align16_16 (n + 1)) as (k & E). exists (k * width c). rewrite E. lia.
Qed.
Lemma edit_ok : forall h c p c0 n f e t sh, W h (plus c p) -> look h p = Some (e, t, sh) -> (p = Stat e \/ width e = width c0) -> 1 <= n -> length (f t) <= Nat.max n (length t) ->
  exists h' a, edit c0 h p n f = Some (h', Heap a) /\ W h' (plus c (Heap a)) /\ same h h' c /\ c a = 0 /\ look h' (Heap a) = Some (if sh then c0 else e, f t, false).
Proof.
  intros h c p c0 n f e t sh I L D N FL. destruct p as [x|a]; cbn [look] in L.
  - injection L as <- <- <-. cbn [edit]. destruct (new h (alloc c0 n (f []))) as [h1 q] eqn:E.
    cbn in FL. destruct (alloc_ok c0 n (f [])) as (R & K); [lia|]. assert (I0 : W h c) by (apply W_ext with (2 := I); intros y; unfold plus; cbn; lia).
    destruct (new_ok _ _ _ _ _ I0 E R K) as (A & B & a & -> & Z & F). exists h1, a. split; [reflexivity|split; [assumption|split; [assumption|split; [assumption|cbn; rewrite F; reflexivity]]]].
  - destruct (W_heap _ _ _ I) as (b & E & R & K). rewrite E in L. injection L as <- <- <-. cbn [edit]. rewrite E. destruct D as [D|D]; [discriminate|].
    destruct (Nat.ltb_spec 1 (rc b)) as [S|S].
    + destruct (new h (alloc c0 (Nat.max n (length (txt b))) (f (txt b)))) as [h1 q] eqn:EN.
      destruct (alloc_ok c0 (Nat.max n (length (txt b))) (f (txt b)) FL) as (R1 & K1). destruct (new_ok _ _ _ _ _ I EN R1 K1) as (A & B & a1 & -> & Z & F).
      assert (A' : W h1 (plus (plus c (Heap a1)) (Heap a))) by (apply W_ext with (2 := A); intros y; unfold plus; lia).
      destruct (release_ok _ _ _ A') as (h2 & E2 & W2 & S2). rewrite E2. exists h2, a1. split; [reflexivity|]. split; [assumption|]. split; [|split].
      * apply same_trans with h1; [exact (same_plus _ _ _ _ B)|exact (same_plus _ _ _ _ S2)].
      * unfold plus in Z. lia.
      * assert (N1 : a <> a1) by (intros ->; unfold plus in Z; rewrite own_self in Z; lia).
        pose proof (same_own _ _ _ _ S2) as V. assert (V1 : snd h2 a1 = snd h1 a1).
        { cbn [release] in E2. destruct (snd h1 a); [|discriminate]. injection E2 as <-. cbn. apply upd_neq. congruence. }
        cbn. rewrite V1, F. cbn. reflexivity.
    + destruct K as (K1 & K2 & K3 & k & K4). assert (C0 : c a = 0) by lia. cbn beta zeta.
      destruct ((0 <=? cap b)%Z && (cap b <? Z.of_nat (Nat.max n (length (txt b))))%Z) eqn:G.
      * set (k0 := align16 _). assert (KG : Nat.max n (length (txt b)) + 1 <= k0) by (subst k0; eapply Nat.le_trans; [|apply align16_ge]; lia).
        destruct (new h (mkblk 1 (k0 * width c0) (Z.of_nat k0 - 1) (f (txt b)) (tag b))) as [h1 q] eqn:EN.
        assert (KB : bok (mkblk 1 (k0 * width c0) (Z.of_nat k0 - 1) (f (txt b)) (tag b))).
        { unfold bok. cbn [rc txt cap byt tag]. rewrite D. repeat split; try lia. destruct (align16_16 (Nat.max (Z.to_nat (cap b) + Z.to_nat (cap b) / 2) (Nat.max n (length (txt b)) + 1))) as (j & J). exists (j * width c0). unfold k0. rewrite J. lia. }
        destruct (new_ok _ _ _ _ _ I EN eq_refl KB) as (A & B & a1 & -> & Z & F).
        assert (A' : W h1 (plus (plus c (Heap a1)) (Heap a))) by (apply W_ext with (2 := A); intros y; unfold plus; lia).
        assert (N1 : a <> a1) by (intros ->; unfold plus in Z; rewrite own_self in Z; lia).
        exists (put h1 a None), a1. split; [reflexivity|]. split; [|split; [|split]].
        { apply W_del; [assumption|]. unfold plus. rewrite own_other by congruence. lia. }
        { apply same_trans with h1; [exact (same_plus _ _ _ _ B)|apply same_put; assumption]. }
        { unfold plus in Z. lia. }
        { cbn. rewrite upd_neq by congruence. rewrite F. cbn. reflexivity. }
      * assert (LE : (Z.of_nat (Nat.max n (length (txt b))) <= cap b)%Z) by (apply andb_false_iff in G; destruct G as [G|G]; [apply Z.leb_gt in G; lia|apply Z.ltb_ge in G; exact G]).
        assert (FIT : (length (f (txt b)) + 1) * width c0 <= byt b).
        { rewrite D in K3. apply Nat2Z.inj_le. rewrite <- K3, Nat2Z.inj_mul. apply Z.mul_le_mono_nonneg_r; lia. }
        apply Nat.leb_le in FIT. rewrite FIT. eexists _, a. split; [reflexivity|]. split; [|split; [|split]].
        { apply W_put; [assumption|cbn; lia|]. unfold bok. cbn [rc txt cap byt tag]. repeat split; try lia; try assumption. exists k. assumption. }
        { apply same_put. assumption. }
        { assumption. }
        { cbn. rewrite upd_eq. cbn. reflexivity. }
Qed.
Lemma clear_ok : forall h c p c0 e t sh, W h (plus c p) -> look h p = Some (e, t, sh) -> (p = Stat e \/ width e = width c0) ->
  exists h' p', clear c0 h p = Some (h', p') /\ W h' (plus c p') /\ same h h' c /\ look h' p' = Some (if sh then c0 else e, [], sh) /\ (sh = true -> p' = Stat c0).
Proof.
  intros h c [x|a] c0 e t sh I L D; cbn [look] in L.
  - injection L as <- <- <-. exists h, (Stat c0). split; [reflexivity|]. split; [apply W_ext with (2 := I); intros y; unfold plus; cbn; lia|]. split; [apply same_refl|]. split; reflexivity.
  - destruct (W_heap _ _ _ I) as (b & E & R & K). rewrite E in L. injection L as <- <- <-. cbn [clear]. rewrite E. destruct D as [D|D]; [discriminate|].
    destruct (Nat.ltb_spec 1 (rc b)) as [S|S].
    + destruct (release_ok _ _ _ I) as (h1 & E1 & W1 & S1). rewrite E1. exists h1, (Stat c0). split; [reflexivity|]. split; [apply W_ext with (2 := W1); intros y; unfold plus; cbn; lia|]. split; [assumption|]. split; reflexivity.
    + destruct K as (K1 & K2 & K3 & k & K4). assert (F : width c0 <= byt b) by (rewrite D in K3; assert (1 * Z.of_nat (width c0) <= Z.of_nat (byt b))%Z by (rewrite <- K3; apply Z.mul_le_mono_nonneg_r; lia); lia).
      apply Nat.leb_le in F. rewrite F. eexists _, (Heap a). split; [reflexivity|]. split; [|split; [|split]].
      * apply W_put; [assumption|cbn; lia|]. unfold bok. cbn [rc txt cap byt tag length]. repeat split; try lia; try assumption. exists k. assumption.
      * apply same_put. lia.
      * cbn. rewrite upd_eq. cbn. reflexivity.
      * discriminate.
Qed.
Lemma set_text_ok : forall h c p c0 l e t sh, W h (plus c p) -> look h p = Some (e, t, sh) -> (p = Stat e \/ width e = width c0) ->
  exists h' p' sh', set_text c0 h p l = Some (h', p') /\ W h' (plus c p') /\ same h h' c /\ look h' p' = Some (if sh then c0 else e, l, sh') /\ (sh' = true -> p' = Stat c0 /\ l = []).
Proof.
  intros h c p c0 l e t sh I L D. destruct (clear_ok _ _ _ c0 _ _ _ I L D) as (h1 & p1 & E1 & W1 & S1 & L1 & X1). unfold set_text. rewrite E1.
  destruct l as [|x l]; [exists h1, p1, sh; split; [reflexivity|split; [assumption|split; [assumption|split; [assumption|auto]]]]|].
  destruct (edit_ok _ _ _ c0 (length (x :: l)) (fun _ => x :: l) _ _ _ W1 L1) as (h2 & a & E2 & W2 & S2 & _ & L2).
  - destruct sh; [left; rewrite (X1 eq_refl); reflexivity|]. destruct D as [->|D]; [cbn in L; discriminate|right; assumption].
  - cbn; lia.
  - cbn; lia.
  - rewrite E2. exists h2, (Heap a), false. split; [reflexivity|]. split; [assumption|]. split; [exact (same_trans _ _ _ _ S1 S2)|]. split; [|discriminate]. rewrite L2. destruct sh; reflexivity.
Qed.
Lemma append_ok : forall h c p c0 l x e t sh, W h (plus c p) -> look h p = Some (e, t, sh) -> (p = Stat e \/ width e = width c0) ->
  exists h' p' sh', append c0 h p l x = Some (h', p') /\ W h' (plus c p') /\ same h h' c
    /\ look h' p' = Some (if (length l + x =? 0) then e else if sh then c0 else e, t ++ l, sh') /\ ((length l + x =? 0) = true -> h' = h /\ p' = p).
Proof.
  intros h c p c0 l x e t sh I L D. unfold append. rewrite L. destruct (Nat.eqb_spec (length l + x) 0) as [Z|Z].
  - destruct l; [|cbn in Z; lia]. rewrite app_nil_r. exists h, p, sh. split; [reflexivity|split; [assumption|split; [apply same_refl|split; [assumption|auto]]]].
  - destruct (edit_ok _ _ _ c0 (length t + length l + x) (fun t => t ++ l) _ _ _ I L D) as (h2 & a & E2 & W2 & S2 & _ & L2).
    + lia.
    + rewrite app_length. lia.
    + exists h2, (Heap a), false. split; [assumption|split; [assumption|split; [assumption|split; [assumption|discriminate]]]].
Qed.
Lemma set_page_ok : forall h c p e0 t sh e, W h (plus c p) -> look h p = Some (e0, t, sh) -> (p = Stat e0 \/ is_ansi e0 = true) -> is_ansi e = true ->
  (e0 = e \/ sh = false \/ t = []) ->
  exists h' p' sh', set_page h p e = Some (h', p') /\ W h' (plus c p') /\ same h h' c /\ look h' p' = Some (e, t, sh') /\ (sh' = true -> h' = h /\ p' = p /\ e0 = e).
Proof.
  intros h c p e0 t sh e I L D AE X. unfold set_page. rewrite L. destruct (enc_dec e0 e) as [->|N].
  - exists h, p, sh. split; [reflexivity|split; [assumption|split; [apply same_refl|split; [assumption|auto]]]].
  - rewrite AE. cbn [negb]. destruct (edit_ok _ _ _ (ANSI 0) 1 (fun t => if sh then [] else t) _ _ _ I L) as (h1 & a & E1 & W1 & S1 & C1 & L1).
    + destruct D as [D|D]; [auto|right]. destruct e0; try discriminate. reflexivity.
    + lia.
    + destruct sh; cbn [length]; lia.
    + rewrite E1. destruct (W_heap _ _ _ W1) as (b & EB & R & K). rewrite EB. exists (put h1 a (Some (mkblk (rc b) (byt b) (cap b) (txt b) e))), (Heap a), false.
      cbn [look] in L1. rewrite EB in L1. injection L1 as T1 T2 T3.
      assert (WT : width (tag b) = width e).
      { rewrite T1. destruct e; try discriminate. destruct sh; [reflexivity|]. destruct D as [->|D]; [cbn in L; discriminate|]. destruct e0; try discriminate. reflexivity. }
      split; [reflexivity|]. split; [|split; [|split; [|discriminate]]].
      * apply W_put; [assumption|assumption|]. destruct K as (K1 & K2 & K3 & K4). unfold bok. cbn [rc txt cap byt tag]. rewrite <- WT. auto.
      * apply same_trans with h1; [assumption|]. apply same_put. assumption.
      * cbn [look put snd]. rewrite upd_eq. cbn [tag txt rc]. rewrite T2, T3. destruct sh; [|reflexivity]. destruct X as [X|[X|X]]; [contradiction|discriminate|]. rewrite X. reflexivity.
Qed.
Lemma W_stat : forall h c x y, W h (plus c (Stat x)) -> W h (plus c (Stat y)).
Proof. intros h c x y. apply W_ext. intros a. reflexivity. Qed.
Lemma W_add_stat : forall h c x, W h c -> W h (plus c (Stat x)).
Proof. intros h c x. apply W_ext. intros a. unfold plus. cbn. lia. Qed.
Lemma W_sub_stat : forall h c x, W h (plus c (Stat x)) -> W h c.
Proof. intros h c x. apply W_ext. intros a. unfold plus. cbn. lia. Qed.
Lemma W_swap : forall h c p q, W h (plus (plus c p) q) -> W h (plus (plus c q) p).
Proof. intros h c p q. apply W_ext. intros a. unfold plus. lia. Qed.
Lemma reset_ok : forall h c p x e, W h (plus c p) -> exists h' p' sh', reset x h p e = Some (h', p') /\ W h' (plus c p') /\ same h h' c
  /\ look h' p' = Some (match e with U32B => x | _ => e end, [], sh') /\ (sh' = true -> p' = Stat (match e with U32B => x | _ => e end)).
Proof.
  intros h c p x e I. destruct (release_ok _ _ _ I) as (h1 & E1 & W1 & S1). unfold reset. rewrite E1.
  assert (ST : forall y, exists h' p' sh', Some (h1, Stat y) = Some (h', p') /\ W h' (plus c p') /\ same h h' c /\ look h' p' = Some (y, [], sh') /\ (sh' = true -> p' = Stat y)).
  { intros y. exists h1, (Stat y), true. split; [reflexivity|split; [apply W_add_stat; assumption|split; [assumption|split; reflexivity]]]. }
  destruct e; try apply ST.
  destruct (set_page_ok h1 c (Stat (ANSI 0)) (ANSI 0) [] true (ANSI page) (W_add_stat _ _ _ W1) eq_refl (or_introl eq_refl) eq_refl (or_intror (or_intror eq_refl))) as (h2 & p2 & sh2 & E2 & W2 & S2 & L2 & X2).
  exists h2, p2, sh2. split; [assumption|split; [assumption|split; [exact (same_trans _ _ _ _ S1 S2)|split; [assumption|]]]]. intros T. destruct (X2 T) as (_ & -> & ->). reflexivity.
Qed.
Lemma scale_ok : forall b e0 e, bok b -> tag b = e0 -> bok (mkblk (rc b) (byt b) (rescale b e0 e) [] e).
Proof.
  intros b e0 e (K1 & K2 & K3 & k & K4) <-. unfold bok, rescale. cbn [rc txt cap byt tag length]. destruct (Nat.eqb_spec (width (tag b)) (width e)) as [E|E].
  - rewrite <- E. repeat split; try lia; try assumption. exists k. assumption.
  - unfold scale. rewrite K3, K4.
    assert (P : 1 <= k) by (destruct k; [|lia]; rewrite K4 in K3; destruct (tag b); cbn [width] in K3; lia).
    assert (Q : (Z.of_nat (16 * k) / Z.of_nat (width e) * Z.of_nat (width e) = Z.of_nat (16 * k))%Z).
    { destruct e; cbn [width]; rewrite Nat2Z.inj_mul; [| | | | |]; try (rewrite Z.div_1_r; lia).
      all: match goal with |- (_ / Z.of_nat ?w * _ = _)%Z => pose proof (Z.div_mod (Z.of_nat 16 * Z.of_nat k) (Z.of_nat w) ltac:(lia)); assert ((Z.of_nat 16 * Z.of_nat k) mod Z.of_nat w = 0)%Z by (rewrite Z.mod_divide by lia; first [exists (8 * Z.of_nat k)%Z; lia | exists (4 * Z.of_nat k)%Z; lia]) end; lia. }
    assert (1 <= Z.of_nat (16 * k) / Z.of_nat (width e))%Z by (assert (1 <= width e <= 4) by (destruct e; cbn; lia); nia).
    repeat split; try lia. exists k. reflexivity.
Qed.
Lemma caue_ok : forall h c p e0 t sh e, W h (plus c p) -> look h p = Some (e0, t, sh) ->
  exists h' p' e1 t1 sh', caue h p e = Some (h', p') /\ W h' (plus c p') /\ same h h' c /\ look h' p' = Some (e1, t1, sh') /\ (p' = Stat e1 \/ e1 = e).
Proof.
  intros h c p e0 t sh e I L. unfold caue. rewrite L. destruct (enc_dec e0 e) as [->|N]; [exists h, p, e, t, sh; split; [reflexivity|split; [assumption|split; [apply same_refl|auto]]]|].
  destruct sh.
  - destruct (reset_ok _ _ _ U16B e I) as (h1 & p1 & sh1 & E1 & W1 & S1 & L1 & X1). eexists h1, p1, _, _, sh1. split; [exact E1|split; [assumption|split; [assumption|split; [exact L1|]]]].
    destruct sh1; [left; exact (X1 eq_refl)|]. destruct e; auto. left. unfold reset in E1. destruct (release h p); [|discriminate]. injection E1 as _ <-. reflexivity.
  - destruct p as [x|a]; [cbn in L; discriminate|]. destruct (W_heap _ _ _ I) as (b & E & R & K). rewrite E. cbn [look] in L. rewrite E in L. injection L as T1 T2 T3. apply Nat.ltb_ge in T3.
    pose proof (scale_ok b e0 e K T1) as K'. pose proof K' as (J1 & J2 & J3 & _). cbn [rc txt cap byt tag length] in J1, J2, J3.
    assert (F : width e <= byt b) by (assert (1 * Z.of_nat (width e) <= Z.of_nat (byt b))%Z by (rewrite <- J3; apply Z.mul_le_mono_nonneg_r; lia); lia).
    apply Nat.leb_le in F. rewrite F. eexists _, (Heap a), e, [], false. split; [reflexivity|]. split; [apply W_put; assumption|]. split; [apply same_put; lia|]. split; [|auto].
    cbn [look put snd]. rewrite upd_eq. cbn [tag txt rc]. replace (1 <? rc b) with false by (symmetry; apply Nat.ltb_ge; assumption). reflexivity.
Qed.
Lemma cls_width : forall e, width (cls e) = width e.
Proof. destruct e; reflexivity. Qed.
Lemma n_set_ok : forall h c p e l, W h (plus c p) -> exists h' p' sh', n_set h p e l = Some (h', p') /\ W h' (plus c p') /\ same h h' c /\ look h' p' = Some (e, l, sh').
Proof.
  intros h c p e l I. destruct (W_look _ _ _ I) as (e0 & t & sh & L & _).
  assert (U : cls e = e -> is_ansi e = false -> exists h' p' sh', (match caue h p e with Some (h1, q) => set_text e h1 q l | None => None end) = Some (h', p') /\ W h' (plus c p') /\ same h h' c /\ look h' p' = Some (e, l, sh')).
  { intros CE NA. destruct (caue_ok _ _ _ _ _ _ e I L) as (h1 & p1 & e1 & t1 & sh1 & E1 & W1 & S1 & L1 & X1). rewrite E1.
    destruct (set_text_ok _ _ _ e l _ _ _ W1 L1) as (h2 & p2 & sh2 & E2 & W2 & S2 & L2 & _); [destruct X1 as [X|X]; [auto|right; rewrite X; reflexivity]|].
    exists h2, p2, sh2. split; [assumption|split; [assumption|split; [exact (same_trans _ _ _ _ S1 S2)|]]]. rewrite L2. destruct sh1; [reflexivity|]. destruct X1 as [-> | ->]; [cbn in L1; discriminate|reflexivity]. }
  destruct e; try (apply U; reflexivity). clear U. cbn [n_set]. rewrite L.
  assert (Y : exists h1 q e1 t1 sh1, (if is_ansi e0 then Some (h, p) else caue h p (ANSI 0)) = Some (h1, q) /\ W h1 (plus c q) /\ same h h1 c /\ look h1 q = Some (e1, t1, sh1) /\ (q = Stat e1 \/ is_ansi e1 = true)).
  { destruct (is_ansi e0) eqn:A; [exists h, p, e0, t, sh; split; [reflexivity|split; [assumption|split; [apply same_refl|auto]]]|].
    destruct (caue_ok _ _ _ _ _ _ (ANSI 0) I L) as (h1 & p1 & e1 & t1 & sh1 & E1 & W1 & S1 & L1 & X1). exists h1, p1, e1, t1, sh1. split; [assumption|split; [assumption|split; [assumption|split; [assumption|]]]]. destruct X1 as [X|X]; [auto|right; rewrite X; reflexivity]. }
  destruct Y as (h1 & q & e1 & t1 & sh1 & E1 & W1 & S1 & L1 & X1). rewrite E1.
  destruct (set_text_ok _ _ _ (ANSI 0) l _ _ _ W1 L1) as (h2 & p2 & sh2 & E2 & W2 & S2 & L2 & X2); [destruct X1 as [X|X]; [auto|right; destruct e1; try discriminate; reflexivity]|]. rewrite E2.
  destruct (set_page_ok _ _ _ _ _ _ (ANSI page) W2 L2) as (h3 & p3 & sh3 & E3 & W3 & S3 & L3 & _).
  - right. destruct sh1; [reflexivity|]. destruct X1 as [->|X]; [cbn in L1; discriminate|exact X].
  - reflexivity.
  - destruct sh2; [right; right; exact (proj2 (X2 eq_refl))|auto].
  - exists h3, p3, sh3. split; [assumption|split; [assumption|split; [|assumption]]]. exact (same_trans _ _ _ _ (same_trans _ _ _ _ S1 S2) S3).
Qed.
Lemma attach_ok : forall h c p q, W h (plus c p) -> exists h', attach h p q = Some (h', q) /\ W h' c /\ same h h' c.
Proof. intros h c p q I. destruct (release_ok _ _ _ I) as (h1 & E1 & W1 & S1). unfold attach. rewrite E1. exists h1. auto. Qed.
Lemma set_from_ok : forall h c p q, W h (plus (plus c q) p) -> exists h' p', set_from h p q = Some (h', p') /\ W h' (plus (plus c q) p') /\ same h h' (plus c q) /\ val h' p' = val h q.
Proof.
  intros h c p q I.
  assert (G : exists h' p', (match addref h q with Some h1 => attach h1 p q | None => None end) = Some (h', p') /\ W h' (plus (plus c q) p') /\ same h h' (plus c q) /\ val h' p' = val h q).
  { destruct (addref_ok h (plus c p) q (W_swap _ _ _ _ I)) as (h1 & E1 & W1 & S1). rewrite E1.
    assert (W1' : W h1 (plus (plus (plus c q) q) p)) by (apply W_ext with (2 := W1); intros a; unfold plus; lia).
    destruct (attach_ok _ _ _ q W1') as (h2 & E2 & W2 & S2). exists h2, q. split; [assumption|split; [assumption|]].
    assert (S : same h h2 (plus c q)) by (intros a A; rewrite (same_plus _ _ _ _ S2 a A); apply S1; unfold plus in *; lia).
    split; [exact S|]. exact (same_own _ _ _ _ S). }
  unfold set_from. destruct p as [x|a]; [exact G|]. destruct q as [y|b]; [exact G|]. destruct (Nat.eqb_spec a b) as [->|N]; [|exact G].
  exists h, (Heap b). split; [reflexivity|split; [assumption|split; [apply same_refl|reflexivity]]].
Qed.
Lemma n_set_from_ok : forall h c p cq q, W h (plus (plus c q) p) -> exists h' p', n_set_from h p cq q = Some (h', p') /\ W h' (plus (plus c q) p') /\ same h h' (plus c q) /\ val h' p' = val h q.
Proof.
  intros h c p cq q I. destruct (W_look _ _ _ I) as (e0 & t & sh & L & _). unfold n_set_from. rewrite L.
  destruct (is_ansi cq && is_ansi e0); [exact (set_from_ok _ _ _ _ I)|].
  destruct (caue_ok _ _ _ _ _ _ cq I L) as (h1 & p1 & e1 & t1 & sh1 & E1 & W1 & S1 & L1 & _). rewrite E1.
  destruct (set_from_ok _ _ _ _ W1) as (h2 & p2 & E2 & W2 & S2 & V2). exists h2, p2. split; [assumption|split; [assumption|split; [exact (same_trans _ _ _ _ S1 S2)|]]]. rewrite V2. exact (same_own _ _ _ _ S1).
Qed.
Section NString.
  Variable conv : enc -> enc -> list nat -> option (list nat).
  Variable slack : enc -> enc -> list nat -> nat.
  (** The characters that Transform adds. *)
  Definition added (es e : enc) (l : list nat) : list nat := if enc_dec (cls es) (cls e) then l else match conv es e l with Some r => r | None => [] end.
  Definition good (es e : enc) (l : list nat) : bool := if enc_dec (cls es) (cls e) then true else match conv es e l with Some _ => true | None => false end.
  Lemma transform_ok : forall h c p es e l ep t sh, W h (plus c p) -> look h p = Some (ep, t, sh) -> (p = Stat ep \/ width ep = width e) -> l <> [] ->
    exists h' p' sh', transform conv slack h p es e l = Some (h', p', good es e l) /\ W h' (plus c p') /\ same h h' c /\ look h' p' = Some (if sh then cls e else ep, t ++ added es e l, sh').
  Proof.
    intros h c p es e l ep t sh I L D N. unfold transform, good, added. rewrite <- (cls_width e) in D.
    assert (G : forall l x, (length l + x =? 0) = false -> exists h' p' sh', append (cls e) h p l x = Some (h', p') /\ W h' (plus c p') /\ same h h' c /\ look h' p' = Some (if sh then cls e else ep, t ++ l, sh')).
    { intros l0 x Z. destruct (append_ok _ _ _ (cls e) l0 x _ _ _ I L D) as (h1 & p1 & sh1 & E1 & W1 & S1 & L1 & _). rewrite Z in L1. exists h1, p1, sh1. auto. }
    destruct (enc_dec (cls es) (cls e)).
    - destruct (G l 0) as (h1 & p1 & sh1 & E1 & W1 & S1 & L1); [destruct l; [contradiction|reflexivity]|]. rewrite E1. exists h1, p1, sh1. auto.
    - destruct (conv es e l) as [r|].
      + destruct (G r (S (slack es e l))) as (h1 & p1 & sh1 & E1 & W1 & S1 & L1); [apply Nat.eqb_neq; lia|]. rewrite E1. exists h1, p1, sh1. auto.
      + destruct (G [] (S (slack es e l))) as (h1 & p1 & sh1 & E1 & W1 & S1 & L1); [reflexivity|]. rewrite E1. exists h1, p1, sh1. auto.
  Qed.
  Lemma n_append_ok : forall h c p e l ep t sh, W h (plus c p) -> look h p = Some (ep, t, sh) ->
    exists h' p' sh' b, n_append conv slack h p e l = Some (h', p', b) /\ W h' (plus c p') /\ same h h' c
      /\ look h' p' = Some (match l with [] => ep | _ => if sh then cls ep else ep end, t ++ (match l with [] => [] | _ => added e ep l end), sh') /\ b = match l with [] => true | _ => good e ep l end.
  Proof.
    intros h c p e l ep t sh I L. unfold n_append. destruct l as [|x l].
    - rewrite app_nil_r. exists h, p, sh, true. split; [reflexivity|split; [assumption|split; [apply same_refl|auto]]].
    - rewrite L. destruct (transform_ok _ _ _ e ep (x :: l) _ _ _ I L) as (h1 & p1 & sh1 & E1 & W1 & S1 & L1); [auto|discriminate|].
      exists h1, p1, sh1, (good e ep (x :: l)). auto.
  Qed.
  Lemma n_clear_ok : forall h c p e t sh, W h (plus c p) -> look h p = Some (e, t, sh) -> exists h' p' sh', n_clear h p = Some (h', p') /\ W h' (plus c p') /\ same h h' c /\ look h' p' = Some (e, [], sh').
  Proof.
    intros h c p e t sh I L. unfold n_clear. rewrite L. destruct t as [|x t]; [exists h, p, sh; split; [reflexivity|split; [assumption|split; [apply same_refl|auto]]]|].
    destruct (clear_ok _ _ _ (cls e) _ _ _ I L (or_intror (eq_sym (cls_width e)))) as (h1 & p1 & E1 & W1 & S1 & L1 & X1). rewrite E1.
    destruct (is_ansi e) eqn:A.
    - destruct (set_page_ok _ _ _ _ _ _ e W1 L1) as (h2 & p2 & sh2 & E2 & W2 & S2 & L2 & _); [right; destruct sh, e; try discriminate; reflexivity|assumption|auto|].
      exists h2, p2, sh2. split; [assumption|split; [assumption|split; [exact (same_trans _ _ _ _ S1 S2)|assumption]]].
    - exists h1, p1, sh. split; [reflexivity|split; [assumption|split; [assumption|]]]. rewrite L1. destruct sh, e; try discriminate; reflexivity.
  Qed.
  (** GetString: [p] is the NString's pointer, which stays, [q] the destination's. *)
  Lemma n_get_ok : forall h c p q cq e t sh eq0 tq shq, W h (plus (plus c p) q) -> look h p = Some (e, t, sh) -> look h q = Some (eq0, tq, shq) -> cls eq0 = cq ->
    exists h' q' b, n_get conv slack h p cq q = Some (h', q', b) /\ W h' (plus (plus c p) q') /\ same h h' (plus c p)
      /\ val h' q' = Some (if enc_dec (cls e) cq then (e, t) else (eq0, match t with [] => [] | _ => added e eq0 t end)).
  Proof.
    intros h c p q cq e t sh eq0 tq shq I L LQ CQ. unfold n_get. rewrite LQ.
    assert (CC : cls cq = cq) by (subst cq; destruct eq0; reflexivity).
    destruct (clear_ok _ _ _ cq _ _ _ I LQ) as (h1 & q1 & E1 & W1 & S1 & L1 & X1); [right; subst cq; rewrite cls_width; reflexivity|]. rewrite E1.
    destruct (W_look _ _ _ (W_swap _ _ _ _ W1)) as (e' & t' & sh' & L' & V'). assert (ET : val h1 p = val h p) by exact (same_own _ _ _ _ S1). rewrite V' in ET. unfold val in ET. rewrite L in ET. injection ET as -> ->. rewrite L'.
    destruct (enc_dec (cls e) cq) as [EQ|NE].
    - destruct (set_from_ok _ _ _ _ W1) as (h2 & q2 & E2 & W2 & S2 & V2). rewrite E2. exists h2, q2, true. split; [reflexivity|split; [assumption|split; [exact (same_trans _ _ _ _ S1 S2)|]]]. rewrite V2. unfold val. rewrite L'. reflexivity.
    - assert (Y : exists h2 q2 sh2, (if is_ansi cq then set_page h1 q1 eq0 else Some (h1, q1)) = Some (h2, q2) /\ W h2 (plus (plus c p) q2) /\ same h h2 (plus c p) /\ look h2 q2 = Some (eq0, [], sh2) /\ (sh2 = true -> eq0 = cq)).
      { destruct (is_ansi cq) eqn:AQ.
        - assert (AE : is_ansi eq0 = true) by (subst cq; destruct eq0; try discriminate; reflexivity).
          destruct (set_page_ok _ _ _ _ _ _ eq0 W1 L1) as (h2 & q2 & sh2 & E2 & W2 & S2 & L2 & X2); [right; destruct shq; assumption|assumption|auto|].
          exists h2, q2, sh2. split; [assumption|split; [assumption|split; [exact (same_trans _ _ _ _ S1 S2)|split; [assumption|]]]]. intros T. destruct (X2 T) as (-> & -> & EE). rewrite L1 in L2. injection L2 as EE2 ES. rewrite <- ES in T. rewrite T in EE. congruence.
        - assert (EQ0 : eq0 = cq) by (subst cq; destruct eq0; try discriminate; reflexivity). exists h1, q1, shq. split; [reflexivity|split; [assumption|split; [assumption|split; [|auto]]]]. rewrite L1. rewrite EQ0. destruct shq; reflexivity. }
      destruct Y as (h2 & q2 & sh2 & E2 & W2 & S2 & L2 & X2). rewrite E2. destruct t as [|x t].
      + exists h2, q2, true. split; [reflexivity|split; [assumption|split; [assumption|]]]. unfold val. rewrite L2. reflexivity.
      + assert (TQ : (if is_ansi cq then eq0 else cq) = eq0) by (subst cq; destruct eq0; reflexivity). rewrite TQ.
        destruct (transform_ok _ _ _ e eq0 (x :: t) _ _ _ W2 L2) as (h3 & q3 & sh3 & E3 & W3 & S3 & L3); [auto|discriminate|]. rewrite E3.
        exists h3, q3, (good e eq0 (x :: t)). split; [reflexivity|split; [assumption|split; [exact (same_trans _ _ _ _ S2 S3)|]]]. unfold val. rewrite L3. cbn [app]. destruct sh2; [|reflexivity]. rewrite CQ, (X2 eq_refl). reflexivity.
  Qed.
  (** SetEncoding on a text that is not empty, or on a static empty string. *)
  Lemma set_encoding_ok : forall h c p e0 t sh e, W h (plus c p) -> look h p = Some (e0, t, sh) ->
    (t = [] -> e0 <> e -> exists x, p = Stat x) -> (t <> [] -> e0 <> e -> is_ansi e0 && is_ansi e = false /\ endian e0 e = false /\ good e0 e t = true) ->
    exists h' p' sh', set_encoding conv slack h p e = Some (h', p', true) /\ W h' (plus c p') /\ same h h' c
      /\ look h' p' = Some (e, if enc_dec e0 e then t else match t with [] => [] | _ => added e0 e t end, sh').
  Proof.
    intros h c p e0 t sh e I L HS HT. unfold set_encoding. rewrite L. destruct (enc_dec e0 e) as [->|N]; [exists h, p, sh; split; [reflexivity|split; [assumption|split; [apply same_refl|assumption]]]|].
    destruct t as [|x t].
    - destruct (HS eq_refl N) as (y & ->). cbn [look] in L. injection L as -> <-.
      unfold caue. cbn [look]. destruct (enc_dec e0 e) as [|_]; [contradiction|].
      destruct (reset_ok _ _ _ U16B e I) as (h1 & p1 & sh1 & E1 & W1 & S1 & L1 & X1). rewrite E1.
      destruct (reset_ok _ _ _ U32B e W1) as (h2 & p2 & sh2 & E2 & W2 & S2 & L2 & X2). rewrite E2.
      exists h2, p2, sh2. split; [reflexivity|split; [assumption|split; [exact (same_trans _ _ _ _ S1 S2)|]]]. rewrite L2. destruct e; reflexivity.
    - destruct (HT ltac:(discriminate) N) as (HA & HE & HG). rewrite HA, HE.
      assert (Y : exists h1 q sh1 eq1, (if is_ansi e then match clear (ANSI 0) h (Stat (cls e0)) with Some (h1, q) => match edit (ANSI 0) h1 q (length (x :: t) * 2) (fun _ => []) with Some (h2, q2) => set_page h2 q2 e | None => None end | None => None end
          else Some (h, Stat (cls e0))) = Some (h1, q) /\ W h1 (plus (plus c p) q) /\ same h h1 (plus c p) /\ look h1 q = Some (eq1, [], sh1) /\ (if is_ansi e then eq1 = e /\ (sh1 = true -> e = ANSI 0) else sh1 = true /\ q = Stat eq1)).
      { pose proof (W_add_stat _ _ (cls e0) I) as I1. destruct (is_ansi e) eqn:AE.
        - cbn [clear]. destruct (edit_ok h (plus c p) (Stat (ANSI 0)) (ANSI 0) (length (x :: t) * 2) (fun _ => []) _ _ _ (W_stat _ _ _ _ I1) eq_refl) as (h2 & a & E2 & W2 & S2 & _ & L2); [auto|cbn; lia|cbn; lia|]. rewrite E2.
          destruct (set_page_ok _ _ _ _ _ _ e W2 L2) as (h3 & p3 & sh3 & E3 & W3 & S3 & L3 & X3); [right; reflexivity|assumption|auto|].
          exists h3, p3, sh3, e. split; [assumption|split; [assumption|split; [exact (same_trans _ _ _ _ S2 S3)|split; [assumption|split; [reflexivity|]]]]]. intros T. destruct (X3 T) as (_ & _ & EE). symmetry. exact EE.
        - exists h, (Stat (cls e0)), true, (cls e0). split; [reflexivity|split; [assumption|split; [apply same_refl|split; [reflexivity|split; reflexivity]]]]. }
      destruct Y as (h1 & q & sh1 & eq1 & E1 & W1 & S1 & L1 & X1). cbv zeta. rewrite E1.
      destruct (transform_ok _ _ _ e0 e (x :: t) _ _ _ W1 L1) as (h2 & q2 & sh2 & E2 & W2 & S2 & L2).
      + destruct (is_ansi e); [right; destruct X1 as (-> & _); reflexivity|left; exact (proj2 X1)].
      + discriminate.
      + rewrite E2, HG. destruct (release_ok _ _ _ (W_swap _ _ _ _ W2)) as (h3 & E3 & W3 & S3). rewrite E3.
        assert (V : val h3 q2 = val h2 q2) by exact (same_own _ _ _ _ S3). destruct (W_look _ _ _ W3) as (e3 & t3 & sh3 & L3 & V3). rewrite V3 in V. unfold val in V. rewrite L2 in V. injection V as -> ->.
        exists h3, q2, sh3. split; [reflexivity|split; [assumption|split]].
        * apply same_trans with h2; [|exact (same_plus _ _ _ _ S3)]. exact (same_plus _ _ _ _ (same_trans _ _ _ _ S1 S2)).
        * rewrite L3. cbn [app]. destruct (is_ansi e) eqn:AE.
          { destruct X1 as (-> & X1). destruct sh1; [rewrite (X1 eq_refl)|]; reflexivity. }
          { destruct X1 as (-> & _). destruct e; try discriminate; reflexivity. }
  Qed.
End NString.
