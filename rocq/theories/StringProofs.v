(** Lemmas about the string model: ownership of blocks by counted references. *)
From Coq Require Import Arith ZArith Lia Bool List.
From Verif Require Import Slots SlotsProofs StringModel.
Import ListNotations.

(** ** Lists *)
Lemma blit_length : forall bf off l, off + length l <= length bf -> length (blit bf off l) = length bf.
Proof. intros. unfold blit. rewrite !app_length, firstn_length, skipn_length. lia. Qed.
Lemma blit_before : forall bf off l n, n <= off -> off <= length bf -> firstn n (blit bf off l) = firstn n bf.
Proof.
  intros. unfold blit. rewrite firstn_app, firstn_firstn, firstn_length.
  replace (n - Nat.min off (length bf)) with 0 by lia. rewrite firstn_O, app_nil_r. f_equal. lia.
Qed.
Lemma blit_upto : forall bf off l, off <= length bf -> firstn (off + length l) (blit bf off l) = firstn off bf ++ l.
Proof.
  intros. unfold blit. rewrite app_assoc, firstn_app, app_length, firstn_length.
  replace (off + length l - (Nat.min off (length bf) + length l)) with 0 by lia.
  rewrite firstn_O, app_nil_r. apply firstn_all2. rewrite app_length, firstn_length. lia.
Qed.
Lemma blit_nth : forall bf off x, off < length bf -> nth off (blit bf off [x]) 1 = x.
Proof.
  intros. unfold blit. rewrite app_nth2; rewrite firstn_length; [|lia].
  replace (off - Nat.min off (length bf)) with 0 by lia. reflexivity.
Qed.
Lemma blit_nth_after : forall bf off l n, off + length l <= n -> off + length l <= length bf -> nth n (blit bf off l) 1 = nth n bf 1.
Proof.
  intros. unfold blit. rewrite app_assoc, app_nth2; rewrite app_length, firstn_length; [|lia].
  replace (Nat.min off (length bf)) with off by lia.
  rewrite <- (firstn_skipn (off + length l) bf) at 2. rewrite app_nth2; rewrite firstn_length; [|lia].
  f_equal. lia.
Qed.
Lemma blit_nil : forall bf off, off <= length bf -> blit bf off [] = bf.
Proof. intros. unfold blit. cbn. rewrite Nat.add_0_r. apply firstn_skipn. Qed.

(** ** What a block shows *)
Inductive status := Good | Late | Open.
(** [Good]: the text is followed by the terminator; [Late]: a terminator comes later in the
    buffer; [Open]: there is none. *)
Definition stat (b : blk) : status :=
  if nth (size b) (buf b) 1 =? 0 then Good
  else if existsb (Nat.eqb 0) (skipn (size b) (buf b)) then Late else Open.
Definition lockn (r : Z) : nat := if (0 <=? r)%Z then 0 else Z.to_nat (- r).
Definition text (b : blk) : list nat := firstn (size b) (buf b).
Definition bview (b : blk) : list nat * nat * status := (text b, lockn (iref b), stat b).
Definition view (s : hs) (a : nat) : option (list nat * nat * status) :=
  if a =? 0 then Some ([], 0, Good) else match hp s a with Some b => Some (bview b) | None => None end.

Lemma stat_good : forall b, nth (size b) (buf b) 1 = 0 -> stat b = Good.
Proof. intros b H. unfold stat. rewrite H. reflexivity. Qed.
Lemma stat_not_open : forall b m, size b <= m -> nth m (buf b) 1 = 0 -> stat b <> Open.
Proof.
  intros b m L H. unfold stat. destruct (nth (size b) (buf b) 1 =? 0); [discriminate|].
  replace (existsb (Nat.eqb 0) (skipn (size b) (buf b))) with true; [discriminate|]. symmetry.
  apply existsb_exists. exists 0. split; [|reflexivity].
  assert (Lm : m < length (buf b)).
  { destruct (Nat.lt_ge_cases m (length (buf b))); [assumption|]. rewrite nth_overflow in H by assumption. discriminate. }
  rewrite <- (firstn_skipn (size b) (buf b)) in H. rewrite app_nth2 in H; rewrite firstn_length in *; [|lia].
  rewrite <- H. apply nth_In. rewrite skipn_length. lia.
Qed.
Lemma stat_inv : forall b, stat b <> Open -> exists m, size b <= m /\ nth m (buf b) 1 = 0.
Proof.
  intros b. unfold stat. destruct (Nat.eqb_spec (nth (size b) (buf b) 1) 0) as [E|E]; [intros _; exists (size b); auto|].
  destruct (existsb _ _) eqn:X; [|congruence]. intros _. apply existsb_exists in X. destruct X as (x & I & E0).
  apply Nat.eqb_eq in E0. subst x. apply (In_nth _ _ 1) in I. destruct I as (k & Lk & Nk). exists (size b + k). split; [lia|].
  rewrite skipn_length in Lk. rewrite <- (firstn_skipn (size b) (buf b)) at 1. rewrite app_nth2; rewrite firstn_length; [|lia].
  replace (size b + k - Nat.min (size b) (length (buf b))) with k by lia. exact Nk.
Qed.
Lemma stat_cases : forall b, stat b = Good /\ nth (size b) (buf b) 1 = 0 \/ stat b <> Good /\ nth (size b) (buf b) 1 <> 0.
Proof.
  intros b. unfold stat. destruct (Nat.eqb_spec (nth (size b) (buf b) 1) 0); [auto|]. right. split; [|assumption].
  destruct (existsb _ _); discriminate.
Qed.
Lemma stat_eq : forall b b', size b' = size b -> stat b <> Open ->
  (forall m, size b <= m -> m < length (buf b) -> nth m (buf b') 1 = nth m (buf b) 1) -> size b < length (buf b) -> stat b' = stat b.
Proof.
  intros b b' S NO E L. destruct (stat_inv b NO) as (m & Lm & Nm).
  assert (Ln : m < length (buf b)) by (destruct (Nat.lt_ge_cases m (length (buf b))); [assumption|]; rewrite nth_overflow in Nm by assumption; discriminate).
  pose proof (stat_not_open b' m ltac:(lia) ltac:(rewrite E by lia; assumption)) as NO'.
  destruct (stat_cases b) as [[G N]|[G N]]; destruct (stat_cases b') as [[G' N']|[G' N']]; try congruence.
  - rewrite S, E in N' by lia. contradiction.
  - rewrite S, E in N' by lia. contradiction.
  - destruct (stat b), (stat b'); congruence.
Qed.

(** ** References *)
Definition add (a : nat) (t : nat -> nat) : nat -> nat := fun x => (if x =? a then 1 else 0) + t x.
Definition blk_ok (b : blk) (t : nat) : Prop :=
  length (buf b) = S (cap b) /\ (1 <= cap b /\ size b <= cap b) /\ ((0 < iref b)%Z /\ iref b = Z.of_nat t \/ (iref b < 0)%Z /\ t = 1).
Record Inv (s : hs) (t : nat -> nat) : Prop := {
  inv_nx : 1 <= nx s;
  inv_fresh : forall a, nx s <= a -> hp s a = None;
  inv_b : forall a, a <> 0 -> match hp s a with Some b => blk_ok b (t a) | None => t a = 0 end
}.
Definition Same (t : nat -> nat) (s s' : hs) : Prop := forall x, 1 <= t x -> view s' x = view s x.

Lemma Inv_ext : forall s t t', Inv s t -> (forall x, x <> 0 -> t x = t' x) -> Inv s t'.
Proof.
  intros s t t' I E. constructor; try apply I. intros a NZ. pose proof (inv_b _ _ I a NZ) as B. rewrite <- E by assumption. exact B.
Qed.
Lemma Inv_heap : forall s s' t, Inv s t -> hp s' = hp s -> nx s' = nx s -> Inv s' t.
Proof. intros s s' t I E1 E2. constructor; rewrite ?E1, ?E2; apply I. Qed.
Lemma Same_refl : forall t s, Same t s s. Proof. intros t s x _. reflexivity. Qed.
Lemma Same_trans : forall t a b c, Same t a b -> Same t b c -> Same t a c.
Proof. intros t a b c H K x L. rewrite K by assumption. apply H. assumption. Qed.
Lemma Same_less : forall t t' s s', Same t s s' -> (forall x, 1 <= t' x -> 1 <= t x) -> Same t' s s'.
Proof. intros t t' s s' H L x K. apply H, L, K. Qed.
Lemma Same_view : forall t s s1 s2, (forall x, view s2 x = view s1 x) -> Same t s s1 -> Same t s s2.
Proof. intros t s s1 s2 E H x L. rewrite E. apply H. assumption. Qed.
Lemma view_heap : forall s s' x, hp s' = hp s -> view s' x = view s x.
Proof. intros s s' x E. unfold view. rewrite E. reflexivity. Qed.
Lemma add_pos : forall a t x, 1 <= t x -> 1 <= add a t x.
Proof. intros. unfold add. lia. Qed.
Lemma add_self : forall a t, add a t a = S (t a).
Proof. intros. unfold add. rewrite Nat.eqb_refl. reflexivity. Qed.
Lemma add_other : forall a t x, x <> a -> add a t x = t x.
Proof. intros. unfold add. destruct (Nat.eqb_spec x a); [contradiction|reflexivity]. Qed.
Lemma add_swap : forall a b t x, add a (add b t) x = add b (add a t) x.
Proof. intros. unfold add. lia. Qed.

Lemma live : forall s t a, Inv s t -> a <> 0 -> 1 <= t a -> exists b, hp s a = Some b /\ blk_ok b (t a).
Proof. intros s t a I NZ L. pose proof (inv_b _ _ I a NZ) as H. destruct (hp s a) as [b|]; [eauto|lia]. Qed.
Lemma live_lt : forall s t a b, Inv s t -> hp s a = Some b -> a < nx s.
Proof. intros s t a b I H. destruct (Nat.lt_ge_cases a (nx s)); [assumption|]. rewrite (inv_fresh _ _ I) in H by assumption. discriminate. Qed.
Lemma view_live : forall s a v, a <> 0 -> view s a = Some v -> exists b, hp s a = Some b /\ v = bview b.
Proof.
  intros s a v NZ H. unfold view in H. destruct (Nat.eqb_spec a 0); [contradiction|]. destruct (hp s a) as [b|]; [|discriminate].
  injection H as <-. eauto.
Qed.
Lemma view_at : forall s a b, a <> 0 -> hp s a = Some b -> view s a = Some (bview b).
Proof. intros s a b NZ H. unfold view. destruct (Nat.eqb_spec a 0); [contradiction|]. rewrite H. reflexivity. Qed.
Lemma view_some : forall s t a, Inv s t -> 1 <= t a -> exists v, view s a = Some v.
Proof.
  intros s t a I L. unfold view. destruct (Nat.eqb_spec a 0); [eauto|]. destruct (live _ _ a I n L) as (b & H & _). rewrite H. eauto.
Qed.
Lemma lockn_neg : forall r, (r < 0)%Z -> lockn r = Z.to_nat (- r).
Proof. intros r H. unfold lockn. destruct (Z.leb_spec 0 r); [lia|reflexivity]. Qed.
Lemma lockn_pos : forall r, (0 <= r)%Z -> lockn r = 0.
Proof. intros r H. unfold lockn. destruct (Z.leb_spec 0 r); [reflexivity|lia]. Qed.

(** Replacing a block. *)
Definition setb (s : hs) (a : nat) (b : option blk) : hs := mkhs (upd (hp s) a b) (nx s) (ptr s).
Lemma view_setb : forall s a b x, x <> a -> view (setb s a b) x = view s x.
Proof. intros s a b x NE. unfold view, setb. cbn. unfold upd. destruct (Nat.eqb_spec x a); [contradiction|reflexivity]. Qed.
Lemma view_setb_eq : forall s a b, a <> 0 -> view (setb s a (Some b)) a = Some (bview b).
Proof. intros s a b NZ. apply view_at; [assumption|]. cbn. unfold upd. rewrite Nat.eqb_refl. reflexivity. Qed.
Lemma Inv_change : forall s s' t t' a, Inv s t -> a <> 0 -> a < nx s -> nx s' = nx s ->
  (forall x, x <> a -> hp s' x = hp s x) -> (forall x, x <> 0 -> x <> a -> t' x = t x) ->
  match hp s' a with Some b' => blk_ok b' (t' a) | None => t' a = 0 end -> Inv s' t'.
Proof.
  intros s s' t t' a I NZ L N H E K. constructor; rewrite ?N; [apply I| |].
  - intros x Lx. rewrite H by lia. apply I. assumption.
  - intros x NX. destruct (Nat.eq_dec x a) as [->|NE]; [exact K|]. rewrite H, E by assumption. apply I. assumption.
Qed.
Lemma Inv_setb : forall s t t' a b b', Inv s t -> a <> 0 -> hp s a = Some b -> (forall x, x <> 0 -> x <> a -> t' x = t x) ->
  match b' with Some b' => blk_ok b' (t' a) | None => t' a = 0 end -> Inv (setb s a b') t'.
Proof.
  intros s t t' a b b' I NZ H E K. apply (Inv_change s _ t t' a); auto.
  - apply (live_lt _ _ _ _ I H).
  - intros x NE. cbn. unfold upd. destruct (Nat.eqb_spec x a); [contradiction|reflexivity].
  - cbn. unfold upd. rewrite Nat.eqb_refl. exact K.
Qed.

Section Proofs.
  Variable junk : nat -> nat -> nat.
  Variable enc0 : nat.
  Notation load := (load enc0).
  Notation read := (read enc0).
  Notation write := (write enc0).
  Notation Release := (Release enc0).
  Notation AddRef := (AddRef enc0).

  Lemma load_nz : forall a s b, a <> 0 -> hp s a = Some b -> load a s = Ret s b.
  Proof. intros a s b NZ H. unfold StringModel.load. destruct (Nat.eqb_spec a 0); [contradiction|]. rewrite H. reflexivity. Qed.
  Lemma load_0 : forall s, load 0 s = Ret s (empty_blk enc0).
  Proof. reflexivity. Qed.
  Lemma store_nz : forall a s b b', a <> 0 -> hp s a = Some b -> store a b' s = Ret (setb s a (Some b')) tt.
  Proof. intros a s b b' NZ H. unfold store. destruct (Nat.eqb_spec a 0); [contradiction|]. rewrite H. reflexivity. Qed.
  Lemma free_nz : forall a s b, a <> 0 -> hp s a = Some b -> free a s = Ret (setb s a None) tt.
  Proof. intros a s b NZ H. unfold free. destruct (Nat.eqb_spec a 0); [contradiction|]. rewrite H. reflexivity. Qed.
  Lemma setb_setb : forall s a x y, setb (setb s a x) a y = mkhs (upd (upd (hp s) a x) a y) (nx s) (ptr s).
  Proof. reflexivity. Qed.
  Lemma hp_setb : forall s a b, hp (setb s a b) a = b.
  Proof. intros. cbn. unfold upd. rewrite Nat.eqb_refl. reflexivity. Qed.
  Lemma hp_setb_neq : forall s a b x, x <> a -> hp (setb s a b) x = hp s x.
  Proof. intros. cbn. unfold upd. destruct (Nat.eqb_spec x a); [contradiction|reflexivity]. Qed.

  Lemma Release_spec : forall s a t, Inv s (add a t) -> exists s',
    Release a s = Ret s' tt /\ Inv s' t /\ Same t s s' /\ ptr s' = ptr s /\ (forall x, x <> a -> hp s' x = hp s x) /\ nx s' = nx s.
  Proof.
    intros s a t I. unfold StringModel.Release, IsReadOnly. destruct (Nat.eqb_spec a 0) as [->|NZ].
    { exists s. repeat split; auto using Same_refl; [apply I|apply I|].
      intros x NX. pose proof (inv_b _ _ I x NX) as B. rewrite add_other in B by assumption. exact B. }
    destruct (live _ _ a I NZ ltac:(rewrite add_self; lia)) as (b & Hb & Lb & Sb & R). rewrite add_self in R.
    unfold bind. rewrite (load_nz a s b NZ Hb).
    assert (O : forall x, x <> 0 -> x <> a -> t x = add a t x) by (intros; rewrite add_other; auto).
    destruct (Z.ltb_spec (iref b) 0) as [P|P].
    - rewrite (free_nz a s b NZ Hb). eexists; split; [reflexivity|]. assert (t a = 0) by lia. split; [|split; [|split; [|split]]].
      + apply (Inv_setb s (add a t) t a b None I NZ Hb O). assumption.
      + intros x L. apply view_setb. intros ->. lia.
      + reflexivity.
      + intros x NE. apply hp_setb_neq. assumption.
      + reflexivity.
    - rewrite (store_nz a s b _ NZ Hb). destruct R as [[P1 R]|[R _]]; [|lia].
      destruct (Z.eqb_spec (iref b - 1) 0) as [E|E].
      + rewrite (free_nz a _ (setref b (iref b - 1)) NZ (hp_setb _ _ _)). eexists; split; [reflexivity|].
        assert (t a = 0) by lia. split; [|split; [|split; [|split]]].
        * apply (Inv_change s _ (add a t) t a); auto.
          -- apply (live_lt _ _ _ _ I Hb).
          -- intros x NE. rewrite !hp_setb_neq by assumption. reflexivity.
          -- rewrite hp_setb. assumption.
        * intros x L. rewrite !view_setb; auto; intros ->; lia.
        * reflexivity.
        * intros x NE. rewrite !hp_setb_neq by assumption. reflexivity.
        * reflexivity.
      + unfold ret. eexists; split; [reflexivity|]. split; [|split; [|split; [|split]]].
        * apply (Inv_setb s (add a t) t a b); auto. split; cbn; [assumption|]. split; [assumption|]. left. lia.
        * intros x L. destruct (Nat.eq_dec x a) as [->|NE]; [|apply view_setb; assumption].
          rewrite view_setb_eq by assumption. rewrite (view_at s a b NZ Hb). unfold bview. cbn.
          rewrite !lockn_pos by lia. reflexivity.
        * reflexivity.
        * intros x NE. apply hp_setb_neq. assumption.
        * reflexivity.
  Qed.

  Lemma AddRef_spec : forall s a t l z, Inv s t -> 1 <= t a -> view s a = Some (l, 0, z) -> exists s',
    AddRef a s = Ret s' tt /\ Inv s' (add a t) /\ (forall x, view s' x = view s x) /\ ptr s' = ptr s.
  Proof.
    intros s a t l z I L V. unfold StringModel.AddRef, IsReadOnly. destruct (Nat.eqb_spec a 0) as [->|NZ].
    { exists s. repeat split; auto; [apply I|apply I|]. intros x NX. rewrite add_other by assumption. apply I. assumption. }
    destruct (live _ _ a I NZ L) as (b & Hb & Lb & Sb & R). rewrite (view_at s a b NZ Hb) in V. injection V as <- K <-.
    unfold bind. rewrite (load_nz a s b NZ Hb). destruct (Z.ltb_spec (iref b) 0) as [P|P]; [rewrite lockn_neg in K by assumption; lia|].
    rewrite (store_nz a s b _ NZ Hb). eexists; split; [reflexivity|]. split; [|split].
    - apply (Inv_setb s t (add a t) a b); auto; [intros; apply add_other; assumption|].
      rewrite add_self. split; cbn; [assumption|]. split; [assumption|]. left. lia.
    - intros x. destruct (Nat.eq_dec x a) as [->|NE]; [|apply view_setb; assumption].
      rewrite view_setb_eq by assumption. rewrite (view_at s a b NZ Hb). unfold bview. cbn. rewrite !lockn_pos by lia. reflexivity.
    - reflexivity.
  Qed.

  Lemma load_view : forall s t a l k z, Inv s t -> 1 <= t a -> view s a = Some (l, k, z) ->
    exists b, load a s = Ret s b /\ text b = l /\ size b = length l /\ lockn (iref b) = k /\ stat b = z /\
      length (buf b) = S (cap b) /\ size b <= cap b /\
      ((a = 0 /\ b = empty_blk enc0) \/ (a <> 0 /\ hp s a = Some b /\ blk_ok b (t a))).
  Proof.
    intros s t a l k z I L V. destruct (Nat.eq_dec a 0) as [->|NZ].
    - cbn in V. injection V as <- <- <-. exists (empty_blk enc0). repeat split; auto.
    - destruct (live _ _ a I NZ L) as (b & Hb & Kb). exists b. rewrite (view_at s a b NZ Hb) in V. injection V as <- <- <-.
      pose proof Kb as (Lb & (Cb & Sb) & R). split; [apply load_nz; assumption|]. split; [reflexivity|].
      split; [unfold text; rewrite firstn_length; lia|]. split; [reflexivity|]. split; [reflexivity|]. split; [assumption|]. split; [assumption|].
      right. split; [assumption|]. split; assumption.
  Qed.
  Lemma read_view : forall s t a l k z off n, Inv s t -> 1 <= t a -> view s a = Some (l, k, z) -> off + n <= length l ->
    read a off n s = Ret s (firstn n (skipn off l)).
  Proof.
    intros s t a l k z off n I L V H. destruct (load_view _ _ _ _ _ _ I L V) as (b & E & T & S & _ & _ & Lb & Cb & _).
    unfold StringModel.read, bind. rewrite E. destruct (Nat.leb_spec (off + n) (length (buf b))); [|lia]. unfold ret.
    rewrite <- T. unfold text. rewrite skipn_firstn_comm, firstn_firstn. repeat f_equal. lia.
  Qed.

  Lemma align16_ge : forall n, n <= align16 n.
  Proof.
    intros n. unfold align16. pose proof (Nat.div_mod (n + 15) 16 ltac:(lia)).
    pose proof (Nat.mod_upper_bound (n + 15) 16 ltac:(lia)). lia.
  Qed.
  Lemma fresh_length : forall a n, length (fresh junk a n) = n.
  Proof. intros. unfold fresh. rewrite map_length, seq_length. reflexivity. Qed.

  Lemma Inv_alloc : forall s t b p, Inv s t -> blk_ok b 1 ->
    Inv (mkhs (upd (hp s) (nx s) (Some b)) (S (nx s)) p) (add (nx s) t).
  Proof.
    intros s t b p I K. pose proof (inv_nx _ _ I). pose proof (inv_fresh _ _ I (nx s) (le_n _)) as F.
    pose proof (inv_b _ _ I (nx s) ltac:(lia)) as T. rewrite F in T. constructor; cbn.
    - lia.
    - intros a L. unfold upd. destruct (Nat.eqb_spec a (nx s)); [lia|]. apply I. lia.
    - intros a NZ. unfold upd. destruct (Nat.eqb_spec a (nx s)) as [->|NE].
      + rewrite add_self, T. exact K.
      + rewrite add_other by assumption. apply I. assumption.
  Qed.
  Lemma t_next : forall s t, Inv s t -> t (nx s) = 0.
  Proof.
    intros s t I. pose proof (inv_nx _ _ I). pose proof (inv_b _ _ I (nx s) ltac:(lia)) as T.
    rewrite (inv_fresh _ _ I (nx s) (le_n _)) in T. exact T.
  Qed.
  Lemma view_alloc : forall s b p x, x <> nx s -> view (mkhs (upd (hp s) (nx s) (Some b)) (S (nx s)) p) x = view s x.
  Proof. intros s b p x NE. unfold view. cbn. unfold upd. destruct (Nat.eqb_spec x (nx s)); [contradiction|reflexivity]. Qed.

  Notation Clone := (CloneStringData junk enc0).
  Notation Alloc := (AllocStringData junk enc0).

  (** A writable block held only by the reference in flight. *)
  Lemma write_excl : forall s t a b off l, Inv s (add a t) -> t a = 0 -> a <> 0 -> hp s a = Some b -> off + length l <= S (cap b) ->
    let b' := mkblk (iref b) (cap b) (size b) (blit (buf b) off l) (enc b) in
    write a off l s = Ret (setb s a (Some b')) tt /\ Inv (setb s a (Some b')) (add a t) /\ Same t s (setb s a (Some b')).
  Proof.
    intros s t a b off l I T NZ Hb L b'. pose proof (inv_b _ _ I a NZ) as B. rewrite Hb, add_self, T in B. destruct B as (Lb & Sb & R).
    split; [|split].
    - unfold StringModel.write, bind. rewrite (load_nz a s b NZ Hb), Lb. destruct (Nat.leb_spec (off + length l) (S (cap b))); [|lia].
      apply (store_nz a s b _ NZ Hb).
    - apply (Inv_setb s (add a t) (add a t) a b); auto. rewrite add_self, T. split; cbn; [rewrite blit_length; lia|]. split; [assumption|]. exact R.
    - intros x Lx. apply view_setb. intros ->. lia.
  Qed.

  Lemma Alloc_spec : forall s t oom n, Inv s t ->
    match Alloc oom n s with
    | Ret s' None => n <> 0 /\ oom = true /\ s' = s
    | Ret s' (Some c) =>
        (n = 0 /\ c = 0 /\ s' = s) \/
        (n <> 0 /\ oom = false /\ c = nx s /\ c <> 0 /\ t c = 0 /\ Inv s' (add c t) /\ Same t s s' /\ ptr s' = ptr s /\
         exists b, hp s' c = Some b /\ iref b = 1%Z /\ size b = 0 /\ n <= cap b /\ enc b = enc0 /\ nth 0 (buf b) 1 = 0)
    | _ => False
    end.
  Proof.
    intros s t oom n I. unfold AllocStringData. destruct (Nat.eqb_spec n 0) as [->|NZ]; [auto|].
    destruct oom; [auto|]. right. pose proof (align16_ge (n + 1)) as A. pose proof (inv_nx _ _ I).
    split; [assumption|]. split; [reflexivity|]. split; [reflexivity|]. split; [lia|]. split; [apply t_next; assumption|].
    split; [|split; [|split]].
    - apply Inv_alloc; [assumption|]. split; cbn [buf cap size iref]; [rewrite blit_length; rewrite fresh_length; cbn [length]; lia|]. split; [lia|]. left. lia.
    - intros x L. apply view_alloc. intros ->. rewrite t_next in L by assumption. lia.
    - reflexivity.
    - cbn [hp]. unfold upd. rewrite Nat.eqb_refl. eexists; split; [reflexivity|]. cbn [iref size cap enc buf].
      repeat split; auto; try lia.
  Qed.

  Lemma Clone_spec : forall s t oom a n l k z, Inv s t -> 1 <= t a -> view s a = Some (l, k, z) ->
    match Clone oom a n s with
    | Ret s' None => oom = true /\ s' = s
    | Ret s' (Some c) =>
        (n = 0 /\ l = [] /\ c = 0 /\ s' = s) \/
        (c <> 0 /\ t c = 0 /\ Inv s' (add c t) /\ Same t s s' /\ ptr s' = ptr s /\ oom = false /\
         exists b, hp s' c = Some b /\ iref b = 1%Z /\ size b = 0 /\ n <= cap b /\ length l <= cap b /\ enc b = enc0 /\
           firstn (length l) (buf b) = l /\ nth (length l) (buf b) 1 = 0)
    | _ => False
    end.
  Proof.
    intros s t oom a n l k z I L V. destruct (load_view _ _ _ _ _ _ I L V) as (b & E & T & S & _ & _ & Lb & Cb & _).
    unfold CloneStringData, bind at 1. rewrite E, S. destruct (Nat.eqb_spec (Nat.max n (length l)) 0) as [Z|NZ].
    { unfold ret. left. repeat split; try lia. apply length_zero_iff_nil. lia. }
    unfold bind at 1. pose proof (Alloc_spec s t oom (Nat.max n (length l)) I) as A.
    destruct (Alloc oom (Nat.max n (length l)) s) as [s1 [c|]|s1|]; try contradiction.
    2:{ unfold ret. tauto. }
    destruct A as [(? & _)|(_ & O & -> & NZc & Tc & I1 & S1 & P1 & b1 & H1 & R1 & Z1 & C1 & E1 & N1)]; [contradiction|].
    unfold bind at 1. rewrite (read_view s1 (add (nx s) t) a l k z 0 (length l)); [|assumption|apply add_pos; assumption|rewrite S1 by assumption; assumption|lia].
    cbn [skipn]. rewrite firstn_all.
    pose proof (inv_b _ _ I1 (nx s) NZc) as B1. rewrite H1, add_self, Tc in B1. destruct B1 as (Lb1 & Sb1 & _).
    destruct (write_excl s1 t (nx s) b1 0 l I1 Tc NZc H1 ltac:(lia)) as (E2 & I2 & S2).
    unfold bind at 1. rewrite E2. set (s2 := setb s1 _ _) in *.
    destruct (write_excl s2 t (nx s) _ (length l) [0] I2 Tc NZc (hp_setb _ _ _) ltac:(cbn; lia)) as (E3 & I3 & S3).
    unfold bind at 1. rewrite E3. unfold ret. right. split; [assumption|]. split; [assumption|]. split; [assumption|].
    split; [eapply Same_trans; [exact S1|eapply Same_trans; [exact S2|exact S3]]|]. split; [exact P1|]. split; [assumption|].
    rewrite hp_setb. eexists; split; [reflexivity|]. cbn [iref size cap enc buf].
    assert (LB : length (blit (buf b1) 0 l) = length (buf b1)) by (apply blit_length; lia).
    repeat split; auto; try lia.
    - rewrite blit_before by lia. apply (blit_upto (buf b1) 0 l). lia.
    - apply blit_nth. lia.
  Qed.

  (** ** LockBuffer *)
  Definition Own (t : nat -> nat) (s : hs) (v : list nat * nat * status) : Prop :=
    Inv s (add (ptr s) t) /\ view s (ptr s) = Some v.
  (** Only this object refers to the block [b]. *)
  Definition Excl (t : nat -> nat) (s : hs) (b : blk) : Prop :=
    Inv s (add (ptr s) t) /\ t (ptr s) = 0 /\ ptr s <> 0 /\ hp s (ptr s) = Some b.
  Definition shared (t : nat -> nat) (s : hs) : Prop := ptr s <> 0 /\ 1 <= t (ptr s).

  Lemma Excl_ok : forall t s b, Excl t s b -> blk_ok b 1.
  Proof. intros t s b (I & T & NZ & H). pose proof (inv_b _ _ I _ NZ) as B. rewrite H, add_self, T in B. exact B. Qed.
  Lemma Excl_view : forall t s b, Excl t s b -> view s (ptr s) = Some (bview b).
  Proof. intros t s b (I & T & NZ & H). apply view_at; assumption. Qed.
  Lemma Excl_own : forall t s b, Excl t s b -> Own t s (bview b).
  Proof. intros t s b X. split; [apply X|apply (Excl_view t), X]. Qed.
  Lemma Excl_set : forall t s b b', Excl t s b -> blk_ok b' 1 ->
    store (ptr s) b' s = Ret (setb s (ptr s) (Some b')) tt /\ Excl t (setb s (ptr s) (Some b')) b' /\
    Same t s (setb s (ptr s) (Some b')).
  Proof.
    intros t s b b' (I & T & NZ & H) K. split; [apply (store_nz _ _ b); assumption|]. split.
    - split; [|split; [assumption|split; [assumption|apply hp_setb]]]. cbn [ptr setb].
      apply (Inv_setb s (add (ptr s) t) _ (ptr s) b); auto. rewrite add_self, T. exact K.
    - intros x L. apply view_setb. intros ->. lia.
  Qed.

  Record Raw (t : nat -> nat) (s s' : hs) (l : list nat) (k : nat) (z : status) (n : nat) (b : blk) : Prop := {
    raw_excl : Excl t s' b;
    raw_same : Same t s s';
    raw_lock : (iref b < 0)%Z /\ lockn (iref b) = S k;
    raw_cap : n <= cap b /\ length l <= cap b;
    raw_buf : firstn (length l) (buf b) = l;
    raw_size : (size b = length l /\ (stat b = z \/ stat b = Good) /\ (l = [] \/ ~ shared t s)) \/
               (size b = 0 /\ l <> [] /\ k = 0 /\ shared t s /\ nth (length l) (buf b) 1 = 0)
  }.
  Definition LockPost (t : nat -> nat) (s : hs) (oom : bool) (l : list nat) (k : nat) (z : status) (n : nat) (r : outcome bool) : Prop :=
    match r with
    | Ret s' true =>
        (n = 0 /\ l = [] /\ k = 0 /\ ptr s' = 0 /\ Inv s' (add 0 t) /\ Same t s s') \/ (exists b, Raw t s s' l k z n b)
    | Ret s' false => oom = true /\ s' = s /\ k = 0
    | Exn s' => s' = s /\ 1 <= k /\ length l < n
    | UB => False
    end.

  Lemma Lock_spec : forall t s b, Excl t s b -> (iref b <= 1)%Z ->
    exists b', b' = setref b (if (iref b =? 1)%Z then -1 else iref b - 1)%Z /\
      Lock enc0 (ptr s) s = Ret (setb s (ptr s) (Some b')) tt /\ Excl t (setb s (ptr s) (Some b')) b' /\
      Same t s (setb s (ptr s) (Some b')) /\ lockn (iref b') = S (lockn (iref b)) /\ (iref b' < 0)%Z.
  Proof.
    intros t s b X P. pose proof (Excl_ok _ _ _ X) as (Lb & Sb & R). eexists; split; [reflexivity|].
    set (b' := setref b _).
    assert (K : blk_ok b' 1) by (split; cbn; [assumption|split; [assumption|]]; destruct (Z.eqb_spec (iref b) 1); lia).
    destruct (Excl_set t s b b' X K) as (E & X' & S). destruct X as (I & T & NZ & H).
    split; [|split; [assumption|split; [assumption|]]].
    - unfold Lock, bind. rewrite (load_nz _ _ _ NZ H). destruct (Z.ltb_spec 1 (iref b)); [lia|]. destruct (Z.eqb_spec (iref b) 0); [lia|].
      cbn [orb]. subst b'. destruct (Z.eqb_spec (iref b) 1); exact E.
    - subst b'. cbn. destruct (Z.eqb_spec (iref b) 1) as [E1|E1].
      + rewrite E1. split; [reflexivity|lia].
      + rewrite !lockn_neg by lia. lia.
  Qed.

  Lemma stat_setref : forall b r, stat (setref b r) = stat b. Proof. reflexivity. Qed.

  Notation LockBuffer := (LockBuffer junk enc0).
  Lemma LockBuffer_spec : forall t s oom n l k z, Own t s (l, k, z) -> z <> Open -> LockPost t s oom l k z n (LockBuffer oom n s).
  Proof.
    intros t s oom n l k z [I V] NO. set (a := ptr s) in *.
    assert (La : 1 <= add a t a) by (rewrite add_self; lia).
    destruct (load_view _ _ _ _ _ _ I La V) as (b & E & T & Sz & K & St & Lb & Cb & D).
    unfold StringModel.LockBuffer, this, bind at 1 2. fold a. rewrite E, Sz.
    destruct ((Nat.max n (length l) =? 0) && (cap b =? 0)) eqn:Q.
    { apply andb_prop in Q. destruct Q as [Q1 Q2]. apply Nat.eqb_eq in Q1. apply Nat.eqb_eq in Q2. cbn. left.
      assert (l = []) as -> by (apply length_zero_iff_nil; lia).
      destruct D as [[Za Zb]|(_ & _ & _ & (C1 & _) & _)]; [|lia]. subst b. cbn in K. unfold a in *. rewrite Za in I.
      repeat split; auto using Same_refl; try lia; apply I. }
    unfold bind at 1. destruct (IsShared b) eqn:SH.
    - (* shared: clone *)
      unfold IsShared in SH. apply Z.ltb_lt in SH.
      assert (K0 : k = 0) by (rewrite <- K, lockn_pos by lia; reflexivity). clear K. subst k.
      unfold bind at 1. pose proof (Clone_spec s (add a t) oom a (Nat.max n (length l)) l 0 z I La V) as C.
      destruct (Clone oom a (Nat.max n (length l)) s) as [s1 [c|]|s1|]; try contradiction.
      2:{ cbn. tauto. }
      unfold bind at 1, point at 1. unfold bind at 1. set (s2 := mkhs (hp s1) (nx s1) c).
      destruct C as [(Zn & -> & -> & ->)|(NZc & Tc & I1 & S1 & P1 & O1 & b1 & H1 & R1 & Z1 & C1 & C2 & E1 & F1 & N1)].
      + destruct (Release_spec s2 a (add 0 t)) as (s3 & E3 & I3 & S3 & P3 & H3 & N3).
        { apply (Inv_heap s); [|reflexivity|reflexivity]. apply (Inv_ext s (add a t)); [assumption|].
          intros x NX. unfold add. destruct (Nat.eqb_spec x 0); [contradiction|]. lia. }
        rewrite E3. cbn. left. rewrite P3. split; [lia|]. repeat split; auto; try apply I3.
        intros x L. rewrite S3 by (apply add_pos; assumption). reflexivity.
      + destruct (Release_spec s2 a (add c t)) as (s3 & E3 & I3 & S3 & P3 & H3 & N3).
        { apply (Inv_heap s1); [|reflexivity|reflexivity]. apply (Inv_ext s1 (add c (add a t))); [assumption|]. intros; apply add_swap. }
        rewrite E3. cbn [ret]. unfold ret at 1.
        assert (NE : c <> a) by (intros ->; rewrite add_self in Tc; discriminate).
        assert (Hc : hp s3 c = Some b1) by (rewrite H3 by assumption; exact H1).
        assert (T0 : t c = 0) by (rewrite add_other in Tc by assumption; assumption).
        assert (X3 : Excl t s3 b1) by (unfold Excl; rewrite P3; cbn [ptr s2]; auto).
        destruct (Lock_spec t s3 b1 X3 ltac:(lia)) as (b' & Eb' & E4 & X4 & S4 & K4 & P4).
        unfold IsReadOnly. destruct (Nat.eqb_spec c 0); [contradiction|].
        unfold bind. rewrite P3 in E4. cbn [ptr s2] in E4. rewrite E4. cbn. right. exists b'.
        rewrite P3 in X4, S4. cbn [ptr s2] in X4, S4.
        rewrite R1 in Eb'. cbn in Eb'. subst b'.
        constructor.
        * exact X4.
        * eapply Same_trans; [|exact S4]. intros x L. rewrite S3 by (apply add_pos; assumption).
          change (view s2 x) with (view s1 x). apply S1. apply add_pos. assumption.
        * split; [reflexivity|]. rewrite K4, R1. reflexivity.
        * cbn. lia.
        * exact F1.
        * cbn. destruct l as [|y l].
          -- left. split; [assumption|]. split; [|auto]. right. apply stat_good. cbn. rewrite Z1. exact N1.
          -- right. split; [assumption|]. split; [discriminate|]. split; [reflexivity|]. split; [|exact N1].
             destruct D as [[Za Zb]|(NZa & Ha & (_ & _ & Rb))]; [subst b; cbn in Sz; discriminate|].
             split; [assumption|]. rewrite add_self in Rb. unfold a in *. lia.
    - unfold IsShared in SH. apply Z.ltb_ge in SH.
      destruct D as [[Za Zb]|(NZa & Ha & Kb)]; [subst b; cbn in SH; lia|].
      assert (T0 : t a = 0) by (destruct Kb as (_ & _ & Rb); rewrite add_self in Rb; lia).
      assert (X : Excl t s b) by (unfold Excl; fold a; auto).
      destruct (Nat.ltb_spec (cap b) (Nat.max n (length l))) as [Lc|Lc].
      + destruct (IsLocked b) eqn:LK.
        * unfold IsLocked in LK. apply Z.ltb_lt in LK. cbn. split; [reflexivity|]. rewrite lockn_neg in K by assumption. lia.
        * unfold IsLocked in LK. apply Z.ltb_ge in LK. assert (R1 : iref b = 1%Z) by (destruct Kb as (_ & _ & Rb); lia).
          assert (K0 : k = 0) by (rewrite <- K, lockn_pos by lia; reflexivity).
          unfold bind at 1, ReallocStringData at 1, bind at 1. rewrite E.
          destruct (Nat.leb_spec (Nat.max n (length l)) (cap b)); [lia|].
          destruct oom; [cbn; auto|].
          set (m := Nat.max n (length l)) in *.
          set (c := align16 (Nat.max (cap b + cap b / 2) (m + 1))).
          assert (Lc2 : m + 1 <= c) by (unfold c; pose proof (align16_ge (Nat.max (cap b + cap b / 2) (m + 1))); lia).
          set (b1 := mkblk (iref b) (c - 1) (size b) (buf b ++ fresh junk (nx s) (c - (cap b + 1))) (enc b)).
          unfold bind at 1, point. unfold ret at 1. cbn [hp nx ptr].
          set (s1 := mkhs _ _ _).
          assert (LT : a < nx s) by (apply (live_lt _ _ _ _ I Ha)).
          assert (X1 : Excl t s1 b1).
          { unfold Excl. cbn [ptr s1]. pose proof (t_next s (add a t) I) as TN. rewrite add_other in TN by lia.
            split; [|split; [assumption|split; [lia|]]].
            - apply (Inv_change (mkhs (upd (hp s) (nx s) (Some b1)) (S (nx s)) (nx s)) s1 (add (nx s) (add a t)) (add (nx s) t) a); auto.
              + apply Inv_alloc; [assumption|]. unfold b1. split; cbn [buf cap size iref].
                * rewrite app_length, fresh_length. lia.
                * split; [lia|]. left. lia.
              + cbn. lia.
              + intros x NE. cbn. unfold upd. destruct (Nat.eqb_spec x a); [contradiction|reflexivity].
              + intros x NX NE. unfold add. destruct (Nat.eqb_spec x a); [contradiction|]. lia.
              + cbn. unfold upd. rewrite Nat.eqb_refl. rewrite add_other by lia. assumption.
            - cbn. unfold upd. destruct (Nat.eqb_spec (nx s) a); [lia|]. rewrite Nat.eqb_refl. reflexivity. }
          assert (S1 : Same t s s1).
          { intros x Lx. assert (x <> a) by (intros ->; lia). assert (x <> nx s).
            { intros ->. pose proof (t_next s (add a t) I) as TN. rewrite add_other in TN by lia. lia. }
            unfold view. cbn. unfold upd. destruct (Nat.eqb_spec x a); [contradiction|]. destruct (Nat.eqb_spec x (nx s)); [contradiction|]. reflexivity. }
          destruct (Lock_spec t s1 b1 X1 ltac:(cbn; lia)) as (b' & Eb' & E4 & X4 & S4 & K4 & P4).
          cbn [ptr s1] in E4, X4, S4. unfold IsReadOnly. destruct (Nat.eqb_spec (nx s) 0); [lia|].
          unfold bind. rewrite E4. cbn. right. exists b'. subst b'.
          assert (FB : firstn (length l) (buf b) = l) by (rewrite <- Sz; exact T).
          constructor.
          -- exact X4.
          -- eapply Same_trans; [exact S1|exact S4].
          -- split; [assumption|]. rewrite K4. cbn. rewrite K. reflexivity.
          -- cbn [cap setref b1]. clearbody c. unfold m in *. lia.
          -- cbn. rewrite firstn_app. replace (length l - length (buf b)) with 0 by lia. rewrite firstn_O, app_nil_r. exact FB.
          -- left. split; [exact Sz|]. split; [|right; intros [_ ?]; unfold a in *; lia]. left. rewrite <- St. apply stat_eq; cbn [size buf setref b1]; auto; [rewrite St; assumption| |lia].
             intros y _ Ly. apply app_nth1. assumption.
      + unfold ret at 1. destruct (Lock_spec t s b X SH) as (b' & Eb' & E4 & X4 & S4 & K4 & P4). fold a in E4, X4, S4.
        unfold IsReadOnly. destruct (Nat.eqb_spec a 0); [contradiction|].
        unfold bind. rewrite E4. cbn. right. exists b'. subst b'. constructor.
        * exact X4.
        * exact S4.
        * split; [assumption|]. rewrite K4, K. reflexivity.
        * cbn. lia.
        * cbn. rewrite <- Sz. exact T.
        * left. split; [exact Sz|]. split; [left; exact St|]. right. intros [_ ?]. unfold a in *. lia.
  Qed.

  (** ** The members *)
  Definition Ends (t : nat -> nat) (s s' : hs) (v : list nat * nat * status) : Prop := Own t s' v /\ Same t s s'.
  Lemma Ends_refl : forall t s v, Own t s v -> Ends t s s v.
  Proof. intros t s v O. split; [assumption|apply Same_refl]. Qed.
  Lemma Ends_trans : forall t s s1 s2 v, Same t s s1 -> Ends t s1 s2 v -> Ends t s s2 v.
  Proof. intros t s s1 s2 v S [O S2]. split; [assumption|]. eapply Same_trans; eassumption. Qed.

  Notation UnlockBufferN := (UnlockBufferN enc0).
  Notation UnlockBuffer := (UnlockBuffer enc0).
  Notation Clear := (Clear enc0).
  Notation copy_in := (copy_in enc0).

  Lemma Unlock_spec : forall t s b, Excl t s b -> (iref b < 0)%Z ->
    exists b', b' = setref b (if (iref b =? -1)%Z then 1 else iref b + 1)%Z /\
      Unlock enc0 (ptr s) s = Ret (setb s (ptr s) (Some b')) tt /\ Excl t (setb s (ptr s) (Some b')) b' /\
      Same t s (setb s (ptr s) (Some b')) /\ S (lockn (iref b')) = lockn (iref b).
  Proof.
    intros t s b X P. pose proof (Excl_ok _ _ _ X) as (Lb & Sb & R). eexists; split; [reflexivity|].
    set (b' := setref b _).
    assert (K : blk_ok b' 1) by (split; cbn; [assumption|split; [assumption|]]; destruct (Z.eqb_spec (iref b) (-1)); lia).
    destruct (Excl_set t s b b' X K) as (E & X' & S). destruct X as (I & T & NZ & H).
    split; [|split; [assumption|split; [assumption|]]].
    - unfold Unlock, bind. rewrite (load_nz _ _ _ NZ H). destruct (Z.leb_spec 0 (iref b)); [lia|].
      subst b'. destruct (Z.eqb_spec (iref b) (-1)); exact E.
    - subst b'. cbn. destruct (Z.eqb_spec (iref b) (-1)) as [E1|E1].
      + rewrite E1. reflexivity.
      + rewrite !lockn_neg by lia. lia.
  Qed.

  Lemma UnlockN_spec : forall t s b k n, Excl t s b -> (iref b < 0)%Z -> lockn (iref b) = S k -> n <= cap b ->
    exists s' b', UnlockBufferN n s = Ret s' tt /\ Excl t s' b' /\ Same t s s' /\ bview b' = (firstn n (buf b), k, Good) /\
      ptr s' = ptr s /\ enc b' = enc b /\ cap b' = cap b.
  Proof.
    intros t s b k n X P K L. unfold StringModel.UnlockBufferN, this, bind at 1, IsReadOnly. pose proof X as (I & T & NZ & H).
    pose proof (Excl_ok _ _ _ X) as (Lb & Sb & R).
    destruct (Nat.eqb_spec (ptr s) 0); [contradiction|]. unfold bind at 1. rewrite (load_nz _ _ _ NZ H).
    unfold IsLocked. destruct (Z.ltb_spec (iref b) 0); [|lia]. cbn [negb].
    destruct (Nat.ltb_spec (cap b) n); [lia|].
    set (b1 := mkblk (iref b) (cap b) n (buf b) (enc b)).
    destruct (Excl_set t s b b1 X) as (E1 & X1 & S1); [split; [assumption|split; [cbn; lia|exact R]]|].
    unfold bind at 1. rewrite E1. set (s1 := setb s (ptr s) (Some b1)) in *. change (ptr s) with (ptr s1).
    destruct X1 as (I1 & T1 & NZ1 & Hb1).
    destruct (write_excl s1 t (ptr s1) b1 n [0] I1 T1 NZ1 Hb1 ltac:(cbn; lia)) as (E2 & I2 & S2).
    unfold bind at 1. rewrite E2. set (b2 := mkblk _ _ _ (blit _ _ _) _) in *. set (s2 := setb s1 (ptr s1) (Some b2)) in *.
    assert (X2 : Excl t s2 b2) by (split; [exact I2|split; [exact T1|split; [exact NZ1|apply hp_setb]]]).
    destruct (Unlock_spec t s2 b2 X2 P) as (b3 & Eb3 & E3 & X3 & S3 & K3).
    change (ptr s1) with (ptr s2). rewrite E3. eexists; exists b3. split; [reflexivity|]. split; [exact X3|].
    split; [eapply Same_trans; [exact S1|eapply Same_trans; [exact S2|exact S3]]|].
    split; [|subst b3; repeat split; reflexivity].
    unfold bview. assert (LK : lockn (iref b3) = k) by (cbn [iref b2 b1] in K3; rewrite K in K3; lia). rewrite LK.
    subst b3. unfold text. cbn [size buf setref b2 b1].
    replace (stat _) with Good; [|symmetry; apply stat_good; cbn [size buf setref b2 b1]; apply blit_nth; lia].
    rewrite blit_before by lia. reflexivity.
  Qed.

  Lemma Unlock0_spec : forall t s b k, Excl t s b -> (iref b < 0)%Z -> lockn (iref b) = S k ->
    exists s', UnlockBuffer s = Ret s' tt /\ Ends t s s' (text b, k, stat b).
  Proof.
    intros t s b k X P K. unfold StringModel.UnlockBuffer, this, bind, IsReadOnly. pose proof X as (I & T & NZ & H).
    destruct (Nat.eqb_spec (ptr s) 0); [contradiction|]. destruct (Unlock_spec t s b X P) as (b3 & Eb3 & E3 & X3 & S3 & K3).
    rewrite E3. eexists; split; [reflexivity|]. split; [|exact S3].
    replace (text b, k, stat b) with (bview b3); [apply Excl_own; assumption|].
    unfold bview. assert (LK : lockn (iref b3) = k) by lia. rewrite LK. subst b3. reflexivity.
  Qed.

  Lemma Own_load : forall t s l k z, Own t s (l, k, z) ->
    exists b, load (ptr s) s = Ret s b /\ text b = l /\ size b = length l /\ lockn (iref b) = k /\ stat b = z /\ size b <= cap b /\
      ((ptr s = 0 /\ b = empty_blk enc0) \/
       (ptr s <> 0 /\ t (ptr s) = 0 /\ (iref b <= 1)%Z /\ Excl t s b) \/
       (shared t s /\ (1 < iref b)%Z /\ k = 0)).
  Proof.
    intros t s l k z [I V]. destruct (load_view _ _ _ _ _ _ I (ltac:(rewrite add_self; lia)) V) as (b & E & T & Sz & K & St & Lb & Cb & D).
    exists b. repeat (split; [assumption|]). destruct D as [?|(NZ & H & B)]; [auto|]. right.
    pose proof B as (_ & _ & R). rewrite add_self in R. destruct (Nat.eq_dec (t (ptr s)) 0) as [Z|NZt].
    - left. repeat split; auto; [lia|apply I|apply I|apply I].
    - right. split; [split; [assumption|lia]|]. split; [lia|]. rewrite <- K. apply lockn_pos. lia.
  Qed.
  Lemma Own_pos : forall t s v, Own t s v -> 1 <= add (ptr s) t (ptr s).
  Proof. intros. rewrite add_self. lia. Qed.

  (** Dropping the own reference for another one. *)
  Lemma Attach_spec : forall t s c v, Inv s (add c (add (ptr s) t)) -> view s c = Some v ->
    exists s', Attach enc0 c s = Ret s' tt /\ Ends t s s' v /\ ptr s' = c.
  Proof.
    intros t s c v I V. unfold Attach, this, point, bind. set (s1 := mkhs (hp s) (nx s) c).
    destruct (Release_spec s1 (ptr s) (add c t)) as (s2 & E & I2 & S2 & P2 & _).
    { apply (Inv_heap s); [|reflexivity|reflexivity]. eapply Inv_ext; [exact I|]. intros; apply add_swap. }
    rewrite E. eexists; split; [reflexivity|]. cbn [ptr s1] in P2. split; [|assumption]. split.
    - split; rewrite P2; [assumption|]. rewrite S2 by (rewrite add_self; lia). exact V.
    - intros x L. apply S2, add_pos, L.
  Qed.

  Lemma Clear_spec : forall t s l k z, Own t s (l, k, z) -> exists s', Clear s = Ret s' tt /\ Ends t s s' ([], k, Good).
  Proof.
    intros t s l k z O. destruct (Own_load _ _ _ _ _ O) as (b & E & T & Sz & K & St & Cb & D).
    unfold StringModel.Clear, this, bind at 1 2. rewrite E. unfold IsShared.
    destruct D as [[Z B]|[(NZ & T0 & R & X)|(SH & R & K0)]].
    - subst b. change (1 <? iref (empty_blk enc0))%Z with true. cbn iota.
      unfold bind, point. rewrite Z. cbn. eexists; split; [reflexivity|]. destruct O as [I V]. rewrite Z in *. cbn in V.
      injection V as <- <- <-. split; [|intros x _; reflexivity]. split; [|reflexivity].
      apply (Inv_heap s); [assumption|reflexivity|reflexivity].
    - destruct (Z.ltb_spec 1 (iref b)); [lia|]. destruct X as (I & T1 & NZ1 & Hb).
      pose proof (Excl_ok t s b (conj I (conj T1 (conj NZ1 Hb)))) as (Lb & Sb & Rb).
      destruct (write_excl s t (ptr s) b 0 [0] I T0 NZ Hb ltac:(cbn; lia)) as (E2 & I2 & S2).
      unfold bind at 1. rewrite E2. set (b2 := mkblk _ _ _ (blit _ _ _) _) in *. set (s2 := setb s (ptr s) (Some b2)) in *.
      assert (X2 : Excl t s2 b2) by (split; [exact I2|split; [exact T0|split; [exact NZ|apply hp_setb]]]).
      unfold bind. rewrite (load_nz (ptr s) s2 b2 NZ (hp_setb _ _ _)). change (ptr s) with (ptr s2).
      set (b3 := mkblk (iref b2) (cap b2) 0 (buf b2) (enc b2)).
      destruct (Excl_set t s2 b2 b3 X2) as (E3 & X3 & S3); [split; [cbn [buf cap b3 b2]; rewrite blit_length; cbn [length]; lia|split; [cbn; lia|exact Rb]]|].
      rewrite E3. eexists; split; [reflexivity|]. split; [|eapply Same_trans; [exact S2|exact S3]].
      replace ([], k, Good) with (bview b3); [apply Excl_own; assumption|]. unfold bview. subst k. repeat f_equal.
    - destruct (Z.ltb_spec 1 (iref b)); [|lia].
      destruct (Attach_spec t s 0 ([], 0, Good)) as (s' & E' & N' & _); [|reflexivity|].
      { destruct O as [I _]. eapply Inv_ext; [exact I|]. intros x NX. rewrite (add_other 0) by assumption. reflexivity. }
      unfold Attach, this, bind at 1 in E'. rewrite E'. exists s'. split; [reflexivity|]. rewrite K0. exact N'.
  Qed.

  (** What a source of characters provides, as long as others hold its block. *)
  Definition srcv (t : nat -> nat) (s : hs) (x : src) (l : list nat) : Prop :=
    match x with
    | Lit l0 => l = l0
    | At p off n => 1 <= t p /\ exists lp kp zp, view s p = Some (lp, kp, zp) /\ off + n <= length lp /\ l = firstn n (skipn off lp)
    end.
  Lemma srcv_len : forall t s x l, srcv t s x l -> src_len x = length l.
  Proof.
    intros t s [l0|p off n] l; cbn; [intros ->; reflexivity|]. intros (_ & lp & kp & zp & _ & L & ->).
    rewrite firstn_length, skipn_length. lia.
  Qed.
  Lemma srcv_same : forall t s s' x l, srcv t s x l -> Same t s s' -> srcv t s' x l.
  Proof.
    intros t s s' [l0|p off n] l; cbn; [auto|]. intros (T & lp & kp & zp & V & R) S. split; [assumption|]. exists lp, kp, zp.
    rewrite S by assumption. auto.
  Qed.
  Lemma copy_in_spec : forall t s b x l d, Excl t s b -> srcv t s x l -> d + length l <= S (cap b) ->
    let b' := mkblk (iref b) (cap b) (size b) (blit (buf b) d l) (enc b) in
    let s' := setb s (ptr s) (Some b') in
    copy_in (ptr s) d x s = Ret s' tt /\ Excl t s' b' /\ Same t s s'.
  Proof.
    intros t s b x l d X V L b' s'. pose proof X as (I & T & NZ & H).
    destruct (write_excl s t (ptr s) b d l I T NZ H L) as (E & I' & S').
    split; [|split; [|exact S']].
    - destruct x as [l0|p off n]; cbn in V.
      + subst l0. exact E.
      + destruct V as (Tp & lp & kp & zp & Vp & Lp & ->). unfold StringModel.copy_in.
        destruct (Nat.eqb_spec p (ptr s)) as [->|NE]; [lia|]. cbn [andb].
        unfold bind. rewrite (read_view s (add (ptr s) t) p lp kp zp off n); auto using add_pos.
    - split; [exact I'|split; [exact T|split; [exact NZ|apply hp_setb]]].
  Qed.

  Notation SetString := (SetString junk enc0).
  Notation Append := (Append junk enc0).
  Notation SetStringCopy := (SetStringCopy junk enc0).

  (** LockBuffer, copy to position [d], UnlockBuffer: [d] is not beyond the text. *)
  Lemma fill_spec : forall t s s1 b l0 k z n d x l, Raw t s s1 l0 k z n b -> srcv t s x l -> d <= length l0 -> d + length l <= n ->
    exists s' b', (copy_in (ptr s1) d x ;;; UnlockBufferN (d + length l) ;;; ret S_OK) s1 = Ret s' S_OK /\
      Ends t s s' (firstn d l0 ++ l, k, Good) /\ Excl t s' b' /\ enc b' = enc b /\ bview b' = (firstn d l0 ++ l, k, Good).
  Proof.
    intros t s s1 b l0 k z n d x l RW V D1 D2. destruct RW as [X S [P K] [C1 C2] FB _].
    pose proof (Excl_ok _ _ _ X) as (Lb & _).
    destruct (copy_in_spec t s1 b x l d X (srcv_same _ _ _ _ _ V S) ltac:(lia)) as (E & X2 & S2).
    unfold bind at 1. rewrite E. set (b2 := mkblk _ _ _ (blit _ _ _) _) in *. set (s2 := setb s1 (ptr s1) (Some b2)) in *.
    destruct (UnlockN_spec t s2 b2 k (d + length l) X2 P K ltac:(cbn; lia)) as (s3 & b3 & E3 & X3 & S3 & B3 & _ & En & _).
    unfold bind. rewrite E3. unfold ret. exists s3, b3. split; [reflexivity|].
    assert (BV : bview b3 = (firstn d l0 ++ l, k, Good)).
    { rewrite B3. cbn [buf b2]. rewrite blit_upto by lia. rewrite <- FB, firstn_firstn. repeat f_equal. lia. }
    split; [|split; [assumption|split; [exact En|exact BV]]]. rewrite <- BV.
    split; [apply Excl_own; assumption|]. eapply Same_trans; [exact S|eapply Same_trans; [exact S2|exact S3]].
  Qed.

  Lemma SetString_spec : forall t s oom l0 k z x l, Own t s (l0, k, z) -> srcv t s x l ->
    match SetString oom x s with
    | Ret s' S_OK => Ends t s s' (l, k, Good)
    | Ret s' E_OUTOFMEMORY => oom = true /\ k = 0 /\ Ends t s s' ([], k, Good)
    | Exn s' => 1 <= k /\ Ends t s s' ([], k, Good)
    | _ => False
    end.
  Proof.
    intros t s oom l0 k z x l O V. unfold StringModel.SetString, bind at 1.
    destruct (Clear_spec t s l0 k z O) as (s1 & E1 & O1 & S1). rewrite E1. rewrite (srcv_len _ _ _ _ V).
    pose proof (srcv_same _ _ _ _ _ V S1) as V1.
    destruct (Nat.eqb_spec (length l) 0) as [Z|NZ].
    { cbn. apply length_zero_iff_nil in Z. subst l. split; assumption. }
    unfold bind at 1. pose proof (LockBuffer_spec t s1 oom (length l) [] k Good O1 ltac:(discriminate)) as LP. unfold LockPost in LP.
    destruct (LockBuffer oom (length l) s1) as [s2 []|s2|]; [| | |contradiction].
    - destruct LP as [(? & _)|(b & RW)]; [contradiction|]. cbn [negb]. unfold this, bind at 1.
      destruct (fill_spec t s1 s2 b [] k Good (length l) 0 x l RW V1 (Nat.le_0_l _) (le_n _)) as (s3 & b' & E3 & N3 & _).
      cbn [firstn app] in N3. cbn [Nat.add] in E3. rewrite E3. eapply Ends_trans; [exact S1|exact N3].
    - destruct LP as (-> & -> & ->). cbn. split; [reflexivity|]. split; [reflexivity|]. split; assumption.
    - destruct LP as (-> & K & _). split; [assumption|]. split; assumption.
  Qed.

  Lemma Append_spec : forall t s oom l0 k z x l, Own t s (l0, k, z) -> z <> Open -> srcv t s x l ->
    match Append oom x s with
    | Ret s' S_OK => (l = [] /\ s' = s) \/ (l <> [] /\ Ends t s s' (l0 ++ l, k, Good))
    | Ret s' E_OUTOFMEMORY => oom = true /\ k = 0 /\ s' = s
    | Exn s' => 1 <= k /\ s' = s
    | _ => False
    end.
  Proof.
    intros t s oom l0 k z x l O NO V. unfold StringModel.Append. rewrite (srcv_len _ _ _ _ V).
    destruct (Nat.eqb_spec (length l) 0) as [Z|NZ].
    { cbn. left. split; [|reflexivity]. apply length_zero_iff_nil. assumption. }
    destruct (Own_load _ _ _ _ _ O) as (b0 & E & T & Sz & K & St & Cb & _).
    unfold this, bind at 1 2. rewrite E, Sz. unfold bind at 1.
    pose proof (LockBuffer_spec t s oom (length l0 + length l) l0 k z O NO) as LP. unfold LockPost in LP.
    destruct (LockBuffer oom (length l0 + length l) s) as [s2 []|s2|]; [| | |contradiction].
    - destruct LP as [(? & _)|(b & RW)]; [lia|]. cbn [negb]. unfold bind at 1.
      destruct (fill_spec t s s2 b l0 k z _ (length l0) x l RW V (le_n _) (le_n _)) as (s3 & b' & E3 & N3 & _).
      rewrite E3. right. split; [intros ->; apply NZ; reflexivity|]. rewrite firstn_all in N3. exact N3.
    - destruct LP as (-> & -> & ->). cbn. auto.
    - destruct LP as (-> & K1 & _). auto.
  Qed.

  Lemma SetStringCopy_spec : forall t s oom c l0 k z l m y, Own t s (l0, k, z) -> 1 <= add (ptr s) t c -> view s c = Some (l, m, y) ->
    match SetStringCopy oom c s with
    | Ret s' S_OK => (c = ptr s /\ s' = s) \/
                     (c <> ptr s /\ m = 0 /\ Ends t s s' (l, 0, y)) \/ (c <> ptr s /\ 1 <= m /\ Ends t s s' (l, k, Good))
    | Ret s' E_OUTOFMEMORY => 1 <= m /\ oom = true /\ k = 0 /\ Ends t s s' ([], k, Good)
    | Exn s' => 1 <= m /\ 1 <= k /\ Ends t s s' ([], k, Good)
    | _ => False
    end.
  Proof.
    intros t s oom c l0 k z l m y O Lc V. unfold StringModel.SetStringCopy, this, bind at 1.
    destruct (Nat.eqb_spec (ptr s) c) as [<-|NE]; [cbn; auto|].
    rewrite add_other in Lc by auto. pose proof O as [I _].
    destruct (load_view s (add (ptr s) t) c l m y I (add_pos _ _ _ Lc) V) as (b & E & T & Sz & K & St & Lb & Cb & D).
    unfold bind at 1. rewrite E. unfold IsLocked. destruct (Z.ltb_spec (iref b) 0) as [P|P].
    - pose proof (lockn_neg _ P) as Kn. rewrite Sz.
      pose proof (SetString_spec t s oom l0 k z (At c 0 (length l)) l O) as SS. cbn [srcv] in SS.
      specialize (SS ltac:(split; [assumption|]; exists l, m, y; rewrite skipn_O, firstn_all; auto)).
      assert (1 <= m) by lia.
      destruct (SetString oom (At c 0 (length l)) s) as [s' []|s'|]; try contradiction; intuition.
    - assert (m = 0) by (rewrite <- K; apply lockn_pos; lia). subst m.
      destruct (AddRef_spec s c (add (ptr s) t) l y I (add_pos _ _ _ Lc)) as (s1 & E1 & I1 & V1 & P1); [rewrite V; f_equal; f_equal; f_equal; assumption|].
      unfold bind at 1. rewrite E1. unfold bind at 1.
      destruct (Attach_spec t s1 c (l, 0, y)) as (s2 & E2 & [O2 S2] & _).
      { rewrite P1. exact I1. } { rewrite V1, V. f_equal. f_equal. f_equal. assumption. }
      rewrite E2. cbn. right. left. split; [auto|]. split; [assumption|]. split; [exact O2|].
      intros x L. rewrite S2 by assumption. apply V1.
  Qed.
End Proofs.
