(** Lemmas about SooModel.v: each member function does what its specification on a list with a
    capacity and a lock count says. *)
From Coq Require Import Arith ZArith Lia Bool List Permutation.
From Verif Require Import Slots SlotsProofs MoveModel MoveThms SooModel.
Import ListNotations.

Section Proofs.
  Variable V : Type.
  Variable dflt : V.
  Variable moved : V -> V.
  Variable trivial : bool.
  Variable qs : list V -> list V.
  Hypothesis qs_perm : forall l, Permutation (qs l) l.
  Variable icap : nat.

  Notation hs := (hs V).
  Notation hp := (hp V).
  Notation nx := (nx V).
  Notation me := (me V).
  Notation Ret := (Ret V _).
  Notation Exn := (Exn V _).
  Notation Abort := (Abort V _).
  Notation Err := (Err V _).
  Notation bind := (bind V).
  Notation Small := (Small V).
  Notation Large := (Large V).

  (** ** Cells *)
  Definition full (l : list V) (c : nat) : cells V := map Some l ++ repeat None (c - length l).
  Lemma full_length : forall l c, length l <= c -> length (full l c) = c.
  Proof. intros. unfold full. rewrite app_length, map_length, repeat_length. lia. Qed.
  Lemma forallb_live : forall l, forallb (live V) (map Some l) = true.
  Proof. induction l; cbn; auto. Qed.
  Lemma forallb_raw : forall n, forallb (raw V) (repeat None n) = true.
  Proof. induction n; cbn; auto. Qed.
  Lemma values_some : forall l, values V (map Some l) = l.
  Proof. induction l as [|x l IH]; cbn; [reflexivity|]. unfold values in IH. rewrite IH. reflexivity. Qed.
  Lemma firstn_repeat : forall A (x : A) n m, firstn n (repeat x m) = repeat x (Nat.min n m).
  Proof. induction n as [|n IH]; intros [|m]; cbn; try reflexivity. rewrite IH. reflexivity. Qed.
  Lemma skipn_repeat : forall A (x : A) n m, skipn n (repeat x m) = repeat x (m - n).
  Proof. induction n as [|n IH]; intros [|m]; cbn; try reflexivity. apply IH. Qed.
  Lemma full_firstn : forall l c n, n <= length l -> firstn n (full l c) = map Some (firstn n l).
  Proof.
    intros. unfold full. rewrite firstn_app, map_length. replace (n - length l) with 0 by lia. rewrite app_nil_r.
    rewrite firstn_map. reflexivity.
  Qed.
  Lemma full_skipn : forall l c n, n <= length l -> skipn n (full l c) = full (skipn n l) (c - n).
  Proof.
    intros. unfold full. rewrite skipn_app, map_length, skipn_map. replace (n - length l) with 0 by lia. cbn [skipn].
    rewrite skipn_length. do 2 f_equal; lia.
  Qed.
  Lemma full_skipn_all : forall l c n, length l <= n -> skipn n (full l c) = repeat None (c - n).
  Proof.
    intros. unfold full. rewrite skipn_app, map_length, skipn_all2 by (rewrite map_length; lia).
    rewrite skipn_repeat. cbn. f_equal. lia.
  Qed.
  Lemma region_live : forall l c off n, length l <= c -> off + n <= length l -> region V (live V) (full l c) off n = true.
  Proof.
    intros. unfold region. rewrite full_length by assumption. rewrite full_skipn by lia.
    rewrite full_firstn by (rewrite skipn_length; lia). rewrite forallb_live. destruct (Nat.leb_spec (off + n) c); [reflexivity|lia].
  Qed.
  Lemma region_raw : forall l c off n, length l <= c -> length l <= off -> off + n <= c -> region V (raw V) (full l c) off n = true.
  Proof.
    intros. unfold region. rewrite full_length by assumption. rewrite full_skipn_all by lia.
    rewrite firstn_repeat, forallb_raw. destruct (Nat.leb_spec (off + n) c); [reflexivity|lia].
  Qed.
  Lemma blit_construct : forall l c x, length l + length x <= c -> blit V (full l c) (length l) (map Some x) = full (l ++ x) c.
  Proof.
    intros. unfold blit. rewrite map_length. rewrite full_firstn, firstn_all by lia. rewrite full_skipn_all by lia.
    unfold full. rewrite map_app, app_length, <- app_assoc. do 3 f_equal; lia.
  Qed.
  Lemma blit_destroy : forall l c off n, length l <= c -> off + n = length l -> blit V (full l c) off (repeat None n) = full (firstn off l) c.
  Proof.
    intros. unfold blit. rewrite repeat_length, full_firstn by lia. rewrite full_skipn_all by lia. unfold full.
    rewrite <- repeat_app. do 2 f_equal. rewrite firstn_length. lia.
  Qed.
  Definition over (l : list V) (off : nat) (x : list V) : list V := firstn off l ++ x ++ skipn (off + length x) l.
  Lemma over_length : forall l off x, off + length x <= length l -> length (over l off x) = length l.
  Proof. intros. unfold over. rewrite !app_length, firstn_length, skipn_length. lia. Qed.
  Lemma blit_assign : forall l c off x, length l <= c -> off + length x <= length l -> blit V (full l c) off (map Some x) = full (over l off x) c.
  Proof.
    intros. unfold blit. rewrite map_length, full_firstn, full_skipn by lia. unfold full.
    rewrite over_length by assumption. unfold over. rewrite !map_app, skipn_length, <- !app_assoc.
    do 4 f_equal; lia.
  Qed.

  (** ** The abstract object: elements that are alive, uSize, capacity, locks *)
  Record aobj := AO { its : list V; sz : nat; room : nat; lk : nat }.
  Definition Rep (s : hs) (o : aobj) : Prop :=
    length (its o) <= room o /\
    match me s with
    | SooModel.Small _ k n c => k = lk o /\ n = sz o /\ room o = icap /\ c = full (its o) icap
    | SooModel.Large _ a n cp k => n = sz o /\ cp = room o /\ k = lk o /\ icap < cp /\ a < nx s /\ hp s a = Some (full (its o) cp)
    end.
  Definition own (h : hdr V) : option nat := match h with SooModel.Small _ _ _ _ => None | SooModel.Large _ a _ _ _ => Some a end.
  Definition Frame (s s' : hs) : Prop :=
    nx s <= nx s' /\
    (forall x, x < nx s -> own (me s) <> Some x -> hp s' x = hp s x /\ own (me s') <> Some x) /\
    (forall x, nx s <= x \/ own (me s) = Some x -> hp s' x <> None -> own (me s') = Some x).
  Definition Wf (s : hs) : Prop := forall x, nx s <= x -> hp s x = None.
  Lemma Frame_refl : forall s, Wf s -> Frame s s.
  Proof. intros s W. split; [lia|]. split; [auto|]. intros x [L|L] N; [|assumption]. destruct N. apply W. assumption. Qed.
  Lemma Frame_trans : forall a b c, Frame a b -> Frame b c -> Frame a c.
  Proof.
    intros a b c (A1 & A2 & A3) (B1 & B2 & B3). split; [lia|]. split.
    - intros x L N. destruct (A2 x L N) as [E N2]. destruct (B2 x ltac:(lia) N2) as [E2 N3]. split; [congruence|assumption].
    - intros x H N. destruct (Nat.le_gt_cases (nx b) x) as [G|G]; [apply B3; auto|].
      destruct (own (me b)) as [y|] eqn:OB; [destruct (Nat.eq_dec y x) as [->|NE]; [apply B3; auto|]|].
      + destruct (B2 x G ltac:(congruence)) as [E _]. rewrite E in N. specialize (A3 x H N). congruence.
      + destruct (B2 x G ltac:(congruence)) as [E _]. rewrite E in N. specialize (A3 x H N). congruence.
  Qed.

  Inductive ares (A : Type) := ARet (o : aobj) (a : A) | AExn (o : aobj) | AAbort.
  Arguments ARet {A}. Arguments AExn {A}. Arguments AAbort {A}.
  Definition Sim {A} (f : M V A) (s : hs) (r : ares A) : Prop :=
    match f s, r with
    | SooModel.Ret _ _ s' a, ARet o' a' => a = a' /\ Rep s' o' /\ Wf s' /\ Frame s s'
    | SooModel.Exn _ _ s', AExn o' => Rep s' o' /\ Wf s' /\ Frame s s'
    | SooModel.Abort _ _, AAbort => True
    | _, _ => False
    end.
  Lemma Sim_bind : forall A B (x : M V A) (f : A -> M V B) s o1 a r, Sim x s (ARet o1 a) ->
    (forall s1, Rep s1 o1 -> Wf s1 -> Sim (f a) s1 r) -> Sim (bind x f) s r.
  Proof.
    intros A B x f s o1 a r H G. unfold Sim, SooModel.bind in *. destruct (x s) as [s1 a1|s1| |]; try contradiction.
    destruct H as (-> & R1 & W1 & F1). specialize (G s1 R1 W1). destruct (f a s1) as [s2 b|s2| |]; destruct r; try contradiction; auto.
    - destruct G as (-> & R2 & W2 & F2). split; [reflexivity|]. split; [assumption|]. split; [assumption|]. eapply Frame_trans; eassumption.
    - destruct G as (R2 & W2 & F2). split; [assumption|]. split; [assumption|]. eapply Frame_trans; eassumption.
  Qed.
  Lemma Sim_ret : forall A s o (a : A), Rep s o -> Wf s -> Sim (ret V a) s (ARet o a).
  Proof. intros. cbn. auto using Frame_refl. Qed.
  Lemma Sim_throw : forall A s o, Rep s o -> Wf s -> Sim (throw V (A:=A)) s (AExn o).
  Proof. intros. cbn. auto using Frame_refl. Qed.
  Lemma Sim_bind_exn : forall A B (x : M V A) (f : A -> M V B) s o, Sim x s (AExn o) -> Sim (bind x f) s (AExn o).
  Proof. intros A B x f s o H. unfold Sim, SooModel.bind in *. destruct (x s); try contradiction. assumption. Qed.
  Lemma Sim_assoc : forall A B C (x : M V A) (f : A -> M V B) (g : B -> M V C) s r,
    Sim (bind x (fun a => bind (f a) g)) s r -> Sim (bind (bind x f) g) s r.
  Proof. intros A B C x f g s r. unfold Sim, SooModel.bind. destruct (x s); auto. Qed.

  (** Header fields. *)
  Lemma GetSize_sim : forall s o, Rep s o -> Wf s -> Sim (GetSize V) s (ARet o (sz o)).
  Proof.
    intros s o R W. unfold Sim, GetSize. split; [|auto using Frame_refl]. destruct R as [_ R]. destruct (me s); intuition.
  Qed.
  Lemma GetLockedCount_sim : forall s o, Rep s o -> Wf s -> Sim (GetLockedCount V) s (ARet o (lk o)).
  Proof. intros s o R W. unfold Sim, GetLockedCount. split; [|auto using Frame_refl]. destruct R as [_ R]. destruct (me s); intuition. Qed.
  Lemma GetCapacity_sim : forall s o, Rep s o -> Wf s -> Sim (GetCapacity V icap) s (ARet o (room o)).
  Proof.
    intros s o R W. unfold Sim, GetCapacity. split; [|auto using Frame_refl]. destruct R as [_ R]. destruct (me s); [destruct R as (_ & _ & -> & _); reflexivity|].
    destruct R as (_ & -> & _). reflexivity.
  Qed.
  Lemma Frame_hdr : forall s h, Wf s -> own h = own (me s) -> Frame s (mkhs V (hp s) (nx s) h).
  Proof.
    intros s h W E. split; [cbn; lia|]. cbn. rewrite E. split; [auto|]. intros x [L|L] N; [|assumption]. destruct N. apply W. assumption.
  Qed.
  Lemma SetSize_sim : forall s o n, Rep s o -> Wf s -> Sim (SetSize V n) s (ARet (AO (its o) n (room o) (lk o)) tt).
  Proof.
    intros s o n R W. unfold Sim, SetSize. split; [reflexivity|]. split; [|split; [assumption|]].
    - destruct R as [L R]. split; [assumption|]. cbn. destruct (me s); cbn; intuition.
    - apply Frame_hdr; [assumption|]. destruct (me s); reflexivity.
  Qed.
  Lemma SetLocks_sim : forall s o n, Rep s o -> Wf s -> Sim (SetLocks V n) s (ARet (AO (its o) (sz o) (room o) n) tt).
  Proof.
    intros s o n R W. unfold Sim, SetLocks. split; [reflexivity|]. split; [|split; [assumption|]].
    - destruct R as [L R]. split; [assumption|]. cbn. destruct (me s); cbn; intuition.
    - apply Frame_hdr; [assumption|]. destruct (me s); reflexivity.
  Qed.
  Lemma Lock_sim : forall s o, Rep s o -> Wf s -> Sim (Lock V) s (ARet (AO (its o) (sz o) (room o) (S (lk o))) tt).
  Proof.
    intros s o R W. unfold Lock. eapply Sim_bind; [apply GetLockedCount_sim; eassumption|]. intros s1 R1 W1.
    apply SetLocks_sim; assumption.
  Qed.
  Lemma Unlock_sim : forall s l n r k, Rep s (AO l n r (S k)) -> Wf s -> Sim (Unlock V) s (ARet (AO l n r k) tt).
  Proof.
    intros s l n r k R W. unfold Unlock. eapply Sim_bind; [apply GetLockedCount_sim; eassumption|]. intros s1 R1 W1. cbn [lk].
    apply (SetLocks_sim s1 _ k R1 W1).
  Qed.

  (** Cells. *)
  Lemma storage_ok : forall s o, Rep s o -> storage V s = Ret s (full (its o) (room o)).
  Proof.
    intros s o [L R]. unfold storage. destruct (me s).
    - destruct R as (_ & _ & -> & ->). reflexivity.
    - destruct R as (_ & -> & _ & _ & _ & ->). reflexivity.
  Qed.
  Lemma put_storage_sim : forall s o l, Rep s o -> Wf s -> length l <= room o ->
    Sim (put_storage V (full l (room o))) s (ARet (AO l (sz o) (room o) (lk o)) tt).
  Proof.
    intros s o l [L R] W LL. unfold Sim, put_storage. destruct (me s) as [k n c|a n cp k] eqn:M.
    - destruct R as (-> & -> & E & ->). split; [reflexivity|]. split; [|split; [assumption|]].
      + split; [cbn; lia|]. cbn. rewrite E. auto.
      + apply Frame_hdr; [assumption|]. rewrite M. reflexivity.
    - destruct R as (-> & -> & -> & C & A & H). rewrite H. split; [reflexivity|]. split; [|split].
      + split; [cbn; lia|]. cbn. repeat split; auto. unfold upd. rewrite Nat.eqb_refl. reflexivity.
      + intros x G. cbn in *. unfold upd. destruct (Nat.eqb_spec x a); [lia|]. apply W. assumption.
      + split; [cbn; lia|]. cbn. rewrite M. cbn. split.
        * intros x G N. unfold upd. destruct (Nat.eqb_spec x a); [subst; congruence|auto].
        * intros x [G|G] N; [|assumption]. unfold upd in N. destruct (Nat.eqb_spec x a); [lia|]. destruct N. apply W. assumption.
  Qed.
  Lemma construct_sim : forall s o off l, Rep s o -> Wf s -> off = length (its o) -> off + length l <= room o ->
    Sim (construct V off l) s (ARet (AO (its o ++ l) (sz o) (room o) (lk o)) tt).
  Proof.
    intros s o off l R W -> L. unfold construct. unfold SooModel.bind, Sim. rewrite (storage_ok s o R).
    pose proof (proj1 R) as LR. rewrite region_raw by lia. rewrite blit_construct by assumption.
    apply put_storage_sim; [assumption|assumption|]. rewrite app_length. assumption.
  Qed.
  Lemma destroy_sim : forall s o off n, Rep s o -> Wf s -> off + n = length (its o) ->
    Sim (destroy V off n) s (ARet (AO (firstn off (its o)) (sz o) (room o) (lk o)) tt).
  Proof.
    intros s o off n R W L. unfold destroy. unfold SooModel.bind, Sim. rewrite (storage_ok s o R).
    pose proof (proj1 R) as LR. rewrite region_live by lia. rewrite blit_destroy by lia.
    apply put_storage_sim; [assumption|assumption|]. rewrite firstn_length. lia.
  Qed.
  Lemma assign_sim : forall s o off l, Rep s o -> Wf s -> off + length l <= length (its o) ->
    Sim (assign V off l) s (ARet (AO (over (its o) off l) (sz o) (room o) (lk o)) tt).
  Proof.
    intros s o off l R W L. unfold assign. unfold SooModel.bind, Sim. rewrite (storage_ok s o R).
    pose proof (proj1 R) as LR. rewrite region_live by lia. rewrite blit_assign by lia.
    apply put_storage_sim; [assumption|assumption|]. rewrite over_length; lia.
  Qed.
  Lemma read_sim : forall s o n, Rep s o -> Wf s -> n = length (its o) -> Sim (read V 0 n) s (ARet o (its o)).
  Proof.
    intros s o n R W ->. unfold read. unfold SooModel.bind, Sim. rewrite (storage_ok s o R).
    pose proof (proj1 R) as LR. rewrite region_live by lia. cbn [skipn]. rewrite full_firstn, firstn_all, values_some by lia.
    cbn. auto using Frame_refl.
  Qed.
  Lemma over_all : forall l x, length x = length l -> over l 0 x = x.
  Proof. intros. unfold over. rewrite H. cbn. rewrite skipn_all. apply app_nil_r. Qed.

  (** ** Realloc *)
  Definition grow (oom : bool) (n : nat) (o : aobj) : code * aobj :=
    if n <=? room o then (S_OK, o)
    else if 0 <? lk o then (E_INVALIDARG, o)
    else if oom then (E_OUTOFMEMORY, o)
    else (S_OK, AO (its o) (sz o) n 0).
  Lemma forallb_raw_full : forall c, forallb (raw V) (full [] c) = true.
  Proof. intros. unfold full. cbn. apply forallb_raw. Qed.
  Lemma Realloc_sim : forall s o oom n, Rep s o -> Wf s -> sz o = length (its o) ->
    Sim (Realloc V trivial icap oom n) s (let '(c, o') := grow oom n o in ARet o' c).
  Proof.
    intros s o oom n R W Z. unfold Realloc, grow.
    eapply Sim_bind; [apply GetCapacity_sim; eassumption|]. clear s R W. intros s R W.
    destruct (Nat.leb_spec n (room o)) as [|G]; [apply Sim_ret; assumption|].
    eapply Sim_bind; [apply GetLockedCount_sim; eassumption|]. clear s R W. intros s R W.
    destruct (lk o) as [|k] eqn:K; cbn [Nat.ltb Nat.leb]; [|apply Sim_ret; assumption].
    eapply Sim_bind; [apply GetSize_sim; eassumption|]. clear s R W. intros s R W.
    pose proof (proj1 R) as LR. pose proof R as R0.
    assert (CI : forall a h (hp0 : nat -> option (cells V)) nx0, construct_in V a (its o) (mkhs V (upd hp0 a (Some (repeat None n))) nx0 h) =
                   Ret (mkhs V (upd (upd hp0 a (Some (repeat None n))) a (Some (full (its o) n))) nx0 h) tt).
    { intros a h hp0 nx0. unfold construct_in. cbn [SooModel.hp SooModel.nx SooModel.me]. unfold upd at 1. rewrite Nat.eqb_refl.
      replace (repeat None n) with (full [] n) by (unfold full; cbn; f_equal; lia).
      rewrite region_raw by (cbn; lia). replace (blit V (full [] n) 0 (map Some (its o))) with (full (its o) n); [reflexivity|].
      symmetry. apply (blit_construct [] n (its o)). cbn. lia. }
    unfold Sim, SooModel.bind at 1, IsSmall. destruct (me s) as [k n0 c|a n0 cp k] eqn:M.
    - destruct R as [_ R]. rewrite M in R. destruct R as (-> & -> & E & ->). rewrite K in *.
      unfold SooModel.bind, Alloc. destruct oom; [exact (Sim_ret _ s o _ R0 W)|].
      unfold read, SooModel.bind, storage. cbn [SooModel.me]. rewrite M. rewrite Z, region_live by lia. cbn [skipn].
      rewrite full_firstn, firstn_all, values_some by lia. cbn [ret SooModel.ret]. rewrite CI.
      unfold destroy, SooModel.bind, storage. cbn [SooModel.me SooModel.hp SooModel.nx]. rewrite region_live by lia.
      rewrite blit_destroy by lia. cbn [firstn]. unfold put_storage. cbn [SooModel.me SooModel.hp SooModel.nx].
      unfold become. cbn [SooModel.me SooModel.hp SooModel.nx]. rewrite forallb_raw_full. cbn [ret SooModel.ret].
      split; [reflexivity|]. split; [|split].
      + split; [cbn; lia|]. cbn [SooModel.me SooModel.hp SooModel.nx its room lk sz]. repeat split; auto; try lia. unfold upd. rewrite Nat.eqb_refl. reflexivity.
      + intros x G1. cbn [SooModel.hp SooModel.nx] in *. unfold upd. destruct (Nat.eqb_spec x (nx s)); [lia|]. apply W. lia.
      + split; [cbn; lia|]. cbn [SooModel.me SooModel.hp SooModel.nx own]. rewrite M. cbn [own]. split.
        * intros x G1 _. unfold upd. destruct (Nat.eqb_spec x (nx s)); [lia|]. split; [reflexivity|congruence].
        * intros x [G1|G1] N; [|discriminate]. unfold upd in N. destruct (Nat.eqb_spec x (nx s)); [congruence|]. destruct N. apply W. assumption.
    - destruct R as [_ R]. rewrite M in R. destruct R as (-> & -> & E & C & A & H). rewrite K in E. subst k. cbn [Nat.eqb]. cbv beta iota. rewrite M.
      destruct trivial.
      + unfold SooModel.bind, ReAlloc. destruct oom; [exact (Sim_ret _ s o _ R0 W)|].
        rewrite H. unfold become. cbn [SooModel.me SooModel.hp SooModel.nx]. rewrite M. cbn [ret SooModel.ret].
        split; [reflexivity|]. split; [|split].
        * split; [cbn; lia|]. cbn [SooModel.me SooModel.hp SooModel.nx its room lk sz]. repeat split; auto; try lia. unfold upd.
          destruct (Nat.eqb_spec (nx s) a); [lia|]. rewrite Nat.eqb_refl. f_equal.
          rewrite full_length by lia. rewrite firstn_all2 by (rewrite full_length; lia). unfold full. rewrite <- app_assoc, <- repeat_app. do 2 f_equal; lia.
        * intros x G1. cbn [SooModel.hp SooModel.nx] in *. unfold upd. destruct (Nat.eqb_spec x a); [reflexivity|]. destruct (Nat.eqb_spec x (nx s)); [lia|]. apply W. lia.
        * split; [cbn; lia|]. cbn [SooModel.me SooModel.hp SooModel.nx own]. rewrite M. cbn [own]. split.
          -- intros x G1 N. unfold upd. destruct (Nat.eqb_spec x a); [congruence|]. destruct (Nat.eqb_spec x (nx s)); [lia|]. split; [reflexivity|]. intros X. injection X as X. lia.
          -- intros x G1 N. unfold upd in N. destruct (Nat.eqb_spec x a); [congruence|]. destruct (Nat.eqb_spec x (nx s)); [congruence|].
             destruct G1 as [G1|G1]; [|congruence]. destruct N. apply W. assumption.
      + unfold SooModel.bind, Alloc. destruct oom; [exact (Sim_ret _ s o _ R0 W)|].
        unfold read, SooModel.bind, storage. cbn [SooModel.me SooModel.hp]. rewrite M. unfold upd at 1. destruct (Nat.eqb_spec a (nx s)); [lia|]. rewrite H.
        rewrite Z, region_live by lia. cbn [skipn].
        rewrite full_firstn, firstn_all, values_some by lia. cbn [ret SooModel.ret]. rewrite CI.
        unfold destroy, SooModel.bind, storage. cbn [SooModel.me SooModel.hp SooModel.nx]. unfold upd at 1 2. destruct (Nat.eqb_spec a (nx s)); [lia|]. rewrite H.
        rewrite region_live by lia.
        rewrite blit_destroy by lia. cbn [firstn]. unfold put_storage. cbn [SooModel.me SooModel.hp SooModel.nx].
        unfold upd at 1 2. destruct (Nat.eqb_spec a (nx s)); [lia|]. rewrite H.
        unfold free. cbn [SooModel.me SooModel.hp SooModel.nx]. unfold upd at 1. rewrite Nat.eqb_refl. rewrite forallb_raw_full.
        unfold become. cbn [SooModel.me SooModel.hp SooModel.nx]. cbn [ret SooModel.ret].
        split; [reflexivity|]. split; [|split].
        * split; [cbn; lia|]. cbn [SooModel.me SooModel.hp SooModel.nx its room lk sz]. repeat split; auto; try lia. unfold upd.
          destruct (Nat.eqb_spec (nx s) a); [lia|]. rewrite Nat.eqb_refl. reflexivity.
        * intros x G1. cbn [SooModel.hp SooModel.nx] in *. unfold upd. destruct (Nat.eqb_spec x a); [reflexivity|]. destruct (Nat.eqb_spec x (nx s)); [lia|]. apply W. lia.
        * split; [cbn; lia|]. cbn [SooModel.me SooModel.hp SooModel.nx own]. rewrite M. cbn [own]. split.
          -- intros x G1 N. unfold upd. destruct (Nat.eqb_spec x a); [congruence|]. destruct (Nat.eqb_spec x (nx s)); [lia|]. split; [reflexivity|]. intros X. injection X as X. lia.
          -- intros x G1 N. unfold upd in N. destruct (Nat.eqb_spec x a); [congruence|]. destruct (Nat.eqb_spec x (nx s)); [congruence|].
             destruct G1 as [G1|G1]; [|congruence]. destruct N. apply W. assumption.
  Qed.

  (** * Specification of the member functions
      An array is a list with a capacity and a number of locks. *)
  Record obj := OB { items : list V; cap : nat; locked : nat }.
  (** Storage for [n] elements; the capacity becomes [m] when it has to grow. *)
  Definition ensure (oom : bool) (n m : nat) (o : obj) : option obj :=
    if n <=? cap o then Some o
    else if (0 <? locked o) || oom then None
    else Some (OB (items o) m (locked o)).
  Definition up16 (n : nat) : nat := 16 * (n / 16) + (if n mod 16 =? 0 then 0 else 16).
  Definition half_more (o : obj) (n : nat) : nat := Nat.max (cap o + cap o / 2) n.
  Definition res := (option code * obj)%type.
  (** Room for [n], then the new elements; E_OUTOFMEMORY also when the array is locked. *)
  Definition edit (oom : bool) (n m : nat) (f : list V -> list V) (o : obj) : res :=
    match ensure oom n m o with
    | None => (Some E_OUTOFMEMORY, o)
    | Some o' => (Some S_OK, OB (f (items o)) (cap o') (locked o))
    end.
  Definition s_set (oom : bool) (l : list V) (o : obj) : res :=
    if (0 <? locked o) && ((length l <? length (items o)) || (cap o <? length l)) then (Some E_INVALIDARG, o)
    else edit oom (length l) (length l) (fun _ => l) o.
  Definition s_clear (o : obj) : res :=
    match items o with
    | [] => (Some S_OK, o)
    | _ => if 0 <? locked o then (None, o) else (Some S_OK, OB [] (cap o) 0)
    end.
  Definition s_reserve (oom : bool) (n : nat) (o : obj) : res := edit oom n (up16 n) (fun l => l) o.
  Definition sized (n : nat) (l : list V) : list V := firstn n l ++ repeat dflt (n - length l).
  (** The size may only shrink when nobody else holds a lock. *)
  Definition s_lock (oom : bool) (n : nat) (o : obj) : res :=
    if (n <? length (items o)) && (0 <? locked o) then (None, o)
    else match edit oom n (up16 n) (sized n) o with
         | (Some S_OK, o') => (Some S_OK, OB (items o') (cap o') (S (locked o')))
         | x => x
         end.
  Definition s_resize (oom : bool) (n : nat) (o : obj) : res :=
    if n =? 0 then s_clear o
    else if (n <? length (items o)) && (0 <? locked o) then (None, o)
    else edit oom n (up16 n) (sized n) o.
  Definition s_unlock (o : obj) : res :=
    match locked o with O => (None, o) | S k => (Some S_OK, OB (items o) (cap o) k) end.
  Definition s_write (k : nat) (v : V) (o : obj) : res := (Some S_OK, OB (over (items o) k [v]) (cap o) (locked o)).
  Definition s_item (k : nat) (v : V) (o : obj) : res :=
    if k <? length (items o) then (Some S_OK, OB (over (items o) k [v]) (cap o) (locked o)) else (Some E_BOUNDS, o).
  Definition s_add (oom : bool) (l : list V) (o : obj) : res :=
    let n := length (items o) + length l in
    if length l =? 0 then (Some S_OK, o) else edit oom n (half_more o n) (fun l0 => l0 ++ l) o.
  Definition s_insert (oom : bool) (k : nat) (v : V) (o : obj) : res :=
    let n := length (items o) + 1 in
    if k <=? length (items o) then edit oom n (half_more o n) (fun l => insert_spec V l k v) o else (Some E_BOUNDS, o).
  Definition s_remove (k c : nat) (o : obj) : res :=
    if (k =? 0) && (length (items o) <=? c) then s_clear o
    else (Some S_OK, OB (remove_spec V (items o) k c) (cap o) (locked o)).
  Definition s_sort (o : obj) : res :=
    if length (items o) <? 2 then (Some S_FALSE, o) else (Some S_OK, OB (qs (items o)) (cap o) (locked o)).

  Definition ao (o : obj) : aobj := AO (items o) (length (items o)) (cap o) (locked o).
  Definition lift (r : res) : ares code := match r with (Some c, o) => ARet (ao o) c | (None, o) => AExn (ao o) end.
  Definition RepO (s : hs) (o : obj) : Prop := Rep s (ao o).

  Lemma up16_align : forall n, align16 n = up16 n.
  Proof.
    intros n. unfold align16, up16. pose proof (Nat.div_mod n 16 ltac:(lia)) as D. pose proof (Nat.mod_upper_bound n 16 ltac:(lia)) as B.
    set (q := n / 16) in *. set (r := n mod 16) in *. clearbody q r.
    destruct (Nat.eqb_spec r 0) as [->|N].
    - replace ((n + 15) / 16) with q; [lia|]. apply (Nat.div_unique _ _ _ 15); lia.
    - replace ((n + 15) / 16) with (q + 1); [lia|]. apply (Nat.div_unique _ _ _ (r - 1)); lia.
  Qed.
  Lemma up16_le : forall n, n <= up16 n.
  Proof.
    intros n. unfold up16. pose proof (Nat.div_mod n 16 ltac:(lia)). pose proof (Nat.mod_upper_bound n 16 ltac:(lia)).
    destruct (Nat.eqb_spec (n mod 16) 0); lia.
  Qed.
  Lemma GetNewCapacity_eq : forall o n, cap o < n -> GetNewCapacity (cap o) n = half_more o n.
  Proof.
    intros o n L. unfold GetNewCapacity, half_more. destruct (Nat.leb_spec n (cap o)); [lia|].
    destruct (Nat.leb_spec n (cap o + cap o / 2)); lia.
  Qed.

  Ltac nxt := match goal with s : hs |- _ => clear dependent s end; intros s R W.
  Tactic Notation "stp" uconstr(c) := eapply Sim_bind; [eapply c; eauto|]; nxt.

  Lemma Rep_cap : forall s o, RepO s o -> length (items o) <= cap o.
  Proof. intros s o [L _]. exact L. Qed.

  Lemma Clear_sim : forall s o, RepO s o -> Wf s -> Sim (Clear V) s (lift (s_clear o)).
  Proof.
    intros s o R W. unfold Clear, s_clear, RepO in *. stp GetSize_sim. cbn [ao sz]. destruct (items o) as [|x l] eqn:E; cbn [length Nat.eqb].
    - apply Sim_ret; assumption.
    - stp GetLockedCount_sim. cbn [ao lk]. destruct (locked o) as [|k] eqn:K; cbn [Nat.ltb Nat.leb].
      + eapply Sim_bind; [apply destroy_sim; [eassumption|assumption|cbn; rewrite E; reflexivity]|]. nxt. cbn [its sz room lk firstn ao] in R.
        stp SetSize_sim. cbn [its sz room lk ao] in R. rewrite K in R. apply Sim_ret; assumption.
      + apply Sim_throw; assumption.
  Qed.

  Lemma SetArray_sim : forall s o oom l, RepO s o -> Wf s -> Sim (SetArray V trivial icap oom l) s (lift (s_set oom l o)).
  Proof.
    intros s o oom l R W. unfold SetArray, s_set, edit, ensure. pose proof (Rep_cap s o R) as LC. unfold RepO in *.
    stp GetLockedCount_sim. stp GetSize_sim. cbn [ao sz lk].
    destruct ((0 <? locked o) && (length l <? length (items o))) eqn:B1.
    { apply andb_true_iff in B1. destruct B1 as [B1 B2]. rewrite B1, B2. cbn. apply Sim_ret; assumption. }
    eapply Sim_bind with (o1 := snd (grow oom (length l) (ao o))) (a := fst (grow oom (length l) (ao o))).
    { pose proof (Realloc_sim s (ao o) oom (length l) R W eq_refl) as G. destruct (grow oom (length l) (ao o)). exact G. }
    nxt. unfold grow in *. cbn [room lk its sz ao] in *. destruct (Nat.leb_spec (length l) (cap o)) as [G|G].
    - cbn [fst snd] in *. replace ((0 <? locked o) && ((length l <? length (items o)) || (cap o <? length l))) with false.
      2:{ symmetry. destruct (0 <? locked o); cbn in *; [|reflexivity]. rewrite B1. cbn. apply Nat.ltb_ge. assumption. }
      stp GetSize_sim. cbn [sz lift ao its room lk] in *.
      destruct (Nat.leb_spec (length l) (length (items o))) as [G2|G2].
      + apply Sim_assoc. eapply Sim_bind; [apply assign_sim; [eassumption|assumption|cbn; lia]|]. nxt. cbn [its sz room lk ao] in R.
        eapply Sim_bind; [apply destroy_sim; [eassumption|assumption|cbn [its ao]; rewrite over_length; lia]|]. nxt. cbn [its sz room lk ao] in R.
        stp SetSize_sim. cbn [its sz room lk ao] in R.
        replace (firstn (length l) (over (items o) 0 l)) with l in R.
        2:{ unfold over. cbn. rewrite firstn_app, firstn_all, Nat.sub_diag. cbn. rewrite app_nil_r. reflexivity. }
        apply Sim_ret; assumption.
      + apply Sim_assoc. eapply Sim_bind; [apply assign_sim; [eassumption|assumption|cbn; rewrite firstn_length; lia]|]. nxt. cbn [its sz room lk ao] in R.
        rewrite over_all in R by (rewrite firstn_length; lia).
        eapply Sim_bind; [apply construct_sim; [eassumption|assumption|cbn; rewrite firstn_length; lia|cbn; rewrite skipn_length; lia]|]. nxt. cbn [its sz room lk ao] in R.
        rewrite firstn_skipn in R.
        stp SetSize_sim. cbn [its sz room lk ao] in R. apply Sim_ret; assumption.
    - destruct (Nat.ltb_spec 0 (locked o)) as [K|K].
      + cbn [fst snd] in *. cbn [andb] in B1. rewrite B1. cbn [andb orb]. destruct (Nat.ltb_spec (cap o) (length l)); [|lia]. cbn. apply Sim_ret; assumption.
      + cbn in *. assert (locked o = 0) as K0 by lia. rewrite K0 in *. destruct oom; cbn [fst snd] in *; [apply Sim_ret; assumption|].
        stp GetSize_sim. cbn [sz lift ao its room lk] in *.
        destruct (Nat.leb_spec (length l) (length (items o))) as [G2|G2]; [lia|].
        apply Sim_assoc. eapply Sim_bind; [apply assign_sim; [eassumption|assumption|cbn; rewrite firstn_length; lia]|]. nxt. cbn [its sz room lk ao] in R.
        rewrite over_all in R by (rewrite firstn_length; lia).
        eapply Sim_bind; [apply construct_sim; [eassumption|assumption|cbn; rewrite firstn_length; lia|cbn; rewrite skipn_length; lia]|]. nxt. cbn [its sz room lk ao] in R.
        rewrite firstn_skipn in R.
        stp SetSize_sim. cbn [its sz room lk ao] in R. apply Sim_ret; assumption.
  Qed.

  (** The locking functions: [Some] gives the state with one more lock. *)
  Definition lockd (o : obj) : obj := OB (items o) (cap o) (S (locked o)).
  Definition liftb (r : option obj) (o : obj) : ares bool :=
    match r with Some o' => ARet (ao (lockd o')) true | None => ARet (ao o) false end.
  Lemma Realloc_ensure : forall s o oom n m, RepO s o -> Wf s -> n <= m -> cap o < n ->
    exists c, Sim (Realloc V trivial icap oom m) s
      (match ensure oom n m o with Some o' => ARet (ao o') S_OK | None => ARet (ao o) c end) /\ c <> S_OK.
  Proof.
    intros s o oom n m R W L G. pose proof (Realloc_sim s (ao o) oom m R W eq_refl) as X. unfold grow, ensure in *. cbn [room lk its sz ao] in X.
    destruct (Nat.leb_spec m (cap o)); [lia|]. destruct (Nat.leb_spec n (cap o)); [lia|].
    destruct (Nat.ltb_spec 0 (locked o)) as [K|K]; cbn [orb].
    - exists E_INVALIDARG. split; [exact X|discriminate].
    - replace (locked o) with 0 by lia. destruct oom; [exists E_OUTOFMEMORY|exists E_INVALIDARG]; (split; [exact X|discriminate]).
  Qed.
  Lemma LockInternalData_sim : forall s o oom n, RepO s o -> Wf s ->
    Sim (LockInternalData V trivial icap oom n) s (liftb (ensure oom n (up16 n) o) o).
  Proof.
    intros s o oom n R W. unfold LockInternalData. unfold RepO in *. stp GetCapacity_sim. cbn [room ao].
    destruct (Nat.leb_spec n (cap o)) as [G|G].
    - unfold ensure. destruct (Nat.leb_spec n (cap o)); [|lia]. stp Lock_sim. apply Sim_ret; assumption.
    - rewrite up16_align. destruct (Realloc_ensure s o oom n (up16 n) R W (up16_le n) G) as (c & X & NC).
      destruct (ensure oom n (up16 n) o) as [o'|].
      + eapply Sim_bind; [exact X|]. nxt. stp Lock_sim. apply Sim_ret; assumption.
      + eapply Sim_bind; [exact X|]. nxt. destruct c; try contradiction; apply Sim_ret; assumption.
  Qed.
  Lemma LockInternalDataIncrement_sim : forall s o oom k, RepO s o -> Wf s ->
    Sim (LockInternalDataIncrement V trivial icap oom k) s
      (liftb (ensure oom (length (items o) + k) (half_more o (length (items o) + k)) o) o).
  Proof.
    intros s o oom k R W. unfold LockInternalDataIncrement. unfold RepO in *. stp GetSize_sim. stp GetCapacity_sim. cbn [room sz ao].
    set (n := length (items o) + k). destruct (Nat.leb_spec n (cap o)) as [G|G].
    - unfold ensure. destruct (Nat.leb_spec n (cap o)); [|lia]. stp Lock_sim. apply Sim_ret; assumption.
    - rewrite GetNewCapacity_eq by assumption.
      destruct (Realloc_ensure s o oom n (half_more o n) R W ltac:(unfold half_more; lia) G) as (c & X & NC).
      destruct (ensure oom n (half_more o n) o) as [o'|].
      + eapply Sim_bind; [exact X|]. nxt. stp Lock_sim. apply Sim_ret; assumption.
      + eapply Sim_bind; [exact X|]. nxt. destruct c; try contradiction; apply Sim_ret; assumption.
  Qed.
  Lemma ensure_fields : forall oom n m o o', ensure oom n m o = Some o' -> n <= m ->
    items o' = items o /\ locked o' = locked o /\ n <= cap o' /\ cap o <= cap o'.
  Proof.
    intros oom n m o o' E L. unfold ensure in E. destruct (Nat.leb_spec n (cap o)); [injection E as <-; auto|].
    destruct ((0 <? locked o) || oom); [discriminate|]. injection E as <-. cbn. repeat split; lia.
  Qed.

  Lemma Reserve_sim : forall s o oom n, RepO s o -> Wf s -> Sim (Reserve V trivial icap oom n) s (lift (s_reserve oom n o)).
  Proof.
    intros s o oom n R W. unfold Reserve, s_reserve, edit. pose proof (LockInternalData_sim s o oom n R W) as X. unfold RepO in *.
    destruct (ensure oom n (up16 n) o) as [o'|] eqn:E.
    - destruct (ensure_fields _ _ _ _ _ E (up16_le n)) as (E1 & E2 & _). eapply Sim_bind; [exact X|]. nxt.
      unfold ao in R; cbn [lockd items cap locked] in R. eapply Sim_bind; [eapply Unlock_sim; eassumption|]. nxt. cbn [lift]. unfold ao. cbn [items cap locked]. rewrite <- E1, <- E2. apply Sim_ret; assumption.
    - eapply Sim_bind; [exact X|]. nxt. apply Sim_ret; assumption.
  Qed.
  Lemma LockBufferAndSetSize_sim : forall s o oom n, RepO s o -> Wf s ->
    Sim (LockBufferAndSetSize V dflt trivial icap oom n) s
      (match s_lock oom n o with
       | (Some S_OK, o') => ARet (ao o') true
       | (Some _, o') => ARet (ao o') false
       | (None, o') => AExn (ao o')
       end).
  Proof.
    intros s o oom n R W. unfold LockBufferAndSetSize, s_lock, edit. pose proof (Rep_cap s o R) as LC.
    pose proof (LockInternalData_sim s o oom n R W) as X. unfold RepO in *.
    destruct (ensure oom n (up16 n) o) as [o'|] eqn:E.
    - destruct (ensure_fields _ _ _ _ _ E (up16_le n)) as (E1 & E2 & E3 & E4). eapply Sim_bind; [exact X|]. nxt. unfold ao in R. cbn [lockd items cap locked] in R. rewrite E1, E2 in R.
      stp GetSize_sim. cbn [sz].
      destruct (Nat.leb_spec (length (items o)) n) as [G|G].
      + destruct (Nat.ltb_spec n (length (items o))); [lia|]. cbn [andb]. unfold lift, ao. cbn [items cap locked].
        eapply Sim_bind; [apply construct_sim; [eassumption|assumption|reflexivity|cbn; rewrite repeat_length; lia]|]. nxt. cbn [its sz room lk ao] in R.
        stp SetSize_sim. cbn [its sz room lk ao] in R.
        assert (SE : sized n (items o) = items o ++ repeat dflt (n - length (items o))) by (unfold sized; rewrite firstn_all2 by lia; reflexivity).
        rewrite SE. replace (length (items o ++ repeat dflt (n - length (items o)))) with n by (rewrite app_length, repeat_length; lia).
        apply Sim_ret; assumption.
      + destruct (Nat.ltb_spec n (length (items o))); [|lia]. cbn [andb]. stp GetLockedCount_sim. cbn [lk].
        destruct (Nat.ltb_spec 0 (locked o)) as [K|K].
        * destruct (Nat.ltb_spec 1 (S (locked o))); [|lia].
          assert (cap o' = cap o) as EC.
          { unfold ensure in E. destruct (Nat.leb_spec n (cap o)); [congruence|lia]. }
          rewrite EC in R. eapply Sim_bind; [eapply Unlock_sim; eassumption|]. nxt. apply Sim_throw; assumption.
        * destruct (Nat.ltb_spec 1 (S (locked o))); [lia|]. unfold lift, ao. cbn [items cap locked].
          eapply Sim_bind; [apply destroy_sim; [eassumption|assumption|cbn; lia]|]. nxt. cbn [its sz room lk ao] in R.
          stp SetSize_sim. cbn [its sz room lk ao] in R.
          assert (SE : sized n (items o) = firstn n (items o)) by (unfold sized; replace (n - length (items o)) with 0 by lia; apply app_nil_r).
          rewrite SE. replace (length (firstn n (items o))) with n by (rewrite firstn_length; lia). apply Sim_ret; assumption.
    - assert ((n <? length (items o)) = false) as ->.
      { unfold ensure in E. destruct (Nat.leb_spec n (cap o)); [discriminate|]. apply Nat.ltb_ge. lia. }
      cbn [andb]. eapply Sim_bind; [exact X|]. nxt. apply Sim_ret; assumption.
  Qed.
  Lemma UnlockBuffer_sim : forall s o, RepO s o -> Wf s -> Sim (UnlockBuffer V) s (lift (s_unlock o)).
  Proof.
    intros s o R W. unfold UnlockBuffer, s_unlock. unfold RepO in *. stp GetLockedCount_sim. cbn [lk ao].
    destruct (locked o) as [|k] eqn:K; [apply Sim_throw; assumption|]. unfold ao in R. rewrite K in R.
    eapply Sim_bind; [eapply Unlock_sim; eassumption|]. nxt. apply Sim_ret; assumption.
  Qed.
  Lemma Resize_sim : forall s o oom n, RepO s o -> Wf s -> Sim (Resize V dflt trivial icap oom n) s (lift (s_resize oom n o)).
  Proof.
    intros s o oom n R W. unfold Resize, s_resize. destruct (n =? 0); [apply Clear_sim; assumption|].
    pose proof (LockBufferAndSetSize_sim s o oom n R W) as X. unfold s_lock, edit in X |- *.
    destruct ((n <? length (items o)) && (0 <? locked o)); [apply Sim_bind_exn; exact X|].
    destruct (ensure oom n (up16 n) o) as [o'|].
    - eapply Sim_bind; [exact X|]. nxt. pose proof (UnlockBuffer_sim s _ R W) as Y. cbn [s_unlock locked items cap] in Y. exact Y.
    - eapply Sim_bind; [exact X|]. nxt. apply Sim_ret; assumption.
  Qed.
  Lemma ensure_zero : forall oom o, length (items o) <= cap o -> ensure oom (length (items o) + 0) (half_more o (length (items o) + 0)) o = Some o.
  Proof. intros oom o L. unfold ensure. destruct (Nat.leb_spec (length (items o) + 0) (cap o)); [reflexivity|lia]. Qed.
  Lemma SetItem_sim : forall s o oom k v, RepO s o -> Wf s -> Sim (SetItem V trivial icap oom k v) s (lift (s_item k v o)).
  Proof.
    intros s o oom k v R W. unfold SetItem, s_item. pose proof (Rep_cap s o R) as LC. unfold RepO in *. stp GetSize_sim. cbn [sz ao].
    destruct (Nat.leb_spec (length (items o)) k) as [G|G]; destruct (Nat.ltb_spec k (length (items o))); try lia; [apply Sim_ret; assumption|].
    pose proof (LockInternalDataIncrement_sim s o oom 0 R W) as X. rewrite ensure_zero in X by assumption.
    eapply Sim_bind; [exact X|]. nxt. unfold ao in R. cbn [lockd items cap locked] in R.
    eapply Sim_bind; [apply assign_sim; [eassumption|assumption|cbn; lia]|]. nxt. cbn [its sz room lk ao] in R.
    eapply Sim_bind; [eapply Unlock_sim; eassumption|]. nxt. unfold lift, ao. cbn [items cap locked].
    rewrite over_length by (cbn; lia). apply Sim_ret; assumption.
  Qed.
  Lemma AddMany_sim : forall s o oom l, RepO s o -> Wf s -> Sim (AddMany V trivial icap oom l) s (lift (s_add oom l o)).
  Proof.
    intros s o oom l R W. unfold AddMany, s_add, edit. destruct l as [|x l]; [apply Sim_ret; assumption|].
    pose proof (LockInternalDataIncrement_sim s o oom (length (x :: l)) R W) as X. unfold RepO in *.
    set (n := length (items o) + length (x :: l)) in *. destruct (Nat.eqb_spec (length (x :: l)) 0) as [Z|_]; [discriminate|].
    destruct (ensure oom n (half_more o n) o) as [o'|] eqn:E.
    - destruct (ensure_fields _ _ _ _ _ E ltac:(unfold half_more; lia)) as (E1 & E2 & E3 & _). eapply Sim_bind; [exact X|]. nxt. unfold ao in R. cbn [lockd items cap locked] in R. rewrite E1, E2 in R.
      stp GetSize_sim. cbn [sz].
      eapply Sim_bind; [apply construct_sim; [eassumption|assumption|reflexivity|exact E3]|]. nxt. cbn [its sz room lk ao] in R.
      stp SetSize_sim. cbn [its sz room lk ao] in R. eapply Sim_bind; [eapply Unlock_sim; eassumption|]. nxt.
      unfold lift, ao. cbn [items cap locked]. rewrite app_length. apply Sim_ret; assumption.
    - eapply Sim_bind; [exact X|]. nxt. apply Sim_ret; assumption.
  Qed.
  Lemma elems_of : forall l : list V, elems V (buf_of V dflt l) (length l) = l.
  Proof.
    intros l. unfold elems, buf_of. apply (nth_ext _ _ dflt dflt); [rewrite map_length, seq_length; reflexivity|].
    intros k L. rewrite map_length, seq_length in L. rewrite nth_indep with (d' := nth 0 l dflt) by (rewrite map_length, seq_length; lia).
    rewrite (map_nth (fun k => nth k l dflt) (seq 0 (length l)) 0 k). rewrite seq_nth by lia. reflexivity.
  Qed.
  Lemma Insert_sim : forall s o oom k v, RepO s o -> Wf s -> (trivial = true \/ length (items o) <= k + 2) ->
    Sim (Insert V dflt moved trivial icap oom k v) s (lift (s_insert oom k v o)).
  Proof.
    intros s o oom k v R W T. unfold Insert, s_insert, edit. unfold RepO in *. stp GetSize_sim. cbn [sz ao].
    destruct (Nat.ltb_spec (length (items o)) k) as [G|G]; destruct (Nat.leb_spec k (length (items o))); try lia; [apply Sim_ret; assumption|].
    pose proof (LockInternalDataIncrement_sim s o oom 1 R W) as X.
    set (n := length (items o) + 1) in *.
    assert (EI : elems V (InsertBody V moved trivial (buf_of V dflt (items o)) (length (items o)) k v) (S (length (items o))) = insert_spec V (items o) k v).
    { rewrite <- (elems_of (items o)) at 4. clear X. destruct trivial; [apply C06_Insert_trivial; assumption|].
      apply C06_Insert_nontrivial_partial; [assumption|]. destruct T; [discriminate|assumption]. }
    assert (LI : length (insert_spec V (items o) k v) = S (length (items o))).
    { unfold insert_spec. rewrite app_length. cbn. rewrite firstn_length, skipn_length. lia. }
    destruct (ensure oom n (half_more o n) o) as [o'|] eqn:E.
    - destruct (ensure_fields _ _ _ _ _ E ltac:(unfold half_more; lia)) as (E1 & E2 & E3 & _). eapply Sim_bind; [exact X|]. nxt. unfold ao in R. cbn [lockd items cap locked] in R. rewrite E1, E2 in R.
      eapply Sim_bind; [apply read_sim; [eassumption|assumption|reflexivity]|]. nxt. cbn [its].
      cbv zeta. rewrite EI. apply Sim_assoc.
      eapply Sim_bind; [apply construct_sim; [eassumption|assumption|reflexivity|cbn; rewrite skipn_length; lia]|]. nxt. cbn [its sz room lk ao] in R.
      eapply Sim_bind; [apply assign_sim; [eassumption|assumption|cbn; rewrite firstn_length, app_length; lia]|]. nxt. cbn [its sz room lk ao] in R.
      replace (over (items o ++ skipn (length (items o)) (insert_spec V (items o) k v)) 0 (firstn (length (items o)) (insert_spec V (items o) k v)))
        with (insert_spec V (items o) k v) in R.
      2:{ unfold over. cbn [firstn app]. rewrite firstn_length, LI. replace (0 + Nat.min (length (items o)) (S (length (items o)))) with (length (items o)) by lia.
          rewrite skipn_app, skipn_all, Nat.sub_diag. cbn [skipn app]. symmetry. apply firstn_skipn. }
      stp SetSize_sim. cbn [its sz room lk ao] in R. eapply Sim_bind; [eapply Unlock_sim; eassumption|]. nxt.
      unfold lift, ao. cbn [items cap locked]. rewrite LI. apply Sim_ret; assumption.
    - eapply Sim_bind; [exact X|]. nxt. apply Sim_ret; assumption.
  Qed.
  Lemma Remove_sim : forall s o oom k c, RepO s o -> Wf s ->
    (trivial = true \/ length (items o) <= k + Nat.min c (length (items o) - k) + Nat.min c (length (items o) - k)) ->
    Sim (Remove V dflt moved trivial icap oom k c) s (lift (s_remove k c o)).
  Proof.
    intros s o oom k c R W T. unfold Remove, s_remove. pose proof (Rep_cap s o R) as LC. unfold RepO in *.
    assert (EO : OB (items o) (cap o) (locked o) = o) by (destruct o; reflexivity).
    destruct (Nat.eqb_spec c 0) as [->|NC].
    { destruct ((k =? 0) && (length (items o) <=? 0)) eqn:B.
      - apply andb_true_iff in B. destruct B as [_ B]. apply Nat.leb_le in B. unfold s_clear. destruct (items o) eqn:EI; [|cbn in B; lia]. apply Sim_ret; assumption.
      - unfold remove_spec. rewrite Nat.add_0_r, firstn_skipn, EO. apply Sim_ret; assumption. }
    stp GetSize_sim. cbn [sz ao]. destruct (Nat.leb_spec (length (items o)) k) as [G|G].
    { destruct ((k =? 0) && (length (items o) <=? c)) eqn:B.
      - apply andb_true_iff in B. destruct B as [B _]. apply Nat.eqb_eq in B. subst k. unfold s_clear. destruct (items o) eqn:EI; [|cbn in G; lia]. apply Sim_ret; assumption.
      - unfold remove_spec. rewrite firstn_all2 by lia. rewrite skipn_all2 by lia. rewrite app_nil_r, EO. apply Sim_ret; assumption. }
    replace (if c <? length (items o) - k then c else length (items o) - k) with (Nat.min c (length (items o) - k)) by (destruct (Nat.ltb_spec c (length (items o) - k)); lia).
    set (rc := Nat.min c (length (items o) - k)) in *.
    destruct (Nat.eqb_spec rc (length (items o))) as [Q|Q].
    { replace ((k =? 0) && (length (items o) <=? c)) with true; [apply Clear_sim; assumption|]. symmetry. apply andb_true_iff. split; [apply Nat.eqb_eq|apply Nat.leb_le]; lia. }
    replace ((k =? 0) && (length (items o) <=? c)) with false.
    2:{ symmetry. apply andb_false_iff. destruct (Nat.eqb_spec k 0); [|auto]. right. apply Nat.leb_gt. lia. }
    pose proof (LockInternalDataIncrement_sim s o oom 0 R W) as X. rewrite ensure_zero in X by assumption.
    eapply Sim_bind; [exact X|]. nxt. unfold ao in R. cbn [lockd items cap locked] in R.
    eapply Sim_bind; [apply read_sim; [eassumption|assumption|reflexivity]|]. nxt. cbn [its].
    assert (EI : elems V (RemoveBody V moved trivial (buf_of V dflt (items o)) (length (items o)) k rc) (length (items o) - rc) = remove_spec V (items o) k c).
    { transitivity (remove_spec V (items o) k rc).
      - rewrite <- (elems_of (items o)) at 4. destruct trivial; [apply C06_Remove_trivial; lia|].
        apply C06_Remove_nontrivial_partial; [lia|]. destruct T; [discriminate|lia].
      - unfold remove_spec. f_equal. unfold rc. destruct (Nat.le_gt_cases c (length (items o) - k)); [f_equal; lia|].
        rewrite !skipn_all2 by lia. reflexivity. }
    rewrite EI. assert (LR : length (remove_spec V (items o) k c) = length (items o) - rc).
    { unfold remove_spec. rewrite app_length, firstn_length, skipn_length. lia. }
    eapply Sim_bind; [apply assign_sim; [eassumption|assumption|cbn; lia]|]. nxt. cbn [its sz room lk ao] in R.
    eapply Sim_bind; [apply destroy_sim; [eassumption|assumption|cbn [its ao]; rewrite over_length; lia]|]. nxt. cbn [its sz room lk ao] in R.
    replace (firstn (length (items o) - rc) (over (items o) 0 (remove_spec V (items o) k c))) with (remove_spec V (items o) k c) in R.
    2:{ unfold over. cbn. rewrite <- LR. rewrite firstn_app, firstn_all, Nat.sub_diag. cbn. rewrite app_nil_r. reflexivity. }
    stp SetSize_sim. cbn [its sz room lk ao] in R. eapply Sim_bind; [eapply Unlock_sim; eassumption|]. nxt.
    unfold lift, ao. cbn [items cap locked]. rewrite LR. apply Sim_ret; assumption.
  Qed.
  Lemma Sort_sim : forall s o oom, RepO s o -> Wf s -> Sim (Sort V trivial qs icap oom) s (lift (s_sort o)).
  Proof.
    intros s o oom R W. unfold Sort, s_sort. unfold RepO in *. stp GetSize_sim. cbn [sz ao].
    destruct (Nat.leb_spec (length (items o)) 1); destruct (Nat.ltb_spec (length (items o)) 2); try lia; [apply Sim_ret; assumption|].
    pose proof (LockInternalData_sim s o oom 0 R W) as X. unfold ensure in X. cbn [Nat.leb] in X.
    eapply Sim_bind; [exact X|]. nxt. unfold ao in R. cbn [lockd items cap locked] in R.
    eapply Sim_bind; [apply read_sim; [eassumption|assumption|reflexivity]|]. nxt. cbn [its].
    pose proof (Permutation_length (qs_perm (items o))) as LQ.
    eapply Sim_bind; [apply assign_sim; [eassumption|assumption|cbn; lia]|]. nxt. cbn [its sz room lk ao] in R.
    rewrite over_all in R by assumption. eapply Sim_bind; [eapply Unlock_sim; eassumption|]. nxt. unfold lift, ao. cbn [items cap locked].
    rewrite LQ. apply Sim_ret; assumption.
  Qed.
  Lemma WriteLocked_sim : forall s o k v, RepO s o -> Wf s -> 0 < locked o -> k < length (items o) ->
    Sim (WriteLocked V k v) s (lift (s_write k v o)).
  Proof.
    intros s o k v R W L K. unfold WriteLocked, s_write. unfold RepO in *. stp GetLockedCount_sim. stp GetSize_sim. cbn [lk sz ao].
    destruct (Nat.ltb_spec 0 (locked o)); [|lia]. destruct (Nat.ltb_spec k (length (items o))); [|lia]. cbn [andb].
    eapply Sim_bind; [apply assign_sim; [eassumption|assumption|cbn; lia]|]. nxt. cbn [its sz room lk ao] in R.
    unfold lift, ao. cbn [items cap locked]. rewrite over_length by (cbn; lia). apply Sim_ret; assumption.
  Qed.
End Proofs.
