(** Property C04: the small-object [Array]. *)
From Coq Require Import Arith ZArith Lia Bool List Permutation.
From Verif Require Import Slots SlotsProofs MoveModel MoveThms SooModel SooProofs.
Import ListNotations.

Section Thms.
  Variable V : Type.
  Variable dflt : V.
  Variable moved : V -> V.
  Variable trivial : bool.
  Variable qs : list V -> list V.
  Hypothesis qs_perm : forall l, Permutation (qs l) l.
  Variable icap : nat.

  Notation st := (st V).
  Notation op := (op V).
  Notation run_op := (run_op V dflt moved trivial qs icap).
  Notation run := (run V dflt moved trivial qs icap).
  Notation look := (look V).
  Notation heap := (heap V).
  Notation next := (next V).
  Notation objs := (objs V).
  Notation obj := (obj V).
  Notation OB := (OB V).
  Notation items := (items V).
  Notation cap := (cap V).
  Notation locked := (locked V).
  Notation RepO := (RepO V icap).
  Notation own := (own V).

  (** * Specification
      An array is a list with a capacity and a lock count (the member functions are specified
      in SooProofs.v); a world is the arrays that exist. *)
  Definition world := nat -> option obj.
  Definition nothing : world := fun _ => None.
  Definition wput (w : world) (i : nat) (x : option obj) : world := fun k => if k =? i then x else w k.
  Definition new : obj := OB [] icap 0.
  Inductive goes := Goes (c : option code) (w : world) | Dies.

  Definition at_ (w : world) (i : nat) (f : obj -> res V) : goes :=
    match w i with Some o => let '(c, o') := f o in Goes c (wput w i (Some o')) | None => Goes None w end.
  (** A constructor: nothing comes into being when it fails. *)
  Definition born (w : world) (i : nat) (r : res V) : goes :=
    match r with (Some S_OK, o) => Goes (Some S_OK) (wput w i (Some o)) | _ => Goes None w end.
  (** Moving [oj] into place [i], where [oi] is: a small source is copied and stays as it is, a
      large one gives its storage away and is empty afterwards. *)
  Definition move (w : world) (i j : nat) (oi oj : obj) : goes :=
    if (0 <? locked oj) || (0 <? locked oi) then Dies
    else if cap oj <=? icap then Goes (Some S_OK) (wput w i (Some (OB (items oj) (cap oi) 0)))
    else Goes (Some S_OK) (wput (wput w i (Some oj)) j (Some new)).
  Definition spec (w : world) (o : op) : goes :=
    match o with
    | ONew _ i => born w i (Some S_OK, new)
    | ONewList _ oom i l => born w i (s_set V oom l new)
    | ONewCopy _ oom i j => match w j with Some oj => born w i (s_set V oom (items oj) new) | None => Goes None w end
    | ONewMove _ _ i j => match w j with Some oj => move w i j new oj | None => Goes None w end
    | ODelete _ i => match w i with Some o => if 0 <? locked o then Dies else Goes (Some S_OK) (wput w i None) | None => Goes None w end
    | OAssign _ oom i j =>
        if i =? j then Goes (Some S_OK) w
        else match w i, w j with Some oi, Some oj => born w i (s_set V oom (items oj) oi) | _, _ => Goes None w end
    | OAssignMove _ _ i j =>
        if i =? j then Goes (Some S_OK) w
        else match w i, w j with Some oi, Some oj => move w i j oi oj | _, _ => Goes None w end
    | OSetArray _ oom i l => at_ w i (s_set V oom l)
    | OClear _ i => at_ w i (s_clear V)
    | OReserve _ oom i n => at_ w i (s_reserve V oom n)
    | OResize _ oom i n => at_ w i (s_resize V dflt oom n)
    | OLock _ oom i n => at_ w i (s_lock V dflt oom n)
    | OUnlock _ i => at_ w i (s_unlock V)
    | OWrite _ i k v => at_ w i (s_write V k v)
    | OSetItem _ _ i k v => at_ w i (s_item V k v)
    | OAdd _ oom i v => at_ w i (s_add V oom [v])
    | OAddMany _ oom i l => at_ w i (s_add V oom l)
    | OInsert _ oom i k v => at_ w i (s_insert V oom k v)
    | ORemove _ _ i k c => at_ w i (s_remove V k c)
    | OSort _ _ i => at_ w i (s_sort V qs)
    end.
  Inductive strace := SDone (w : world) (rs : list (option code)) | SEnded (rs : list (option code)).
  Fixpoint specs (w : world) (ops : list op) : strace :=
    match ops with
    | [] => SDone w []
    | o :: ops' =>
        match spec w o with
        | Goes c w1 => match specs w1 ops' with SDone w2 rs => SDone w2 (c :: rs) | SEnded rs => SEnded (c :: rs) end
        | Dies => SEnded []
        end
    end.

  (** What a program may do: it names objects that exist, makes only new ones, writes through a
      pointer only while the buffer is locked and inside it.  For element types with their own
      move, Insert and Remove are only covered where C06 holds. *)
  Definition pre (n : nat) (w : world) (o : op) : Prop :=
    let ex i := exists x, w i = Some x in
    match o with
    | ONew _ i | ONewList _ _ i _ => i < n /\ w i = None
    | ONewCopy _ _ i j | ONewMove _ _ i j => i < n /\ w i = None /\ ex j
    | OAssign _ _ i j | OAssignMove _ _ i j => ex i /\ ex j
    | OWrite _ i k _ => exists x, w i = Some x /\ 0 < locked x /\ k < length (items x)
    | OInsert _ _ i k _ => exists x, w i = Some x /\ (trivial = true \/ length (items x) <= k + 2)
    | ORemove _ _ i k c => exists x, w i = Some x /\
        (trivial = true \/ let m := Nat.min c (length (items x) - k) in length (items x) <= k + m + m)
    | ODelete _ i | OSetArray _ _ i _ | OClear _ i | OReserve _ _ i _ | OResize _ _ i _ | OLock _ _ i _ | OUnlock _ i
    | OSetItem _ _ i _ _ | OAdd _ _ i _ | OAddMany _ _ i _ | OSort _ _ i => ex i
    end.
  Fixpoint safe (n : nat) (w : world) (ops : list op) : Prop :=
    match ops with
    | [] => True
    | o :: ops' => pre n w o /\ match spec w o with Goes _ w' => safe n w' ops' | Dies => True end
    end.

  (** What array [i] holds in a state: its first uSize cells. *)
  Definition cells_of (s : st) (i : nat) : option (nat * cells V) :=
    match look s i with
    | None => None
    | Some (Small _ _ n c) => Some (n, c)
    | Some (Large _ a n _ _) => match heap s a with Some c => Some (n, c) | None => None end
    end.
  Definition contents (s : st) (i : nat) : option (list (option V)) :=
    match cells_of s i with Some (n, c) => Some (firstn n c) | None => None end.

  (** * Proofs *)
  Definition hsof (s : st) (h : hdr V) : hs V := mkhs V (heap s) (next s) h.
  Record RepSt (n : nat) (s : st) (w : world) : Prop := {
    r_len : length (objs s) = n;
    r_obj : forall i, match look s i with Some h => exists o, w i = Some o /\ RepO (hsof s h) o | None => w i = None end;
    r_wf : forall x, next s <= x -> heap s x = None;
    r_own : forall x, heap s x <> None -> exists i h, look s i = Some h /\ own h = Some x;
    r_sep : forall i j hi hj x, look s i = Some hi -> look s j = Some hj -> own hi = Some x -> own hj = Some x -> i = j }.

  Lemma look_set_eq : forall s hp nx i h, i < length (objs s) -> look (ST V hp nx (set (objs s) i h)) i = h.
  Proof. intros. unfold SooModel.look. cbn. rewrite nth_set_eq by assumption. reflexivity. Qed.
  Lemma look_set_neq : forall s hp nx i h j, i <> j -> look (ST V hp nx (set (objs s) i h)) j = look s j.
  Proof. intros. unfold SooModel.look. cbn. rewrite nth_set_neq by assumption. reflexivity. Qed.
  Lemma look_lt : forall s i h, look s i = Some h -> i < length (objs s).
  Proof. intros s i h H. unfold SooModel.look in H. apply nth_error_Some. destruct (nth_error (objs s) i); congruence. Qed.
  Lemma own_lt : forall s h o x, RepO (hsof s h) o -> own h = Some x -> x < next s.
  Proof. intros s h o x [_ R] E. destruct h; [discriminate|]. cbn in *. injection E as ->. tauto. Qed.
  Lemma RepO_heap : forall s s' h o, RepO (hsof s h) o -> next s <= next s' -> (forall x, own h = Some x -> heap s' x = heap s x) -> RepO (hsof s' h) o.
  Proof.
    intros s s' h o [L R] N H. split; [assumption|]. cbn in *. destruct h as [k n c|a n cp k]; [assumption|].
    destruct R as (R1 & R2 & R3 & R4 & R5 & R6). repeat split; auto; [lia|]. rewrite H by reflexivity. assumption.
  Qed.
  Lemma w_some : forall n s w i o, RepSt n s w -> w i = Some o -> exists h, look s i = Some h /\ RepO (hsof s h) o.
  Proof.
    intros n s w i o R E. pose proof (r_obj _ _ _ R i) as X. destruct (look s i) as [h|]; [|congruence].
    destruct X as (o' & E' & RO). exists h. split; [reflexivity|]. congruence.
  Qed.
  Lemma w_none : forall n s w i, RepSt n s w -> w i = None -> look s i = None.
  Proof.
    intros n s w i R E. pose proof (r_obj _ _ _ R i) as X. destruct (look s i) as [h|]; [|reflexivity]. destruct X as (o' & E' & RO). congruence.
  Qed.

  (** A step inside object [i]. *)
  Lemma RepSt_step : forall n s w i h t o', RepSt n s w -> look s i = Some h -> RepO t o' -> Wf V t -> Frame V (hsof s h) t ->
    RepSt n (ST V (hp V t) (nx V t) (set (objs s) i (Some (me V t)))) (wput w i (Some o')).
  Proof.
    intros n s w i h t o' R Li RO W (F1 & F2 & F3). cbn [hsof nx hp me] in *. pose proof (look_lt _ _ _ Li) as LI.
    assert (OL : forall j hj x, look s j = Some hj -> own hj = Some x -> x < next s).
    { intros j hj x L E. pose proof (r_obj _ _ _ R j) as X. rewrite L in X. destruct X as (o & _ & X). apply (own_lt _ _ _ _ X E). }
    split.
    - cbn. rewrite set_length. apply R.
    - intros j. unfold wput. destruct (Nat.eqb_spec j i) as [->|NE].
      + rewrite look_set_eq by assumption. exists o'. split; [reflexivity|]. unfold hsof. cbn. destruct t. exact RO.
      + rewrite look_set_neq by auto. pose proof (r_obj _ _ _ R j) as X. destruct (look s j) as [hj|] eqn:Lj; [|assumption].
        destruct X as (o & E & X). exists o. split; [assumption|]. apply (RepO_heap s); [assumption|exact F1|]. cbn.
        intros x Ex. apply F2; [apply (OL j hj); assumption|]. intros Ei. apply NE. apply (r_sep _ _ _ R j i hj h x); assumption.
    - cbn. intros x L. apply W. assumption.
    - cbn. intros x N. destruct (Nat.le_gt_cases (next s) x) as [G|G].
      + exists i, (me V t). rewrite look_set_eq by assumption. split; [reflexivity|]. apply F3; auto.
      + destruct (own h) as [y|] eqn:EO; [destruct (Nat.eq_dec y x) as [->|NE]|].
        * exists i, (me V t). rewrite look_set_eq by assumption. split; [reflexivity|]. apply F3; auto.
        * destruct (F2 x G ltac:(congruence)) as [E _]. rewrite E in N. destruct (r_own _ _ _ R x N) as (j & hj & Lj & Oj).
          assert (i <> j) by (intros ->; congruence). exists j, hj. rewrite look_set_neq by assumption. auto.
        * destruct (F2 x G ltac:(congruence)) as [E _]. rewrite E in N. destruct (r_own _ _ _ R x N) as (j & hj & Lj & Oj).
          assert (i <> j) by (intros ->; congruence). exists j, hj. rewrite look_set_neq by assumption. auto.
    - intros j k hj hk x. destruct (Nat.eq_dec j i) as [->|Nj]; destruct (Nat.eq_dec k i) as [->|Nk]; auto.
      + rewrite look_set_eq, look_set_neq by auto. intros A B Oj Ok. injection A as <-. exfalso.
        destruct (F2 x (OL k hk x B Ok)) as [_ Q]; [|contradiction]. intros Q. apply Nk. symmetry. apply (r_sep _ _ _ R i k h hk x); assumption.
      + rewrite look_set_eq, look_set_neq by auto. intros A B Oj Ok. injection B as <-. exfalso.
        destruct (F2 x (OL j hj x A Oj)) as [_ Q]; [|contradiction]. intros Q. apply Nj. symmetry. apply (r_sep _ _ _ R i j h hj x); assumption.
      + rewrite !look_set_neq by auto. apply (r_sep _ _ _ R).
  Qed.
  Lemma on_ok : forall n s w i o f r, RepSt n s w -> w i = Some o ->
    (forall t, RepO t o -> Wf V t -> Sim V icap f t (lift V r)) ->
    exists s', on V i f s = R V s' (fst r) /\ RepSt n s' (wput w i (Some (snd r))).
  Proof.
    intros n s w i o f r R E S. destruct (w_some _ _ _ _ _ R E) as (h & Li & RO). unfold on. rewrite Li.
    specialize (S (hsof s h) RO (r_wf _ _ _ R)). unfold Sim in S. fold (hsof s h). destruct r as [[c|] o']; cbn [lift fst snd] in *.
    - destruct (f (hsof s h)) as [t c'|t| |]; try contradiction. destruct S as (-> & RO' & W & F). eexists. split; [reflexivity|].
      eapply RepSt_step; eassumption.
    - destruct (f (hsof s h)) as [t c'|t| |]; try contradiction. destruct S as (RO' & W & F). eexists. split; [reflexivity|].
      eapply RepSt_step; eassumption.
  Qed.

  Lemma fresh_rep : forall t, me V t = fresh V icap -> RepO t new.
  Proof.
    intros t E. split; [cbn; lia|]. rewrite E. cbn. repeat split. unfold full. cbn. f_equal. lia.
  Qed.
  Lemma Destruct_run : forall s o h, RepO s o -> locked o = 0 ->
    exists hp', bind V (Destruct V) (fun _ => bind V (become V h) (fun _ => ret V S_OK)) s = Ret V code (mkhs V hp' (nx V s) h) S_OK /\
      (forall x, own (me V s) <> Some x -> hp' x = hp V s x) /\ (forall x, own (me V s) = Some x -> hp' x = None).
  Proof.
    intros s o h R K. pose proof R as [L R']. cbn in L.
    assert (G1 : GetLockedCount V s = Ret V _ s 0).
    { unfold GetLockedCount. cbn in R'. destruct (me V s); repeat f_equal; intuition congruence. }
    assert (G2 : GetSize V s = Ret V _ s (length (items o))).
    { unfold GetSize. cbn in R'. destruct (me V s); repeat f_equal; intuition congruence. }
    assert (G3 : destroy V 0 (length (items o)) s = put_storage V (full V [] (cap o)) s).
    { unfold destroy, bind. rewrite (storage_ok V icap s _ R). cbn [ao its room]. rewrite region_live by lia. rewrite blit_destroy by lia. reflexivity. }
    unfold bind at 1. unfold Destruct. unfold bind at 1. rewrite G1. unfold bind at 1. rewrite G2. unfold bind at 1. rewrite G3. clear G1 G2 G3.
    unfold put_storage. destruct (me V s) as [k n c|a n cp k] eqn:M; cbn in R'.
    - cbn [me]. unfold bind, become. cbn [me hp nx]. rewrite forallb_raw_full. eexists. split; [reflexivity|]. split; [auto|]. cbn. discriminate.
    - destruct R' as (-> & -> & -> & C & A & H). rewrite H. cbn [me hp nx]. unfold free. cbn [hp nx me]. unfold upd at 1. rewrite Nat.eqb_refl.
      rewrite forallb_raw_full. unfold bind, become. cbn [me hp nx]. eexists. split; [reflexivity|]. split.
      + intros x N. cbn in N. unfold upd. destruct (Nat.eqb_spec x a); [congruence|reflexivity].
      + intros x N. cbn in N. injection N as ->. unfold upd. rewrite Nat.eqb_refl. reflexivity.
  Qed.
  Lemma Destruct_abort : forall A s o (f : unit -> M V A), RepO s o -> 0 < locked o -> bind V (Destruct V) f s = Abort V A.
  Proof.
    intros A s o f [L R'] K.
    assert (G1 : GetLockedCount V s = Ret V _ s (locked o)).
    { unfold GetLockedCount. cbn in R'. destruct (me V s); repeat f_equal; intuition congruence. }
    unfold bind at 1. unfold Destruct. unfold bind at 1. rewrite G1. destruct (locked o); [lia|]. reflexivity.
  Qed.
  Lemma Destruct_frame : forall s h hp', RepO (hsof s h) new \/ True -> (forall x, next s <= x -> heap s x = None) ->
    (forall x, own h <> Some x -> hp' x = heap s x) -> (forall x, own h = Some x -> hp' x = None) ->
    Frame V (hsof s h) (mkhs V hp' (next s) (fresh V icap)).
  Proof.
    intros s h hp' _ W F1 F2. split; [cbn; lia|]. cbn. split.
    - intros x L N. split; [apply F1; assumption|discriminate].
    - intros x [G|G] N; [|destruct N; apply F2; assumption]. destruct (own h) as [y|] eqn:E; [destruct (Nat.eq_dec y x) as [->|NE]|].
      + destruct N. apply F2. reflexivity.
      + destruct N. rewrite F1 by congruence. apply W. assumption.
      + destruct N. rewrite F1 by congruence. apply W. assumption.
  Qed.
  Lemma wf_new : forall s h hp', (forall x, next s <= x -> heap s x = None) ->
    (forall x, own h <> Some x -> hp' x = heap s x) -> (forall x, own h = Some x -> hp' x = None) -> forall x, next s <= x -> hp' x = None.
  Proof.
    intros s h hp' W F1 F2 x L. destruct (own h) as [y|] eqn:E; [destruct (Nat.eq_dec y x) as [->|NE]|].
    - apply F2. reflexivity.
    - rewrite F1 by congruence. apply W. assumption.
    - rewrite F1 by congruence. apply W. assumption.
  Qed.
  Lemma Delete_ok : forall n s w i o, RepSt n s w -> w i = Some o ->
    match Delete V icap i s with
    | R _ s' c => locked o = 0 /\ c = Some S_OK /\ RepSt n s' (wput w i None)
    | Died _ => 0 < locked o
    | Bad _ => False
    end.
  Proof.
    intros n s w i o R E. destruct (w_some _ _ _ _ _ R E) as (h & Li & RO). unfold Delete, on. rewrite Li. fold (hsof s h).
    destruct (locked o) as [|k] eqn:K; [|rewrite (Destruct_abort _ _ o) by (auto; lia); lia].
    destruct (Destruct_run (hsof s h) o (fresh V icap) RO K) as (hp' & X & F1 & F2). rewrite X. cbn [hp nx me hsof heap next objs SooModel.heap SooModel.next SooModel.objs] in *.
    split; [reflexivity|]. split; [reflexivity|]. rewrite set_set.
    pose proof (RepSt_step n s w i h (mkhs V hp' (next s) (fresh V icap)) new R Li (fresh_rep (mkhs V hp' (next s) (fresh V icap)) eq_refl)) as G. cbn [hp nx me] in G.
    specialize (G (wf_new s h hp' (r_wf _ _ _ R) F1 F2) (Destruct_frame s h hp' (or_intror I) (r_wf _ _ _ R) F1 F2)).
    pose proof (look_lt _ _ _ Li) as LI. destruct G as [G1 G2 G3 G4 G5]. split.
    - cbn in *. rewrite set_length in *. assumption.
    - intros j. specialize (G2 j). unfold wput in *. destruct (Nat.eqb_spec j i) as [EJ|NE]; [subst j; rewrite look_set_eq by assumption; reflexivity|].
      rewrite look_set_neq in * by auto. exact G2.
    - exact G3.
    - intros x N. destruct (G4 x N) as (j & hj & Lj & Oj). destruct (Nat.eq_dec i j) as [->|NE].
      + rewrite look_set_eq in Lj by assumption. injection Lj as <-. discriminate.
      + exists j, hj. rewrite look_set_neq in * by auto. auto.
    - intros j k hj hk x. destruct (Nat.eq_dec j i) as [->|Nj]; [rewrite look_set_eq by assumption; discriminate|].
      destruct (Nat.eq_dec k i) as [->|Nk]; [rewrite look_set_eq by assumption; discriminate|].
      intros A B. apply (G5 j k hj hk x); rewrite look_set_neq in * by auto; assumption.
  Qed.

  Lemma peek_ok : forall n s w j o (f : list V -> result V), RepSt n s w -> w j = Some o -> peek V j s f = f (items o).
  Proof.
    intros n s w j o f R E. destruct (w_some _ _ _ _ _ R E) as (h & Lj & RO). unfold peek. rewrite Lj. fold (hsof s h).
    pose proof (r_wf _ _ _ R : Wf V (hsof s h)) as W.
    assert (S : Sim V icap (bind V (GetSize V) (fun n => read V 0 n)) (hsof s h) (ARet V _ (ao V o) (items o))).
    { eapply Sim_bind; [apply GetSize_sim; eassumption|]. intros t Rt Wt. apply (read_sim V icap t (ao V o)); auto. }
    unfold Sim in S. destruct (bind V _ _ (hsof s h)); try contradiction. destruct S as (-> & _). reflexivity.
  Qed.
  Lemma cap_ge : forall n s w i o, RepSt n s w -> w i = Some o -> icap <= cap o /\ length (items o) <= cap o.
  Proof.
    intros n s w i o R E. destruct (w_some _ _ _ _ _ R E) as (h & Li & RO). destruct RO as [L RO]. split; [|exact L].
    cbn in RO. destruct h; intuition lia.
  Qed.
  Lemma locks_eq : forall n s w i o h, RepSt n s w -> w i = Some o -> look s i = Some h -> locks V h = locked o.
  Proof.
    intros n s w i o h R E Li. destruct (w_some _ _ _ _ _ R E) as (h' & Li' & RO). rewrite Li in Li'. injection Li' as <-.
    destruct RO as [L RO]. cbn in RO. destruct h; cbn; intuition.
  Qed.
  Lemma small_eq : forall n s w i o h, RepSt n s w -> w i = Some o -> look s i = Some h ->
    match h with Small _ _ _ _ => cap o <= icap | Large _ _ _ _ _ => icap < cap o end.
  Proof.
    intros n s w i o h R E Li. destruct (w_some _ _ _ _ _ R E) as (h' & Li' & RO). rewrite Li in Li'. injection Li' as <-.
    destruct RO as [L RO]. cbn in RO. destruct h; intuition lia.
  Qed.
  Lemma weq_rep : forall n s w w', RepSt n s w -> (forall i, w i = w' i) -> RepSt n s w'.
  Proof.
    intros n s w w' [R1 R2 R3 R4 R5] E. split; auto. intros i. specialize (R2 i). rewrite <- E. exact R2.
  Qed.
  (** The header of [j] goes to [i], whose storage is gone. *)
  Lemma swap_ok : forall n s w i j oi oj h hj, RepSt n s w -> i <> j -> w i = Some oi -> w j = Some oj -> look s i = Some h -> look s j = Some hj ->
    locked oi = 0 ->
    exists s', match on V i (bind V (Destruct V) (fun _ => bind V (become V hj) (fun _ => ret V S_OK))) s with
               | R _ s' r => R V (ST V (heap s') (next s') (set (objs s') j (Some (fresh V icap)))) r
               | x => x
               end = R V s' (Some S_OK) /\ RepSt n s' (wput (wput w i (Some oj)) j (Some new)).
  Proof.
    intros n s w i j oi oj h hj R NE Ei Ej Li Lj K. destruct (w_some _ _ _ _ _ R Ei) as (h' & Li' & RO). rewrite Li in Li'. injection Li' as <-.
    destruct (w_some _ _ _ _ _ R Ej) as (h' & Lj' & ROj). rewrite Lj in Lj'. injection Lj' as <-.
    unfold on. rewrite Li. fold (hsof s h).
    destruct (Destruct_run (hsof s h) oi hj RO K) as (hp' & X & F1 & F2). rewrite X. cbn [hp nx me hsof SooModel.heap SooModel.next SooModel.objs] in *.
    eexists. split; [reflexivity|]. pose proof (look_lt _ _ _ Li) as LI. pose proof (look_lt _ _ _ Lj) as LJ.
    set (s' := ST V hp' (next s) _).
    assert (Qi : look s' i = Some hj).
    { unfold s', SooModel.look. cbn. rewrite nth_set_neq by auto. rewrite nth_set_eq by assumption. reflexivity. }
    assert (Qj : look s' j = Some (fresh V icap)).
    { unfold s', SooModel.look. cbn. rewrite nth_set_eq by (rewrite set_length; assumption). reflexivity. }
    assert (Qk : forall k, k <> i -> k <> j -> look s' k = look s k).
    { intros k N1 N2. unfold s', SooModel.look. cbn. rewrite !nth_set_neq by auto. reflexivity. }
    split.
    - unfold s'. cbn. rewrite !set_length. apply R.
    - intros k. unfold wput. destruct (Nat.eqb_spec k j) as [->|Nj].
      + rewrite Qj. exists new. split; [reflexivity|]. apply fresh_rep. reflexivity.
      + destruct (Nat.eqb_spec k i) as [->|Ni].
        * rewrite Qi. exists oj. split; [reflexivity|]. apply (RepO_heap s); [assumption|cbn; lia|]. cbn. intros x Ex. apply F1. intros Q. apply NE.
          apply (r_sep _ _ _ R i j h hj x); assumption.
        * rewrite Qk by assumption. pose proof (r_obj _ _ _ R k) as Y. destruct (look s k) as [hk|] eqn:Lk; [|assumption].
          destruct Y as (o & E & Y). exists o. split; [assumption|]. apply (RepO_heap s); [assumption|cbn; lia|]. cbn. intros x Ex. apply F1. intros Q. apply Ni.
          apply (r_sep _ _ _ R k i hk h x); assumption.
    - apply (wf_new s h hp' (r_wf _ _ _ R) F1 F2).
    - cbn. intros x N. assert (N1 : own h <> Some x) by (intros Q; apply N, F2; assumption).
      rewrite F1 in N by assumption. destruct (r_own _ _ _ R x N) as (k & hk & Lk & Ok).
      destruct (Nat.eq_dec k i) as [->|Ni]; [congruence|]. destruct (Nat.eq_dec k j) as [->|Nj].
      + exists i, hj. split; [assumption|]. congruence.
      + exists k, hk. rewrite Qk by assumption. auto.
    - intros a b ha hb x A B Oa Ob.
      destruct (Nat.eq_dec a j) as [->|Aj]; [rewrite Qj in A; injection A as <-; discriminate|].
      destruct (Nat.eq_dec b j) as [->|Bj]; [rewrite Qj in B; injection B as <-; discriminate|].
      destruct (Nat.eq_dec a i) as [->|Ai]; destruct (Nat.eq_dec b i) as [->|Bi]; auto.
      + rewrite Qi in A. injection A as <-. rewrite Qk in B by assumption. exfalso. apply Bj. symmetry. apply (r_sep _ _ _ R j b hj hb x); assumption.
      + rewrite Qi in B. injection B as <-. rewrite Qk in A by assumption. exfalso. apply Aj. symmetry. apply (r_sep _ _ _ R j a hj ha x); assumption.
      + rewrite Qk in A, B by assumption. apply (r_sep _ _ _ R a b ha hb x); assumption.
  Qed.

  Lemma small_copy : forall n s w i j oi oj oom, RepSt n s w -> w i = Some oi -> w j = Some oj -> locked oi = 0 -> cap oj <= icap ->
    exists s', peek V j s (fun l => on V i (SetArray V trivial icap oom l) s) = R V s' (Some S_OK) /\
      RepSt n s' (wput w i (Some (OB (items oj) (cap oi) 0))).
  Proof.
    intros n s w i j oi oj oom R Ei Ej K C. rewrite (peek_ok n s w j oj _ R Ej).
    destruct (on_ok n s w i oi _ (s_set V oom (items oj) oi) R Ei (fun t => SetArray_sim V dflt moved trivial icap t oi oom (items oj))) as (s' & E & RS).
    exists s'. destruct (cap_ge _ _ _ _ _ R Ei) as [C1 _]. destruct (cap_ge _ _ _ _ _ R Ej) as [_ C2].
    assert (Q : s_set V oom (items oj) oi = (Some S_OK, OB (items oj) (cap oi) 0)).
    { unfold s_set, edit, ensure. rewrite K. cbn [Nat.ltb Nat.leb andb]. destruct (Nat.leb_spec (length (items oj)) (cap oi)); [reflexivity|lia]. }
    rewrite Q in *. auto.
  Qed.
  Definition Ok (n : nat) (r : result V) (g : goes) : Prop :=
    match r, g with
    | R _ s' c, Goes c' w' => c = c' /\ RepSt n s' w'
    | Died _, Dies => True
    | _, _ => False
    end.
  Lemma move_ok : forall n s w i j oi oj oom, RepSt n s w -> i <> j -> w i = Some oi -> w j = Some oj ->
    match SetArrayMove V trivial icap oom i j s, move w i j oi oj with
    | R _ s' (Some S_OK), Goes (Some S_OK) w' => RepSt n s' w'
    | R _ s' (Some E_INVALIDARG), Dies => s' = s
    | _, _ => False
    end.
  Proof.
    intros n s w i j oi oj oom R NE Ei Ej. destruct (w_some _ _ _ _ _ R Ei) as (h & Li & _). destruct (w_some _ _ _ _ _ R Ej) as (hj & Lj & _).
    unfold SetArrayMove, move. rewrite Li, Lj. destruct (Nat.eqb_spec i j); [contradiction|].
    rewrite (locks_eq _ _ _ _ _ _ R Ei Li), (locks_eq _ _ _ _ _ _ R Ej Lj).
    destruct (Nat.ltb_spec 0 (locked oj)); cbn [orb]; [reflexivity|]. destruct (Nat.ltb_spec 0 (locked oi)); cbn [orb]; [reflexivity|].
    pose proof (small_eq _ _ _ _ _ _ R Ej Lj) as SE. destruct hj as [k m c|a m cp k].
    - destruct (Nat.leb_spec (cap oj) icap); [|lia].
      destruct (small_copy n s w i j oi oj oom R Ei Ej ltac:(lia) SE) as (s' & E & RS). rewrite E. assumption.
    - destruct (Nat.leb_spec (cap oj) icap); [lia|].
      destruct (swap_ok n s w i j oi oj h _ R NE Ei Ej Li Lj ltac:(lia)) as (s' & E & RS). rewrite E. assumption.
  Qed.

  Lemma new_state : forall n s w i, RepSt n s w -> w i = None -> i < n ->
    RepSt n (ST V (heap s) (next s) (set (objs s) i (Some (fresh V icap)))) (wput w i (Some new)).
  Proof.
    intros n s w i R E L. pose proof (w_none _ _ _ _ R E) as Li. destruct R as [R1 R2 R3 R4 R5]. rewrite <- R1 in L. split.
    - cbn. rewrite set_length. assumption.
    - intros j. unfold wput. destruct (Nat.eqb_spec j i) as [->|NE].
      + rewrite look_set_eq by assumption. exists new. split; [reflexivity|]. apply fresh_rep. reflexivity.
      + rewrite look_set_neq by auto. apply R2.
    - exact R3.
    - cbn. intros x N. destruct (R4 x N) as (j & hj & Lj & Oj). assert (i <> j) by congruence. exists j, hj. rewrite look_set_neq by auto. auto.
    - intros j k hj hk x. destruct (Nat.eq_dec j i) as [->|Nj]; [rewrite look_set_eq by assumption; intros A; injection A as <-; discriminate|].
      destruct (Nat.eq_dec k i) as [->|Nk]; [rewrite look_set_eq by assumption; intros _ A; injection A as <-; discriminate|].
      rewrite !look_set_neq by auto. apply R5.
  Qed.
  Lemma make_ok : forall n s w i body r, RepSt n s w -> w i = None -> i < n ->
    (forall s0, RepSt n s0 (wput w i (Some new)) -> exists s', body s0 = R V s' (fst r) /\ RepSt n s' (wput (wput w i (Some new)) i (Some (snd r)))) ->
    (fst r = Some S_OK \/ locked (snd r) = 0) ->
    Ok n (make V icap i body s) (born w i r).
  Proof.
    intros n s w i body r R E L B LK. unfold make. rewrite (w_none _ _ _ _ R E). rewrite (r_len _ _ _ R).
    destruct (Nat.ltb_spec i n); [|lia]. cbn [andb]. destruct (B _ (new_state n s w i R E L)) as (s' & Eb & RS). rewrite Eb.
    destruct r as [c o']. cbn [fst snd] in *.
    assert (D : c <> Some S_OK -> Ok n (match Delete V icap i s' with R _ s2 _ => SooModel.R V s2 None | x => x end) (Goes None w)).
    { intros NC. destruct LK as [LK|LK]; [contradiction|].
      pose proof (Delete_ok n s' _ i o' RS ltac:(unfold wput; rewrite Nat.eqb_refl; reflexivity)) as X.
      destruct (Delete V icap i s') as [s2 c2| |]; [|lia|contradiction]. destruct X as (_ & _ & X). split; [reflexivity|].
      eapply weq_rep; [exact X|]. intros k. unfold wput. destruct (Nat.eqb_spec k i) as [->|]; [symmetry; assumption|reflexivity]. }
    destruct c as [[]|]; cbn [born]; try (apply D; discriminate).
    split; [reflexivity|]. eapply weq_rep; [exact RS|]. intros k. unfold wput. destruct (k =? i); reflexivity.
  Qed.
  Lemma s_set_locked : forall oom l o, locked (snd (s_set V oom l o)) = locked o.
  Proof.
    intros. unfold s_set, edit. destruct (_ && _); [reflexivity|]. destruct (ensure V oom (length l) (length l) o); reflexivity.
  Qed.
  Lemma s_set_fail : forall oom l o, fst (s_set V oom l o) <> Some S_OK -> snd (s_set V oom l o) = o.
  Proof.
    intros oom l o H. unfold s_set, edit in *. destruct (_ && _); [reflexivity|]. destruct (ensure V oom (length l) (length l) o); cbn in *; [contradiction|reflexivity].
  Qed.

  Lemma step_ok : forall n s w o, RepSt n s w -> pre n w o -> Ok n (run_op o s) (spec w o).
  Proof.
    intros n s w o R P.
    assert (ON : forall i f sp, (exists x, w i = Some x) -> (forall x t, w i = Some x -> RepO t x -> Wf V t -> Sim V icap f t (lift V (sp x))) ->
      Ok n (on V i f s) (at_ w i sp)).
    { intros i f sp [x E] S. destruct (on_ok n s w i x f (sp x) R E (fun t => S x t E)) as (s' & E' & RS). rewrite E'. unfold at_. rewrite E.
      destruct (sp x) as [c o']. split; [reflexivity|exact RS]. }
    destruct o; cbn [pre SooModel.run_op spec] in *.
    - (* New *) destruct P as [L E]. apply make_ok; auto. intros s0 R0. exists s0. split; [reflexivity|].
      eapply weq_rep; [exact R0|]. intros k. unfold wput. cbn. destruct (k =? i); reflexivity.
    - (* NewList *) destruct P as [L E]. apply make_ok; auto; [|right; apply s_set_locked]. intros s0 R0.
      apply on_ok with (o := new); [assumption|unfold wput; rewrite Nat.eqb_refl; reflexivity|]. intros t. apply (SetArray_sim V dflt moved trivial).
    - (* NewCopy *) destruct P as (L & E & oj & Ej). rewrite Ej. destruct (w_some _ _ _ _ _ R Ej) as (hj & Lj & _). rewrite Lj.
      apply make_ok; auto; [|right; apply s_set_locked]. intros s0 R0. unfold SetArrayCopy. destruct (Nat.eqb_spec i j) as [->|NE]; [congruence|].
      rewrite (peek_ok n s0 _ j oj _ R0) by (unfold wput; destruct (Nat.eqb_spec j i); [congruence|assumption]).
      apply on_ok with (o := new); [assumption|unfold wput; rewrite Nat.eqb_refl; reflexivity|]. intros t. apply (SetArray_sim V dflt moved trivial).
    - (* NewMove *) destruct P as (L & E & oj & Ej). rewrite Ej. destruct (w_some _ _ _ _ _ R Ej) as (hj & Lj & _). rewrite Lj.
      assert (NE : i <> j) by (intros ->; congruence).
      unfold make. rewrite (w_none _ _ _ _ R E). rewrite (r_len _ _ _ R). destruct (Nat.ltb_spec i n); [|lia]. cbn [andb].
      pose proof (new_state n s w i R E L) as R0. set (s0 := ST V _ _ _) in *.
      assert (W0 : wput w i (Some new) j = Some oj) by (unfold wput; destruct (Nat.eqb_spec j i); [congruence|assumption]).
      assert (W1 : wput w i (Some new) i = Some new) by (unfold wput; rewrite Nat.eqb_refl; reflexivity).
      pose proof (move_ok n s0 _ i j new oj oom R0 NE W1 W0) as X.
      unfold move in *. destruct ((0 <? locked oj) || (0 <? locked new)) eqn:LK.
      + destruct (SetArrayMove V trivial icap oom i j s0) as [s' [[]|]| |]; try contradiction. subst s'.
        pose proof (Delete_ok n s0 _ i new R0 W1) as D. destruct (Delete V icap i s0); [exact I|exact I|contradiction].
      + destruct (Nat.leb_spec (cap oj) icap).
        * destruct (SetArrayMove V trivial icap oom i j s0) as [s' [[]|]| |]; try contradiction. split; [reflexivity|].
          eapply weq_rep; [exact X|]. intros k. unfold wput. destruct (k =? i); reflexivity.
        * destruct (SetArrayMove V trivial icap oom i j s0) as [s' [[]|]| |]; try contradiction. split; [reflexivity|].
          eapply weq_rep; [exact X|]. intros k. unfold wput. destruct (k =? j); [reflexivity|]. destruct (k =? i); reflexivity.
    - (* Delete *) destruct P as [x E]. rewrite E. pose proof (Delete_ok n s w i x R E) as X.
      destruct (Delete V icap i s) as [s' c| |]; [| |contradiction].
      + destruct X as (-> & -> & X). cbn. auto.
      + destruct (Nat.ltb_spec 0 (locked x)); [exact I|lia].
    - (* Assign *) destruct P as ([oi Ei] & oj & Ej). unfold SetArrayCopy. destruct (w_some _ _ _ _ _ R Ei) as (h & Li & _).
      destruct (Nat.eqb_spec i j) as [->|NE]; [rewrite Li; cbn; auto|]. rewrite Ei, Ej. rewrite (peek_ok n s w j oj _ R Ej).
      destruct (on_ok n s w i oi _ (s_set V oom (items oj) oi) R Ei (fun t => SetArray_sim V dflt moved trivial icap t oi oom (items oj))) as (s' & E & RS).
      rewrite E. pose proof (s_set_fail oom (items oj) oi) as SF. destruct (s_set V oom (items oj) oi) as [[[]|] o']; cbn [fst snd born] in *;
        split; try reflexivity; try exact RS; rewrite SF in RS by discriminate; (eapply weq_rep; [exact RS|]); intros k; unfold wput;
        destruct (Nat.eqb_spec k i) as [->|]; auto.
    - (* AssignMove *) destruct P as ([oi Ei] & oj & Ej). destruct (w_some _ _ _ _ _ R Ei) as (h & Li & _). destruct (w_some _ _ _ _ _ R Ej) as (hj & Lj & _).
      destruct (Nat.eqb_spec i j) as [->|NE].
      + unfold SetArrayMove. rewrite Lj. rewrite Nat.eqb_refl. cbn. auto.
      + rewrite Ei, Ej. pose proof (move_ok n s w i j oi oj oom R NE Ei Ej) as X.
        destruct (SetArrayMove V trivial icap oom i j s) as [s' [[]|]| |]; destruct (move w i j oi oj) as [[[]|] w'|]; try contradiction; cbn; auto.
    - apply ON; [assumption|]. intros. apply (SetArray_sim V dflt moved trivial); assumption.
    - apply ON; [assumption|]. intros. apply (Clear_sim V dflt moved); assumption.
    - apply ON; [assumption|]. intros. apply (Reserve_sim V dflt moved trivial); assumption.
    - apply ON; [assumption|]. intros. apply (Resize_sim V dflt moved trivial); assumption.
    - apply ON; [assumption|]. intros x t _ Rt Wt. pose proof (LockBufferAndSetSize_sim V dflt moved trivial icap t x oom n0 Rt Wt) as X.
      unfold s_lock, edit in *. destruct ((n0 <? length (items x)) && (0 <? locked x)); [apply Sim_bind_exn; exact X|].
      destruct (ensure V oom n0 (up16 n0) x) as [x'|]; (eapply Sim_bind; [exact X|]); intros; apply Sim_ret; assumption.
    - apply ON; [assumption|]. intros. apply (UnlockBuffer_sim V dflt moved); assumption.
    - destruct P as (x & E & K & L). apply ON; [eauto|]. intros y t Ey Rt Wt. rewrite E in Ey. injection Ey as <-. apply (WriteLocked_sim V dflt moved); assumption.
    - apply ON; [assumption|]. intros. apply (SetItem_sim V dflt moved trivial); assumption.
    - apply ON; [assumption|]. intros. apply (AddMany_sim V dflt moved trivial); assumption.
    - apply ON; [assumption|]. intros. apply (AddMany_sim V dflt moved trivial); assumption.
    - destruct P as (x & E & T). apply ON; [eauto|]. intros y t Ey Rt Wt. rewrite E in Ey. injection Ey as <-. apply (Insert_sim V dflt moved trivial); assumption.
    - destruct P as (x & E & T). apply ON; [eauto|]. intros y t Ey Rt Wt. rewrite E in Ey. injection Ey as <-. apply (Remove_sim V dflt moved trivial); assumption.
    - apply ON; [assumption|]. intros. apply (Sort_sim V dflt moved trivial qs qs_perm); assumption.
  Qed.

  Lemma init_ok : forall n, RepSt n (init V n) nothing.
  Proof.
    intros n.
    assert (N : forall i, look (init V n) i = None).
    { intros i. unfold SooModel.look, init. cbn. destruct (nth_error (repeat None n) i) eqn:E; [|reflexivity].
      apply nth_error_In in E. apply repeat_spec in E. assumption. }
    split; cbn; intros; try contradiction; try congruence.
    - apply repeat_length.
    - rewrite N. reflexivity.
  Qed.
  Lemma run_ok : forall n ops s w, RepSt n s w -> safe n w ops ->
    match run s ops, specs w ops with
    | Done _ s' rs, SDone w' rs' => rs = rs' /\ RepSt n s' w'
    | Ended _ rs, SEnded rs' => rs = rs'
    | _, _ => False
    end.
  Proof.
    intros n ops. induction ops as [|o ops IH]; intros s w R S; [split; auto|]. cbn [safe] in S. destruct S as [P S].
    pose proof (step_ok n s w o R P) as X. cbn [SooModel.run specs].
    destruct (run_op o s) as [s1 c| |]; destruct (spec w o) as [c' w1|]; try contradiction; [|reflexivity].
    destruct X as [-> R1]. specialize (IH s1 w1 R1 S). destruct (run s1 ops); destruct (specs w1 ops); try contradiction.
    - destruct IH as [-> IH]. auto.
    - congruence.
  Qed.
  Lemma contents_rep : forall n s w i, RepSt n s w -> contents s i = match w i with Some o => Some (map Some (items o)) | None => None end.
  Proof.
    intros n s w i R. unfold contents, cells_of. pose proof (r_obj _ _ _ R i) as X. destruct (look s i) as [h|]; [|rewrite X; reflexivity].
    destruct X as (o & E & X). rewrite E. destruct X as [L X]. cbn in L, X.
    assert (Q : forall n m, n = length (items o) -> firstn n (full V (items o) m) = map Some (items o)).
    { intros n0 m ->. unfold full. rewrite <- (map_length Some (items o)). rewrite firstn_app, Nat.sub_diag, firstn_all. cbn. apply app_nil_r. }
    unfold full in Q. destruct h as [k m c|a m cp k].
    - destruct X as (A & B & C & D). rewrite D, B. rewrite Q by reflexivity. reflexivity.
    - destruct X as (A & B & C & _ & _ & D). rewrite D, A. rewrite Q by reflexivity. reflexivity.
  Qed.

  (** ** Refinement
      Whatever a program does with any number of arrays, it never reads, writes or frees outside
      the storage in use and never uses raw storage as an element ([Wrong]), the result codes and
      exceptions are those of the specification, it is terminated where the specification says so,
      and every array holds the specified elements.  Missing for the full property: Insert and
      Remove that move elements with a move of their own over each other (C06). *)
  Theorem C04_refines_partial : forall n ops, safe n nothing ops ->
    match run (init V n) ops, specs nothing ops with
    | Done _ s rs, SDone w rs' => rs = rs' /\ forall i, contents s i = match w i with Some o => Some (map Some (items o)) | None => None end
    | Ended _ rs, SEnded rs' => rs = rs'
    | _, _ => False
    end.
  Proof.
    intros n ops S. pose proof (run_ok n ops _ _ (init_ok n) S) as X.
    destruct (run (init V n) ops); destruct (specs nothing ops); try contradiction; auto. destruct X as [-> R]. split; [reflexivity|].
    intros i. apply (contents_rep n). assumption.
  Qed.

  (** The storage of every array is exactly as large as the recorded capacity (the inside one for
      a small array, a block of the heap for a large one), its first cells are elements and the
      others raw. *)
  Theorem C04_storage : forall n ops s rs, safe n nothing ops -> run (init V n) ops = Done V s rs ->
    forall i h, look s i = Some h ->
    exists c size room, match h with
                        | Small _ _ k c' => k = size /\ c' = c /\ room = icap
                        | Large _ a k cp _ => k = size /\ heap s a = Some c /\ room = cp /\ icap < cp
                        end /\ length c = room /\ size <= room /\
      forall k, (k < size -> exists v, nth_error c k = Some (Some v)) /\ (size <= k < room -> nth_error c k = Some None).
  Proof.
    intros n ops s rs S E i h Li. pose proof (run_ok n ops _ _ (init_ok n) S) as X. rewrite E in X.
    destruct (specs nothing ops); try contradiction. destruct X as [_ R]. pose proof (r_obj _ _ _ R i) as X. rewrite Li in X.
    destruct X as (o & _ & L & X). cbn in L, X. exists (full V (items o) (cap o)), (length (items o)), (cap o). split.
    - destruct h as [k m c|a m cp k]; [destruct X as (_ & B & C & D)|destruct X as (A & B & C & D & _ & F)].
      + repeat split; auto. rewrite D, C. reflexivity.
      + repeat split; auto. rewrite F, B. reflexivity.
    - split; [unfold full; rewrite app_length, map_length, repeat_length; lia|]. split; [assumption|]. intros k. unfold full. split; intros Q.
      + rewrite nth_error_app1 by (rewrite map_length; lia). rewrite nth_error_map. destruct (nth_error (items o) k) eqn:N; [cbn; eauto|].
        apply nth_error_None in N. lia.
      + rewrite nth_error_app2 by (rewrite map_length; lia). rewrite map_length. apply nth_error_repeat. lia.
  Qed.

  (** ** Heap blocks *)
  Theorem C04_no_leak : forall n ops s rs, safe n nothing ops -> run (init V n) ops = Done V s rs ->
    (forall x, heap s x <> None -> exists i k cp l, look s i = Some (Large V x k cp l) /\
       forall j k' cp' l', look s j = Some (Large V x k' cp' l') -> j = i) /\
    ((forall i, look s i = None) -> forall x, heap s x = None).
  Proof.
    intros n ops s rs S E. pose proof (run_ok n ops _ _ (init_ok n) S) as X. rewrite E in X.
    destruct (specs nothing ops); try contradiction. destruct X as [_ R]. split.
    - intros x N. destruct (r_own _ _ _ R x N) as (i & h & Li & O). destruct h as [|a k cp l]; [discriminate|]. injection O as ->.
      exists i, k, cp, l. split; [assumption|]. intros j k' cp' l' Lj. apply (r_sep _ _ _ R j i _ _ x Lj Li); reflexivity.
    - intros N x. destruct (heap s x) eqn:H; [|reflexivity]. destruct (r_own _ _ _ R x) as (i & h & Li & _); [congruence|]. rewrite N in Li. discriminate.
  Qed.

  (** ** Lists
      Without failing allocations, locks and moves an array is a plain list: capacities, and so
      the place where the elements are stored, make no difference to results and contents. *)
  Definition lworld := nat -> option (list V).
  Definition lput (w : lworld) (i : nat) (x : option (list V)) : lworld := fun k => if k =? i then x else w k.
  Definition take (w : lworld) (i : nat) (f : list V -> code * list V) : code * lworld :=
    match w i with Some l => (fst (f l), lput w i (Some (snd (f l)))) | None => (E_INVALIDARG, w) end.
  Definition list_step (w : lworld) (o : op) : code * lworld :=
    match o with
    | ONew _ i => (S_OK, lput w i (Some []))
    | ONewList _ _ i l => (S_OK, lput w i (Some l))
    | ONewCopy _ _ i j => (S_OK, lput w i (w j))
    | ODelete _ i => (S_OK, lput w i None)
    | OAssign _ _ i j => (S_OK, lput w i (w j))
    | OSetArray _ _ i l => take w i (fun _ => (S_OK, l))
    | OClear _ i => take w i (fun _ => (S_OK, []))
    | OReserve _ _ i _ => take w i (fun l => (S_OK, l))
    | OResize _ _ i n => take w i (fun l => (S_OK, firstn n l ++ repeat dflt (n - length l)))
    | OSetItem _ _ i k v => take w i (fun l => if k <? length l then (S_OK, firstn k l ++ v :: skipn (k + 1) l) else (E_BOUNDS, l))
    | OAdd _ _ i v => take w i (fun l => (S_OK, l ++ [v]))
    | OAddMany _ _ i l => take w i (fun l0 => (S_OK, l0 ++ l))
    | OInsert _ _ i k v => take w i (fun l => if k <=? length l then (S_OK, firstn k l ++ v :: skipn k l) else (E_BOUNDS, l))
    | ORemove _ _ i k c => take w i (fun l => (S_OK, firstn k l ++ skipn (k + c) l))
    | OSort _ _ i => take w i (fun l => if length l <? 2 then (S_FALSE, l) else (S_OK, qs l))
    | _ => (E_INVALIDARG, w)
    end.
  Definition plain (o : op) : Prop :=
    match o with
    | ONewMove _ _ _ _ | OAssignMove _ _ _ _ | OLock _ _ _ _ | OUnlock _ _ | OWrite _ _ _ _ => False
    | ONewList _ oom _ _ | ONewCopy _ oom _ _ | OAssign _ oom _ _ | OSetArray _ oom _ _ | OReserve _ oom _ _ | OResize _ oom _ _
    | OSetItem _ oom _ _ _ | OAdd _ oom _ _ | OAddMany _ oom _ _ | OInsert _ oom _ _ _ | ORemove _ oom _ _ _ | OSort _ oom _ => oom = false
    | _ => True
    end.
  Fixpoint list_run (w : lworld) (ops : list op) : list code * lworld :=
    match ops with
    | [] => ([], w)
    | o :: ops' => let '(c, w1) := list_step w o in let '(cs, w2) := list_run w1 ops' in (c :: cs, w2)
    end.
  (** What the program may do, in terms of the lists alone. *)
  Definition lpre (n : nat) (w : lworld) (o : op) : Prop :=
    match o with
    | ONew _ i | ONewList _ _ i _ => i < n /\ w i = None
    | ONewCopy _ _ i j => i < n /\ w i = None /\ w j <> None
    | OAssign _ _ i j => w i <> None /\ w j <> None
    | OInsert _ _ i k _ => exists l, w i = Some l /\ (trivial = true \/ length l <= k + 2)
    | ORemove _ _ i k c => exists l, w i = Some l /\ (trivial = true \/ length l <= k + 2 * Nat.min c (length l - k))
    | ODelete _ i | OSetArray _ _ i _ | OClear _ i | OReserve _ _ i _ | OResize _ _ i _
    | OSetItem _ _ i _ _ | OAdd _ _ i _ | OAddMany _ _ i _ | OSort _ _ i => w i <> None
    | _ => False
    end.
  Fixpoint lsafe (n : nat) (w : lworld) (ops : list op) : Prop :=
    match ops with [] => True | o :: ops' => plain o /\ lpre n w o /\ lsafe n (snd (list_step w o)) ops' end.

  Definition same (w : world) (l : lworld) : Prop :=
    forall i, match w i with Some o => l i = Some (items o) /\ locked o = 0 | None => l i = None end.
  Lemma same_put : forall w l i o, same w l -> locked o = 0 -> same (wput w i (Some o)) (lput l i (Some (items o))).
  Proof. intros w l i o S K j. unfold wput, lput. destruct (j =? i); [auto|apply S]. Qed.
  Lemma same_some : forall w l i, same w l -> l i <> None -> exists o, w i = Some o /\ l i = Some (items o) /\ locked o = 0.
  Proof. intros w l i S N. specialize (S i). destruct (w i) as [o|]; [exists o; tauto|contradiction]. Qed.
  Lemma same_none : forall w l i, same w l -> l i = None -> w i = None.
  Proof. intros w l i S N. specialize (S i). destruct (w i) as [o|]; [destruct S; congruence|reflexivity]. Qed.
  Lemma edit_plain : forall n m f o, locked o = 0 -> exists cp, edit V false n m f o = (Some S_OK, OB (f (items o)) cp 0).
  Proof. intros n m f o K. unfold edit, ensure. rewrite K. destruct (n <=? cap o); eexists; reflexivity. Qed.
  Lemma set_plain : forall l o, locked o = 0 -> exists cp, s_set V false l o = (Some S_OK, OB l cp 0).
  Proof. intros l o K. unfold s_set. rewrite K. apply (edit_plain _ _ (fun _ => l)). assumption. Qed.
  Lemma at_plain : forall w l i o f g, same w l -> w i = Some o ->
    (exists c' cp, f o = (Some c', OB (snd (g (items o))) cp 0) /\ c' = fst (g (items o))) ->
    match at_ w i f with Goes c w' => c = Some (fst (take l i g)) /\ same w' (snd (take l i g)) | Dies => False end.
  Proof.
    intros w l i o f g S E (c' & cp & F & ->). unfold at_, take. rewrite E, F. pose proof (S i) as Q. rewrite E in Q. destruct Q as [-> _].
    cbn [fst snd]. split; [reflexivity|]. apply (same_put w l i (OB _ cp 0) S). reflexivity.
  Qed.
  Lemma OB_eta : forall o, locked o = 0 -> o = OB (items o) (cap o) 0.
  Proof. intros [l c k] E. cbn in *. congruence. Qed.
  Lemma clear_plain : forall o, locked o = 0 -> exists cp, s_clear V o = (Some S_OK, OB [] cp 0).
  Proof.
    intros [l c k] E. cbn in E. subst k. unfold s_clear. cbn. destruct l; eexists; reflexivity.
  Qed.
  Lemma plain_step : forall n w l o, same w l -> plain o -> lpre n l o ->
    pre n w o /\ match spec w o with Goes c w' => c = Some (fst (list_step l o)) /\ same w' (snd (list_step l o)) | Dies => False end.
  Proof.
    intros n w l o S P L.
    destruct o; cbn [plain lpre pre spec list_step] in *; try contradiction.
    - destruct L as [L N]. pose proof (same_none _ _ _ S N). split; [auto|]. cbn. split; [reflexivity|]. apply (same_put w l i new S). reflexivity.
    - subst. destruct L as [L N]. pose proof (same_none _ _ _ S N). split; [auto|]. destruct (set_plain l0 new eq_refl) as (cp & ->). cbn.
      split; [reflexivity|]. apply (same_put w l i (OB l0 cp 0) S). reflexivity.
    - subst. destruct L as (L & N & J). pose proof (same_none _ _ _ S N). destruct (same_some _ _ _ S J) as (o & Ej & Lj & K). split; [eauto|].
      rewrite Ej. destruct (set_plain (items o) new eq_refl) as (cp & ->). cbn. split; [reflexivity|]. rewrite Lj.
      apply (same_put w l i (OB (items o) cp 0) S). reflexivity.
    - destruct (same_some _ _ _ S L) as (o & E & Li & K). split; [eauto|]. rewrite E, K. cbn. split; [reflexivity|].
      intros j. unfold wput, lput. destruct (j =? i); [reflexivity|apply S].
    - subst. destruct L as (L & J). destruct (same_some _ _ _ S L) as (oi & Ei & Li & Ki). destruct (same_some _ _ _ S J) as (o & Ej & Lj & K).
      split; [eauto|]. destruct (Nat.eqb_spec i j) as [->|NE].
      + split; [reflexivity|]. cbn. intros k. unfold lput. destruct (Nat.eqb_spec k j) as [->|]; apply S.
      + rewrite Ei, Ej. destruct (set_plain (items o) oi Ki) as (cp & ->). cbn. split; [reflexivity|]. rewrite Lj.
        apply (same_put w l i (OB (items o) cp 0) S). reflexivity.
    - subst. destruct (same_some _ _ _ S L) as (o & E & Li & K). split; [eauto|]. apply (at_plain w l i o _ _ S E).
      destruct (set_plain l0 o K) as (cp & ->). eauto.
    - destruct (same_some _ _ _ S L) as (o & E & Li & K). split; [eauto|]. apply (at_plain w l i o _ _ S E).
      destruct (clear_plain o K) as (cp & ->). eauto.
    - subst. destruct (same_some _ _ _ S L) as (o & E & Li & K). split; [eauto|]. apply (at_plain w l i o _ _ S E).
      unfold s_reserve. destruct (edit_plain n0 (up16 n0) (fun l => l) o K) as (cp & ->). eauto.
    - subst. destruct (same_some _ _ _ S L) as (o & E & Li & K). split; [eauto|]. apply (at_plain w l i o _ _ S E).
      unfold s_resize. destruct (Nat.eqb_spec n0 0) as [->|N].
      + destruct (clear_plain o K) as (cp & ->). eauto.
      + rewrite K. rewrite andb_false_r. destruct (edit_plain n0 (up16 n0) (sized V dflt n0) o K) as (cp & ->). eauto.
    - destruct (same_some _ _ _ S L) as (o & E & Li & K). split; [eauto|]. apply (at_plain w l i o _ _ S E).
      unfold s_item. destruct (k <? length (items o)).
      + exists S_OK, (cap o). rewrite K. split; reflexivity.
      + exists E_BOUNDS, (cap o). cbn. split; [|reflexivity]. f_equal. apply OB_eta. assumption.
    - subst. destruct (same_some _ _ _ S L) as (o & E & Li & K). split; [eauto|]. apply (at_plain w l i o _ _ S E).
      unfold s_add. cbn [length Nat.eqb]. destruct (edit_plain (length (items o) + 1) (half_more V o (length (items o) + 1)) (fun l0 => l0 ++ [v]) o K) as (cp & ->). eauto.
    - subst. destruct (same_some _ _ _ S L) as (o & E & Li & K). split; [eauto|]. apply (at_plain w l i o _ _ S E).
      unfold s_add. destruct l0 as [|v0 l0].
      + cbn. exists S_OK, (cap o). split; [|reflexivity]. f_equal. rewrite app_nil_r. apply OB_eta. assumption.
      + cbn [length Nat.eqb]. destruct (edit_plain (length (items o) + Datatypes.S (length l0)) (half_more V o (length (items o) + Datatypes.S (length l0))) (fun l1 => l1 ++ v0 :: l0) o K) as (cp & ->). eauto.
    - subst. destruct L as (l0 & El & T). destruct (same_some _ _ i S ltac:(congruence)) as (o & E & Li & K). rewrite Li in El. injection El as <-.
      split; [eauto|]. apply (at_plain w l i o _ _ S E). unfold s_insert. destruct (k <=? length (items o)).
      + destruct (edit_plain (length (items o) + 1) (half_more V o (length (items o) + 1)) (fun l0 => insert_spec V l0 k v) o K) as (cp & ->). eauto.
      + exists E_BOUNDS, (cap o). cbn. split; [|reflexivity]. f_equal. apply OB_eta. assumption.
    - subst. destruct L as (l0 & El & T). destruct (same_some _ _ i S ltac:(congruence)) as (o & E & Li & K). rewrite Li in El. injection El as <-.
      split; [exists o; split; [assumption|]; destruct T as [T|T]; [left; assumption|right; lia]|].
      apply (at_plain w l i o _ _ S E). unfold s_remove. destruct (Nat.eqb_spec k 0) as [->|N]; cbn [andb].
      + destruct (Nat.leb_spec (length (items o)) c) as [G|G].
        * destruct (clear_plain o K) as (cp & ->). exists S_OK, cp. cbn [fst snd firstn Nat.add app]. rewrite skipn_all2 by assumption. auto.
        * rewrite K. exists S_OK, (cap o). split; reflexivity.
      + rewrite K. exists S_OK, (cap o). split; reflexivity.
    - destruct (same_some _ _ _ S L) as (o & E & Li & K). split; [eauto|]. apply (at_plain w l i o _ _ S E).
      unfold s_sort. destruct (length (items o) <? 2).
      + exists S_FALSE, (cap o). cbn. split; [|reflexivity]. f_equal. apply OB_eta. assumption.
      + rewrite K. eauto.
  Qed.
  Theorem C04_list_partial : forall n ops, lsafe n (fun _ => None) ops ->
    exists s, run (init V n) ops = Done V s (map Some (fst (list_run (fun _ => None) ops))) /\
      forall i, contents s i = match snd (list_run (fun _ => None) ops) i with Some l => Some (map Some l) | None => None end.
  Proof.
    intros n ops. assert (G : forall ops s w l, RepSt n s w -> same w l -> lsafe n l ops ->
      exists s' w', run s ops = Done V s' (map Some (fst (list_run l ops))) /\ RepSt n s' w' /\ same w' (snd (list_run l ops))).
    { clear ops. intros ops. induction ops as [|o ops IH]; intros s w l R S L; [cbn; eauto|]. cbn [lsafe] in L. destruct L as (P & L & LS).
      destruct (plain_step n w l o S P L) as [PR X]. pose proof (step_ok n s w o R PR) as Y. cbn [SooModel.run list_run].
      destruct (spec w o) as [c w1|]; [|contradiction]. destruct X as [-> S1]. destruct (run_op o s) as [s1 c| |]; try contradiction. destruct Y as [-> R1].
      destruct (list_step l o) as [c l1]. cbn [fst snd] in *. destruct (IH s1 w1 l1 R1 S1 LS) as (s' & w' & E & R' & S'). rewrite E.
      destruct (list_run l1 ops) as [cs l2]. cbn in *. eauto. }
    intros L. destruct (G ops _ nothing _ (init_ok n) ltac:(intros i; reflexivity) L) as (s' & w' & E & R & S). exists s'. split; [assumption|].
    intros i. rewrite (contents_rep n s' w' i R). specialize (S i). destruct (w' i) as [o|]; [destruct S as [-> _]; reflexivity|rewrite S; reflexivity].
  Qed.

  (** ** Others unchanged, and moves *)
  Definition names (o : op) (i : nat) : Prop :=
    match o with
    | ONewMove _ _ a b | OAssignMove _ _ a b => i = a \/ i = b
    | ONew _ a | ONewList _ _ a _ | ONewCopy _ _ a _ | OAssign _ _ a _ | ODelete _ a | OSetArray _ _ a _ | OClear _ a | OReserve _ _ a _
    | OResize _ _ a _ | OLock _ _ a _ | OUnlock _ a | OWrite _ a _ _ | OSetItem _ _ a _ _ | OAdd _ _ a _ | OAddMany _ _ a _ | OInsert _ _ a _ _
    | ORemove _ _ a _ _ | OSort _ _ a => i = a
    end.
  Lemma at_other : forall w a f i, i <> a -> match at_ w a f with Goes _ w' => w' i = w i | Dies => True end.
  Proof.
    intros w a f i N. unfold at_. destruct (w a) as [o|]; [|reflexivity]. destruct (f o). unfold wput. destruct (Nat.eqb_spec i a); [contradiction|reflexivity].
  Qed.
  Lemma born_other : forall w a r i, i <> a -> match born w a r with Goes _ w' => w' i = w i | Dies => True end.
  Proof.
    intros w a [[[]|] o] i N; try reflexivity. cbn. unfold wput. destruct (Nat.eqb_spec i a); [contradiction|reflexivity].
  Qed.
  Lemma move_other : forall w a b oa ob i, i <> a -> i <> b -> match move w a b oa ob with Goes _ w' => w' i = w i | Dies => True end.
  Proof.
    intros w a b oa ob i N1 N2. unfold move. destruct (_ || _); [exact I|]. unfold wput.
    destruct (_ <=? _); destruct (Nat.eqb_spec i a); try contradiction; destruct (Nat.eqb_spec i b); try contradiction; reflexivity.
  Qed.
  Lemma run_app : forall a b s, run s (a ++ b) =
    match run s a with
    | Done _ s1 rs => match run s1 b with Done _ s2 rs' => Done V s2 (rs ++ rs') | Ended _ rs' => Ended V (rs ++ rs') | Wrong _ => Wrong V end
    | x => x
    end.
  Proof.
    induction a as [|o a IH]; intros b s; cbn [app SooModel.run].
    - destruct (run s b); reflexivity.
    - destruct (run_op o s) as [s1 c| |]; [|reflexivity|reflexivity]. rewrite IH. destruct (run s1 a) as [s2 rs|rs|]; try reflexivity.
      destruct (run s2 b); reflexivity.
  Qed.
  Lemma last_step : forall n ops o s1 r1 s2 r2, safe n nothing (ops ++ [o]) ->
    run (init V n) ops = Done V s1 r1 -> run (init V n) (ops ++ [o]) = Done V s2 r2 ->
    exists w1 w2 c, RepSt n s1 w1 /\ RepSt n s2 w2 /\ pre n w1 o /\ spec w1 o = Goes c w2 /\ r2 = r1 ++ [c].
  Proof.
    intros n ops o s1 r1 s2 r2 S E1 E2.
    assert (G : forall ops s w, RepSt n s w -> safe n w (ops ++ [o]) -> forall r1, run s ops = Done V s1 r1 -> exists w1, RepSt n s1 w1 /\ pre n w1 o).
    { clear - qs_perm. intros ops. induction ops as [|p ops IH]; intros s w R S r1 E; cbn [app safe SooModel.run] in *.
      - injection E as -> <-. exists w. tauto.
      - destruct S as [P S]. pose proof (step_ok n s w p R P) as X. destruct (run_op p s) as [s' c| |]; try discriminate.
        destruct (spec w p) as [c' w'|]; [|contradiction]. destruct X as [-> R']. destruct (run s' ops) eqn:E'; try discriminate. injection E as -> <-.
        apply (IH s' w' R' S _ E'). }
    destruct (G ops _ _ (init_ok n) S r1 E1) as (w1 & R1 & P). rewrite run_app, E1 in E2. cbn [SooModel.run] in E2.
    pose proof (step_ok n s1 w1 o R1 P) as X. destruct (run_op o s1) as [s' c| |]; try discriminate. injection E2 as -> <-.
    destruct (spec w1 o) as [c' w2|] eqn:SP; [|contradiction]. destruct X as [-> R2]. exists w1, w2, c'. do 4 (split; [assumption || reflexivity|]). reflexivity.
  Qed.
  (** An operation leaves every array alone that it does not name as its target. *)
  Theorem C04_others_unchanged : forall n ops o s1 r1 s2 r2, safe n nothing (ops ++ [o]) ->
    run (init V n) ops = Done V s1 r1 -> run (init V n) (ops ++ [o]) = Done V s2 r2 ->
    forall i, ~ names o i -> contents s2 i = contents s1 i.
  Proof.
    intros n ops o s1 r1 s2 r2 S E1 E2 i N. destruct (last_step n ops o s1 r1 s2 r2 S E1 E2) as (w1 & w2 & c & R1 & R2 & _ & SP & _).
    rewrite (contents_rep n s2 w2 i R2), (contents_rep n s1 w1 i R1).
    assert (Q : match spec w1 o with Goes _ w' => w' i = w1 i | Dies => True end); [|rewrite SP in Q; rewrite Q; reflexivity].
    destruct o; cbn [spec names] in *; try (apply at_other; assumption); try (apply born_other; assumption).
    - destruct (w1 j); [apply born_other; assumption|reflexivity].
    - destruct (w1 j); [apply move_other; tauto|reflexivity].
    - destruct (w1 i0) as [o|]; [|reflexivity]. destruct (0 <? locked o); [exact I|]. unfold wput. destruct (Nat.eqb_spec i i0); [contradiction|reflexivity].
    - destruct (i0 =? j); [reflexivity|]. destruct (w1 i0); [|reflexivity]. destruct (w1 j); [apply born_other; assumption|reflexivity].
    - destruct (i0 =? j); [reflexivity|]. destruct (w1 i0); [|reflexivity]. destruct (w1 j); [apply move_other; tauto|reflexivity].
  Qed.
  (** After a move that returned, the target holds what the source held, and the source is
      unchanged when its elements were inside the object and empty when they were on the heap. *)
  Theorem C04_move : forall n ops o i j oom s1 r1 s2 r2, o = ONewMove V oom i j \/ o = OAssignMove V oom i j -> i <> j ->
    safe n nothing (ops ++ [o]) ->
    run (init V n) ops = Done V s1 r1 -> run (init V n) (ops ++ [o]) = Done V s2 r2 ->
    r2 = r1 ++ [Some S_OK] /\ contents s2 i = contents s1 j /\
    contents s2 j = match look s1 j with Some (Small _ _ _ _) => contents s1 j | _ => Some [] end.
  Proof.
    intros n ops o i j oom s1 r1 s2 r2 O NE S E1 E2. destruct (last_step n ops o s1 r1 s2 r2 S E1 E2) as (w1 & w2 & c & R1 & R2 & P & SP & ->).
    rewrite (contents_rep n s2 w2 i R2), (contents_rep n s2 w2 j R2), (contents_rep n s1 w1 j R1).
    assert (X : exists oi oj, w1 j = Some oj /\ move w1 i j oi oj = Goes c w2).
    { destruct O as [->| ->]; cbn [spec pre] in *.
      - destruct P as (_ & _ & oj & Ej). rewrite Ej in *. eauto.
      - destruct P as ([oi Ei] & oj & Ej). destruct (Nat.eqb_spec i j); [contradiction|]. rewrite Ei, Ej in SP. eauto. }
    destruct X as (oi & oj & Ej & M). rewrite Ej. destruct (w_some _ _ _ _ _ R1 Ej) as (h & Lj & _). rewrite Lj.
    pose proof (small_eq _ _ _ _ _ _ R1 Ej Lj) as SE. unfold move in M. destruct (_ || _); [discriminate|].
    destruct (Nat.leb_spec (cap oj) icap) as [G|G]; injection M as <- <-; (split; [reflexivity|]); unfold wput.
    - destruct h; [|lia]. rewrite Nat.eqb_refl. destruct (Nat.eqb_spec j i); [congruence|]. rewrite Ej. auto.
    - destruct h; [lia|]. rewrite Nat.eqb_refl. destruct (Nat.eqb_spec i j); [contradiction|]. rewrite Nat.eqb_refl. auto.
  Qed.
End Thms.

(** ** Sizes in size_t
    Below the wrap-around the storage has the bytes that its elements need. *)
Theorem C04_bytes_exact : forall sz ic n, (0 < sz)%Z -> (0 <= ic < n)%Z -> (n + 15 < W)%Z -> ((n + 15) * sz < W)%Z ->
  exists m, reserve_bytes sz ic n = Some (m, (m * sz)%Z) /\ (n <= m < n + 16)%Z /\ (m mod 16 = 0)%Z.
Proof.
  intros sz ic n S I N B. unfold reserve_bytes. destruct (Z.leb_spec n ic); [lia|].
  assert (A : align16u n = (16 * ((n + 15) / 16))%Z).
  { unfold align16u. rewrite Z.mod_small by lia. change ((-16) mod W)%Z with (Z.ldiff (Z.ones 64) (Z.ones 4)).
    replace (Z.land (n + 15) (Z.ldiff (Z.ones 64) (Z.ones 4))) with (Z.ldiff (Z.land (n + 15) (Z.ones 64)) (Z.ones 4)).
    - rewrite Z.land_ones by lia. rewrite Z.mod_small by (unfold W in *; lia). rewrite Z.ldiff_ones_r by lia. rewrite Z.shiftl_mul_pow2, Z.shiftr_div_pow2 by lia.
      change (2 ^ 4)%Z with 16%Z. lia.
    - apply Z.bits_inj'. intros k Hk. rewrite !Z.ldiff_spec, !Z.land_spec, !Z.ldiff_spec. destruct (Z.testbit (n + 15) k), (Z.testbit (Z.ones 64) k); reflexivity. }
  rewrite A. pose proof (Z.div_mod (n + 15) 16 ltac:(lia)). pose proof (Z.mod_pos_bound (n + 15) 16 ltac:(lia)).
  destruct (Z.leb_spec (16 * ((n + 15) / 16)) ic); [lia|]. exists (16 * ((n + 15) / 16))%Z. split; [|split].
  - do 2 f_equal. apply Z.mod_small. split; [apply Z.mul_nonneg_nonneg; lia|]. eapply Z.le_lt_trans; [|exact B]. apply Z.mul_le_mono_nonneg_r; lia.
  - lia.
  - rewrite Z.mul_comm. apply Z.mod_mul. lia.
Qed.
(** Above it the byte count wraps: a reservation of 2^61 elements of 8 bytes is recorded as
    capacity for them and gets 0 bytes, and one of 2^64 - 15 or more counts as reserved though the
    storage stays inside the object. *)
Theorem C04_bytes_refuted :
  ~ (forall sz ic n, (0 < sz)%Z -> (0 <= ic)%Z -> (ic < n < W)%Z -> exists m b, reserve_bytes sz ic n = Some (m, b) /\ (n * sz <= b)%Z).
Proof.
  intros H. destruct (H 8%Z 4%Z (2 ^ 61)%Z) as (m & b & E & G); [lia|lia|unfold W; lia|].
  assert (Q : reserve_bytes 8 4 (2 ^ 61) = Some ((2 ^ 61)%Z, 0%Z)) by (vm_compute; reflexivity). rewrite Q in E. injection E as <- <-. lia.
Qed.
Theorem C04_bytes_inside_refuted : forall sz ic n, (0 <= ic)%Z -> (ic < n)%Z -> (W - 15 <= n < W)%Z -> reserve_bytes sz ic n = None.
Proof.
  intros sz ic n I L N. unfold reserve_bytes. destruct (Z.leb_spec n ic); [lia|].
  assert (A : align16u n = 0%Z).
  { unfold align16u. replace ((n + 15) mod W)%Z with (n + 15 - W)%Z.
    - assert (0 <= n + 15 - W < 2 ^ 4)%Z as B by lia. change ((-16) mod W)%Z with (Z.ldiff (Z.ones 64) (Z.ones 4)).
      rewrite <- (Z.mod_small _ _ B). rewrite <- Z.land_ones by lia. apply Z.bits_inj'. intros k Hk.
      rewrite !Z.land_spec, Z.ldiff_spec, Z.bits_0. destruct (Z.testbit (n + 15 - W) k), (Z.testbit (Z.ones 4) k), (Z.testbit (Z.ones 64) k); reflexivity.
    - apply Z.mod_unique with 1%Z; [left; unfold W in *; lia|lia]. }
  rewrite A. destruct (Z.leb_spec 0 ic); [reflexivity|lia].
Qed.

(** ** Where the property fails
    The contents of a moved-from array depend on where its elements were stored: two sources with
    the same elements, one inside (capacity 4) and one that was reserved to 16. *)
Definition idsort (l : list nat) : list nat := l.
Definition prog (big : bool) : list (op nat) :=
  ONewList nat false 0 [1; 2] :: (if big then [OReserve nat false 0 9] else []) ++ [ONewMove nat false 1 0].
Definition after (t : trace nat) (i : nat) : option (list (option nat)) := match t with Done _ s _ => contents nat s i | _ => None end.
Theorem C04_move_source_refuted : forall moved,
  after (run nat 0 moved true idsort 4 (init nat 2) (prog false)) 0 = Some [Some 1; Some 2] /\
  after (run nat 0 moved true idsort 4 (init nat 2) (prog true)) 0 = Some [] /\
  after (run nat 0 moved true idsort 4 (init nat 2) (prog false)) 1 = Some [Some 1; Some 2] /\
  after (run nat 0 moved true idsort 4 (init nat 2) (prog true)) 1 = Some [Some 1; Some 2].
Proof. intros. vm_compute. auto. Qed.
(** With elements that have a move of their own (here: the source becomes 0), Insert in front of
    three elements loses one. *)
Theorem C04_insert_refuted :
  after (run nat 0 (fun _ => 0) false idsort 4 (init nat 1) [ONewList nat false 0 [1; 2; 3]; OInsert nat false 0 0 9]) 0 <>
  Some [Some 9; Some 1; Some 2; Some 3].
Proof. vm_compute. discriminate. Qed.

(** * Examples *)
Definition ex_prog : list (op nat) :=
  [ONew nat 0; OAdd nat false 0 1; OAdd nat false 0 2; OAddMany nat false 0 [3; 4; 5]; OInsert nat false 0 1 9; ORemove nat false 0 0 1;
   ONewCopy nat false 1 0; OResize nat false 1 2; OSetItem nat false 1 7 7; OLock nat false 1 3; OWrite nat 1 2 8; OUnlock nat 1;
   OSetArray nat true 1 [1; 2; 3; 4; 5; 6]; ONewMove nat false 2 0; ODelete nat 1].
Example ex_run :
  match run nat 0 (fun v => v) true idsort 4 (init nat 3) ex_prog with
  | Done _ s rs => rs = [Some S_OK; Some S_OK; Some S_OK; Some S_OK; Some S_OK; Some S_OK; Some S_OK; Some S_OK; Some E_BOUNDS; Some S_OK; Some S_OK; Some S_OK;
                         Some E_OUTOFMEMORY; Some S_OK; Some S_OK] /\
      contents nat s 0 = Some [] /\ contents nat s 1 = None /\ contents nat s 2 = Some [Some 9; Some 2; Some 3; Some 4; Some 5]
  | _ => False
  end.
Proof. vm_compute. auto. Qed.
Example ex_safe : safe nat 0 true idsort 4 3 (nothing nat) ex_prog.
Proof.
  vm_compute. repeat match goal with |- exists _, _ => eexists | |- _ /\ _ => split | |- _ \/ _ => left end; try reflexivity; try exact I; auto; repeat constructor.
Qed.
Example ex_died : run nat 0 (fun v => v) true idsort 4 (init nat 1) [ONewList nat false 0 [1]; OLock nat false 0 1; ODelete nat 0] = Ended nat [Some S_OK; Some S_OK].
Proof. vm_compute. reflexivity. Qed.
Example ex_lsafe : lsafe nat 0 false idsort 2 (fun _ => None)
  [ONew nat 0; OAdd nat false 0 1; OAddMany nat false 0 [3; 4; 5]; ORemove nat false 0 0 2; OInsert nat false 0 1 9; ONewCopy nat false 1 0; OSort nat false 1; ODelete nat 0].
Proof.
  vm_compute. repeat split; auto; try discriminate; try (repeat constructor); eexists; split; try reflexivity; right; repeat constructor.
Qed.
Example ex_bytes : reserve_bytes 24 5 17 = Some (32%Z, 768%Z).
Proof. vm_compute. reflexivity. Qed.

Print Assumptions C04_refines_partial.
Print Assumptions C04_storage.
Print Assumptions C04_no_leak.
Print Assumptions C04_list_partial.
Print Assumptions C04_others_unchanged.
Print Assumptions C04_move.
Print Assumptions C04_bytes_exact.
Print Assumptions C04_bytes_refuted.
Print Assumptions C04_bytes_inside_refuted.
Print Assumptions C04_move_source_refuted.
Print Assumptions C04_insert_refuted.
