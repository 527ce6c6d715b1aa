(** Properties C01, C02, C05, C07 and C08: the copy-on-write [Array]. *)
From Coq Require Import Arith ZArith Lia Bool List Permutation.
From Verif Require Import MoveModel MoveThms CowModel CowProofs.
Import ListNotations.

Section Thms.
  Variable V : Type.
  Variable dflt : V.
  Variable moved : V -> V.
  Variable trivial : bool.
  Variable qs : list V -> list V.
  Hypothesis qs_perm : forall l, Permutation (qs l) l.

  Notation st := (st V).
  Notation hp := (hp V).
  Notation nx := (nx V).
  Notation ar := (ar V).
  Notation op := (op V).
  Notation run1 := (run1 V dflt moved trivial qs).
  Notation run := (run V dflt moved trivial qs).
  Notation run_op := (run_op V dflt moved trivial qs).
  Notation val := (val V).
  Notation Inv := (Inv V).
  Notation Step := (Step V).

  (** * Specification
      Each array that exists is a list and the number of locks on it. *)
  Definition world := nat -> option (list V * nat).
  Definition wput (w : world) (i : nat) (x : option (list V * nat)) : world :=
    fun k => if k =? i then x else w k.

  Definition grown (l : list V) (n : nat) : list V := l ++ repeat dflt (n - length l).
  Definition replaced (l : list V) (k : nat) (v : V) : list V := firstn k l ++ [v] ++ skipn (k + 1) l.

  (** What a program may do: it names objects that exist, makes only new ones, writes through a
      pointer only while the buffer is locked and inside it, and does not assign to, or move
      from, a locked array.  For element types with their own move, Insert and Remove are only
      covered where C06 holds. *)
  Definition pre (w : world) (o : op) : Prop :=
    let ex i := exists l k, w i = Some (l, k) in
    match o with
    | ONew _ i | ONewList _ _ i _ => w i = None
    | ONewCopy _ _ i j => w i = None /\ ex j
    | ONewMove _ i j => w i = None /\ exists l, w j = Some (l, 0)
    | OAssign _ _ i j => ex j /\ (i = j \/ exists l, w i = Some (l, 0))
    | OAssignMove _ i j => (i = j /\ ex i) \/ ((exists l, w i = Some (l, 0)) /\ exists l, w j = Some (l, 0))
    | OWrite _ i k _ => exists l n, w i = Some (l, S n) /\ k < length l
    | OInsert _ _ i k _ => exists l n, w i = Some (l, n) /\ (trivial = true \/ length l <= k + 2)
    | ORemove _ _ i k c => exists l n, w i = Some (l, n) /\
        (trivial = true \/ length l <= k + (Nat.min c (length l - k)) + Nat.min c (length l - k))
    | ODelete _ i | OSetArray _ _ i _ | OClear _ i | OReserve _ _ i _ | OResize _ _ i _ | OLock _ _ i _ | OUnlock _ i
    | OSetItem _ _ i _ _ | OAdd _ _ i _ | OAddMany _ _ i _ | OSort _ _ i => ex i
    end.

  (** What it reports ([None]: an exception) and leaves.  Without an allocation failure and on
      arrays that are not locked, every operation has exactly one result. *)
  Inductive aspec (w : world) : op -> option code -> world -> Prop :=
  | A_New i : aspec w (ONew V i) (Some S_OK) (wput w i (Some ([], 0)))
  | A_NewList oom i l : aspec w (ONewList V oom i l) (Some S_OK) (wput w i (Some (l, 0)))
  | A_NewList_oom i l : aspec w (ONewList V true i l) None w
  | A_NewCopy oom i j l k : w j = Some (l, k) -> aspec w (ONewCopy V oom i j) (Some S_OK) (wput w i (Some (l, 0)))
  | A_NewCopy_oom i j l k : w j = Some (l, S k) -> aspec w (ONewCopy V true i j) None w
  | A_NewMove i j l : w j = Some (l, 0) -> aspec w (ONewMove V i j) (Some S_OK) (wput (wput w i (Some (l, 0))) j (Some ([], 0)))
  | A_Delete i : aspec w (ODelete V i) (Some S_OK) (wput w i None)
  | A_Assign_self oom i : aspec w (OAssign V oom i i) (Some S_OK) w
  | A_Assign oom i j l k : i <> j -> w j = Some (l, k) -> aspec w (OAssign V oom i j) (Some S_OK) (wput w i (Some (l, 0)))
  | A_Assign_oom i j l k : w j = Some (l, S k) -> aspec w (OAssign V true i j) None w
  | A_AssignMove_self i : aspec w (OAssignMove V i i) (Some S_OK) w
  | A_AssignMove i j l : i <> j -> w j = Some (l, 0) ->
      aspec w (OAssignMove V i j) (Some S_OK) (wput (wput w i (Some (l, 0))) j (Some ([], 0)))
  | A_AssignMove_same i j l : w i = Some (l, 0) -> w j = Some (l, 0) -> (* one shared buffer *)
      aspec w (OAssignMove V i j) (Some S_OK) w
  | A_SetArray oom i l l0 k : w i = Some (l0, k) -> (k = 0 \/ length l0 <= length l) ->
      aspec w (OSetArray V oom i l) (Some S_OK) (wput w i (Some (l, k)))
  | A_SetArray_oom i l l0 : w i = Some (l0, 0) -> aspec w (OSetArray V true i l) (Some E_OUTOFMEMORY) w
  | A_SetArray_locked oom i l l0 k : w i = Some (l0, S k) -> aspec w (OSetArray V oom i l) None w
  | A_Clear i l k : w i = Some (l, k) -> (k = 0 \/ l = []) -> aspec w (OClear V i) (Some S_OK) (wput w i (Some ([], k)))
  | A_Clear_locked i l k : w i = Some (l, S k) -> l <> [] -> aspec w (OClear V i) None w
  | A_Reserve oom i n : aspec w (OReserve V oom i n) (Some S_OK) w
  | A_Reserve_oom i n : aspec w (OReserve V true i n) (Some E_OUTOFMEMORY) w
  | A_Reserve_locked oom i n l k : w i = Some (l, S k) -> aspec w (OReserve V oom i n) None w
  | A_Resize_grow oom i n l k : w i = Some (l, k) -> length l <= n ->
      aspec w (OResize V oom i n) (Some S_OK) (wput w i (Some (grown l n, k)))
  | A_Resize_shrink oom i n l : w i = Some (l, 0) -> n < length l ->
      aspec w (OResize V oom i n) (Some S_OK) (wput w i (Some (firstn n l, 0)))
  | A_Resize_oom i n : aspec w (OResize V true i n) (Some E_OUTOFMEMORY) w
  | A_Resize_locked oom i n l k : w i = Some (l, S k) -> aspec w (OResize V oom i n) None w
  | A_Lock_grow oom i n l k : w i = Some (l, k) -> length l <= n ->
      aspec w (OLock V oom i n) (Some S_OK) (wput w i (Some (grown l n, S k)))
  | A_Lock_shrink oom i n l : w i = Some (l, 0) -> n < length l ->
      aspec w (OLock V oom i n) (Some S_OK) (wput w i (Some (firstn n l, 1)))
  | A_Lock_empty oom i : w i = Some ([], 0) -> aspec w (OLock V oom i 0) (Some S_OK) w (* the static empty buffer *)
  | A_Lock_oom i n : aspec w (OLock V true i n) (Some E_OUTOFMEMORY) w
  | A_Lock_locked oom i n l k : w i = Some (l, S k) -> aspec w (OLock V oom i n) None w
  | A_Unlock i l k : w i = Some (l, S k) -> aspec w (OUnlock V i) (Some S_OK) (wput w i (Some (l, k)))
  | A_Unlock_not i l : w i = Some (l, 0) -> aspec w (OUnlock V i) None w
  | A_Write i k v l n : w i = Some (l, n) -> aspec w (OWrite V i k v) (Some S_OK) (wput w i (Some (replaced l k v, n)))
  | A_SetItem oom i k v l n : w i = Some (l, n) -> k < length l ->
      aspec w (OSetItem V oom i k v) (Some S_OK) (wput w i (Some (replaced l k v, n)))
  | A_SetItem_bounds oom i k v l n : w i = Some (l, n) -> length l <= k -> aspec w (OSetItem V oom i k v) (Some E_BOUNDS) w
  | A_SetItem_oom i k v l n : w i = Some (l, n) -> k < length l -> aspec w (OSetItem V true i k v) (Some E_OUTOFMEMORY) w
  | A_Add oom i v l n : w i = Some (l, n) -> aspec w (OAdd V oom i v) (Some S_OK) (wput w i (Some (l ++ [v], n)))
  | A_Add_oom i v : aspec w (OAdd V true i v) (Some E_OUTOFMEMORY) w
  | A_Add_locked oom i v l n : w i = Some (l, S n) -> aspec w (OAdd V oom i v) None w
  | A_AddMany oom i l' l n : w i = Some (l, n) -> aspec w (OAddMany V oom i l') (Some S_OK) (wput w i (Some (l ++ l', n)))
  | A_AddMany_oom i l' : aspec w (OAddMany V true i l') (Some E_OUTOFMEMORY) w
  | A_AddMany_locked oom i l' l n : w i = Some (l, S n) -> aspec w (OAddMany V oom i l') None w
  | A_Insert oom i k v l n : w i = Some (l, n) -> k <= length l ->
      aspec w (OInsert V oom i k v) (Some S_OK) (wput w i (Some (insert_spec V l k v, n)))
  | A_Insert_bounds oom i k v l n : w i = Some (l, n) -> length l < k -> aspec w (OInsert V oom i k v) (Some E_BOUNDS) w
  | A_Insert_oom i k v l n : w i = Some (l, n) -> k <= length l -> aspec w (OInsert V true i k v) (Some E_OUTOFMEMORY) w
  | A_Insert_locked oom i k v l n : w i = Some (l, S n) -> k <= length l -> aspec w (OInsert V oom i k v) None w
  | A_Remove oom i k c l n : w i = Some (l, n) -> (n = 0 \/ 0 < k \/ c < length l \/ l = []) ->
      aspec w (ORemove V oom i k c) (Some S_OK) (wput w i (Some (remove_spec V l k c, n)))
  | A_Remove_oom i k c : aspec w (ORemove V true i k c) (Some E_OUTOFMEMORY) w
  | A_Remove_locked oom i c l n : w i = Some (l, S n) -> l <> [] -> length l <= c -> aspec w (ORemove V oom i 0 c) None w
  | A_Sort oom i l n : w i = Some (l, n) -> 2 <= length l -> aspec w (OSort V oom i) (Some S_OK) (wput w i (Some (qs l, n)))
  | A_Sort_no oom i l n : w i = Some (l, n) -> length l < 2 -> aspec w (OSort V oom i) (Some S_FALSE) w
  | A_Sort_oom i l n : w i = Some (l, n) -> 2 <= length l -> aspec w (OSort V true i) (Some E_OUTOFMEMORY) w.

  Definition weq (a b : world) : Prop := forall i, a i = b i.

  Inductive aspecs (w : world) : list op -> list (option code) -> world -> Prop :=
  | A_nil w' : weq w w' -> aspecs w [] [] w'
  | A_cons o r w1 w1' ops rs w2 : aspec w o r w1 -> weq w1 w1' -> aspecs w1' ops rs w2 -> aspecs w (o :: ops) (r :: rs) w2.

  (** Every operation of the program is allowed where it is reached. *)
  Fixpoint safe (w : world) (ops : list op) : Prop :=
    match ops with
    | [] => True
    | o :: ops' => pre w o /\ forall r w1 w1', aspec w o r w1 -> weq w1 w1' -> safe w1' ops'
    end.

  (** What array [i] reads back in a state. *)
  Definition contents (s : st) (i : nat) : option (list V) :=
    match ar s i with
    | None => None
    | Some a => if a =? 0 then Some [] else match hp s a with Some b => Some (data V b) | None => None end
    end.

  Definition Rep (s : st) (N : nat) (w : world) : Prop :=
    Inv s N [] /\ forall i, w i = match ar s i with None => None | Some a => val s a end.

  (** * Proofs *)
  Lemma Rep_step : forall s N w i s' c p, Rep s N w -> Step s N i s' c p -> Rep s' N (wput w i (Some p)).
  Proof.
    intros s N w i s' c p [I R] ST. split; [apply ST|]. intros j. unfold wput. destruct (Nat.eqb_spec j i) as [->|NE].
    - rewrite (step_i _ _ _ _ _ _ _ ST), (step_v _ _ _ _ _ _ _ ST). reflexivity.
    - destruct (step_o _ _ _ _ _ _ _ ST j NE) as [E F]. rewrite R, E. destruct (ar s j) as [a|] eqn:A; [|reflexivity].
      rewrite F by reflexivity. reflexivity.
  Qed.
  Lemma Rep_get : forall s N w i p, Rep s N w -> w i = Some p -> exists a, ar s i = Some a /\ val s a = Some p.
  Proof.
    intros s N w i p [I R] H. rewrite R in H. destruct (ar s i) as [a|]; [eauto|discriminate].
  Qed.
  Lemma Rep_none : forall s N w i, Rep s N w -> w i = None -> ar s i = None.
  Proof.
    intros s N w i [I R] H. rewrite R in H. destruct (ar s i) as [a|] eqn:A; [|reflexivity].
    destruct (handle_blk _ _ _ _ _ I A) as [[_ E]|(_ & b & _ & _ & _ & E)]; congruence.
  Qed.
  Lemma weq_put_same : forall w i p, w i = Some p -> weq w (wput w i (Some p)).
  Proof. intros w i p H j. unfold wput. destruct (Nat.eqb_spec j i) as [->|]; auto. Qed.
  Lemma Rep_weq : forall s N w w', Rep s N w -> weq w w' -> Rep s N w'.
  Proof. intros s N w w' [I R] E. split; [assumption|]. intros i. rewrite <- E. apply R. Qed.

  (** Locked arrays keep their buffer. *)
  Definition Stab (s s' : st) (w : world) (o : op) : Prop :=
    forall i l k, w i = Some (l, S k) -> o <> ODelete V i -> ar s' i = ar s i.

  (** One operation: result and new state agree with the specification. *)
  Definition Good (s : st) (w : world) (o : op) : Prop :=
    exists s' r w' N', run1 s o = Some (s', r) /\ aspec w o r w' /\ Rep s' N' w' /\ Stab s s' w o.

  (** Good from an outcome. *)
  Definition GoodO (s : st) (N : nat) (w : world) (o : op) (x : outcome st code) : Prop :=
    match x with
    | Ret s' c => exists w', aspec w o (Some c) w' /\ Rep s' N w' /\ Stab s s' w o
    | Exn s' => exists w', aspec w o None w' /\ Rep s' N w' /\ Stab s s' w o
    | UB => False
    end.
  Lemma Good_O : forall s N w o, GoodO s N w o (run_op o s) -> Good s w o.
  Proof.
    intros s N w o H. unfold Good, CowModel.run1. unfold GoodO in H. destruct (run_op o s) as [s' c|s'|]; [| |contradiction];
      destruct H as (w' & A & R & T); exists s'; eexists; exists w', N; auto.
  Qed.
  Lemma Stab_refl : forall s w o, Stab s s w o.
  Proof. intros s w o i l k _ _. reflexivity. Qed.
  Lemma Stab_step : forall s N i s' c p w o, Step s N i s' c p -> (forall l k, w i = Some (l, S k) -> ar s i = Some c) -> Stab s s' w o.
  Proof.
    intros s N i s' c p w o ST H j l k Hj _. destruct (Nat.eq_dec j i) as [->|NE].
    - rewrite (step_i _ _ _ _ _ _ _ ST). symmetry. eapply H. eassumption.
    - apply (step_o _ _ _ _ _ _ _ ST j NE).
  Qed.

  Ltac getp H R a A Va := destruct (Rep_get _ _ _ _ _ R H) as (a & A & Va).

  (** Load by the holder. *)
  Lemma load_val : forall s N i a l k, Inv s N [] -> ar s i = Some a -> val s a = Some (l, k) ->
    exists b, load V a s = Ret s b /\ data V b = l /\ lockn (iref V b) = k /\
      ((a = 0 /\ b = empty_blk V) \/ (a <> 0 /\ hp s a = Some b /\ length l <= cap V b /\ (iref V b <> 0)%Z)).
  Proof.
    intros s N i a l k I A Va. destruct (load_ok _ _ _ _ _ I A) as (b & L & C & Vb). exists b.
    assert (data V b = l /\ lockn (iref V b) = k) as [D K] by (split; congruence). rewrite D in C. auto.
  Qed.

  (** [load; SetData (f data); Unlock; return S_OK] on a locked private buffer. *)
  Lemma modify_unlock : forall s N i s1 c l k n (f : list V -> list V),
    Step s N i s1 c (l, S k) -> c <> 0 -> (forall b, hp s1 c = Some b -> n <= cap V b) -> length (f l) <= n ->
    exists s', bind V (load V c) (fun b => bind V (SetData V c (f (data V b))) (fun _ => bind V (Unlock V c) (fun _ => ret V S_OK))) s1
      = Ret s' S_OK /\ Step s N i s' c (f l, k).
  Proof.
    intros s N i s1 c l k n f ST NZ C L.
    destruct (load_val s1 N i c l (S k) (step_inv _ _ _ _ _ _ _ ST) (step_i _ _ _ _ _ _ _ ST) (step_v _ _ _ _ _ _ _ ST)) as (b & Lb & D & K & HB).
    destruct HB as [[? _]|(_ & Hb & _)]; [contradiction|].
    destruct (SetData_step V s1 N i c l (S k) (f l) (step_inv _ _ _ _ _ _ _ ST) (step_i _ _ _ _ _ _ _ ST) (step_v _ _ _ _ _ _ _ ST)
      ltac:(lia) ltac:(intros; contradiction) ltac:(intros b1 _ H1; specialize (C b1 H1); lia)) as (s2 & E2 & ST2 & _ & _).
    destruct (Unlock_step V s2 N i c (f l) k (step_inv _ _ _ _ _ _ _ ST2) (step_i _ _ _ _ _ _ _ ST2) NZ (step_v _ _ _ _ _ _ _ ST2)) as (s3 & E3 & ST3).
    exists s3. unfold bind. rewrite Lb. cbv beta. rewrite D, E2, E3. split; [reflexivity|].
    apply (Step_trans _ _ _ _ _ _ _ _ _ _ (Step_trans _ _ _ _ _ _ _ _ _ _ ST ST2) ST3).
  Qed.

  (** The common shape: get the buffer, change it, unlock. *)
  Lemma mutate_good : forall s N w i o oom l k n r (f : list V -> list V) (X : M V (option nat)),
    Rep s N w -> w i = Some (l, k) ->
    LockResult V s N i n oom l k (X s) ->
    (n = 0 -> l <> []) -> length (f l) <= n \/ length (f l) <= length l ->
    r = bind V X (fun r => match r with
        | None => ret V E_OUTOFMEMORY
        | Some c => bind V (load V c) (fun b => bind V (SetData V c (f (data V b))) (fun _ => bind V (Unlock V c) (fun _ => ret V S_OK)))
        end) s ->
    aspec w o (Some S_OK) (wput w i (Some (f l, k))) ->
    (oom = true -> aspec w o (Some E_OUTOFMEMORY) w) ->
    (forall k', k = S k' -> (exists s', X s = Exn s') -> aspec w o None w) ->
    GoodO s N w o r.
  Proof.
    intros s N w i o oom l k n r f X R Hi LR NE LF -> G1 G2 G3. unfold bind at 1.
    unfold LockResult in LR. destruct (X s) as [s1 [c|]|s1|] eqn:EX; [| | |contradiction].
    - destruct LR as (lk' & ST & Z0 & NZ & AD).
      assert (c <> 0) as NZc by (intros ->; destruct (Z0 eq_refl) as (? & ? & _); apply NE; auto).
      destruct (NZ NZc) as [-> C].
      assert (LF' : length (f l) <= Nat.max n (length l)) by lia.
      assert (C' : forall b, hp s1 c = Some b -> Nat.max n (length l) <= cap V b).
      { intros b Hb. specialize (C b Hb).
        destruct (load_val s1 N i c l _ (step_inv _ _ _ _ _ _ _ ST) (step_i _ _ _ _ _ _ _ ST) (step_v _ _ _ _ _ _ _ ST)) as (b1 & _ & _ & _ & HB).
        destruct HB as [[? _]|(_ & Hb1 & L1 & _)]; [contradiction|]. rewrite Hb in Hb1. injection Hb1 as <-. lia. }
      destruct (modify_unlock s N i s1 c l k _ f ST NZc C' LF') as (s2 & E2 & ST2). rewrite E2.
      cbn [GoodO]. eexists; split; [exact G1|]. split; [apply (Rep_step s N w i s2 c); assumption|].
      apply (Stab_step s N i s2 c _ w o ST2). intros l1 k1 H1. apply AD. rewrite Hi in H1. injection H1 as <- ->. lia.
    - destruct LR as [-> O]. cbn. exists w. auto using Stab_refl.
    - destruct LR as [-> L1]. cbn. exists w. split; [|split; [assumption|apply Stab_refl]]. destruct k as [|k']; [lia|]. apply (G3 k'); eauto.
  Qed.

  (** ** Clear, SetArray and the assignments *)
  Lemma finish_set : forall s N i s1 c l1 k l, Step s N i s1 c (l1, k) -> (c = 0 -> l = []) ->
    (forall b, c <> 0 -> hp s1 c = Some b -> (iref V b <= 1)%Z /\ length l <= cap V b) ->
    exists s', bind V (Lock V c) (fun _ => bind V (SetData V c l) (fun _ => bind V (Unlock V c) (fun _ => ret V S_OK))) s1 = Ret s' S_OK
      /\ Step s N i s' c (l, k).
  Proof.
    intros s N i s1 c l1 k l ST Z0 P. destruct (Nat.eq_dec c 0) as [->|NZ].
    - rewrite (Z0 eq_refl). exists s1. split; [reflexivity|]. pose proof (step_v _ _ _ _ _ _ _ ST) as E.
      unfold CowProofs.val in E. cbn in E. injection E as <- <-. exact ST.
    - destruct (Lock_step V s1 N i c l1 k (step_inv _ _ _ _ _ _ _ ST) (step_i _ _ _ _ _ _ _ ST) (step_v _ _ _ _ _ _ _ ST)
        ltac:(intros b Hc Hb; apply (P b Hc Hb))) as (s2 & k2 & E2 & ST2 & _ & K2 & C2). rewrite (K2 NZ) in ST2.
      destruct (SetData_step V s2 N i c l1 (S k) l (step_inv _ _ _ _ _ _ _ ST2) (step_i _ _ _ _ _ _ _ ST2) (step_v _ _ _ _ _ _ _ ST2)
        ltac:(lia) ltac:(intros; contradiction)) as (s3 & E3 & ST3 & _ & _).
      { intros b2 _ Hb2. destruct (val_inv _ _ _ _ NZ (step_v _ _ _ _ _ _ _ ST)) as (b & Hb & _).
        rewrite (C2 b b2 NZ Hb Hb2). apply (P b NZ Hb). }
      destruct (Unlock_step V s3 N i c l k (step_inv _ _ _ _ _ _ _ ST3) (step_i _ _ _ _ _ _ _ ST3) NZ (step_v _ _ _ _ _ _ _ ST3)) as (s4 & E4 & ST4).
      exists s4. unfold bind. rewrite E2, E3, E4. split; [reflexivity|].
      eapply Step_trans; [exact ST|]. eapply Step_trans; [exact ST2|]. eapply Step_trans; [exact ST3|exact ST4].
  Qed.

  Definition SetArray_post (s : st) (N i : nat) (oom : bool) (l0 : list V) (k : nat) (l : list V) (x : outcome st code) : Prop :=
    match x with
    | Ret s' S_OK => exists c, Step s N i s' c (l, k) /\ (k = 0 \/ length l0 <= length l) /\ (1 <= k -> ar s i = Some c)
    | Ret s' E_OUTOFMEMORY => s' = s /\ oom = true /\ k = 0
    | Exn s' => s' = s /\ 1 <= k
    | _ => False
    end.

  Lemma SetArray_spec : forall s N i a oom l0 k l, Inv s N [] -> ar s i = Some a -> val s a = Some (l0, k) ->
    SetArray_post s N i oom l0 k l (SetArray V oom i l s).
  Proof.
    intros s N i a oom l0 k l I A Va. destruct (load_val _ _ _ _ _ _ I A Va) as (b & L & D & K & C).
    unfold SetArray. unfold bind at 1. rewrite (addr_ok _ _ _ _ A). unfold bind at 1. rewrite L.
    assert (LU : IsLocked V b = (1 <=? k)).
    { rewrite <- K. unfold IsLocked, lockn. destruct (Z.ltb_spec (iref V b) 0); destruct (Z.leb_spec 0 (iref V b)); try lia; symmetry;
        [apply Nat.leb_le; lia|reflexivity]. }
    destruct (IsShared V b) eqn:SH.
    - destruct (shared_cases _ _ SH) as (R & NL & LK0). destruct k as [|k]; [|congruence]. clear LU.
      unfold bind at 1. unfold bind at 1.
      destruct (Alloc_spec V oom (length l) s) as [[Z E]|[(NZ & O & E)|(NZ & O & E)]]; rewrite E.
      + destruct l; [|discriminate]. destruct (Swap V s N i a 0 (Inv_ex0 _ _ _ _ I) A) as (s1 & E1 & _ & I1 & Ai & Aj & K1 & _).
        rewrite E1. cbn [ret]. assert (ST : Step s N i s1 0 ([], 0)) by (apply Step_keep; auto).
        destruct (finish_set s N i s1 0 [] 0 [] ST ltac:(auto) ltac:(intros; contradiction)) as (s2 & E2 & ST2). rewrite E2.
        cbn. exists 0. split; [assumption|]. split; [auto|lia].
      + cbn. auto.
      + set (s0 := alloc_st V s (mkblk V 1 (align16 (length l)) [])) in *.
        assert (I0 : Inv s0 N [nx s]) by (apply Inv_alloc; [assumption|left; reflexivity|cbn; lia]).
        assert (NX : nx s <> 0) by (pose proof (inv_nx _ _ _ _ I); lia).
        destruct (Swap V s0 N i a (nx s) I0 A) as (s1 & E1 & _ & I1 & Ai & Aj & K1 & O1 & _).
        rewrite E1. cbn [ret].
        assert (An : nx s <> a). { destruct C as [[-> _]|(NZa & Ha & _)]; [assumption|]. pose proof (live_lt _ _ _ _ _ _ I Ha). lia. }
        assert (H1 : hp s1 (nx s) = Some (mkblk V 1 (align16 (length l)) [])).
        { rewrite O1 by assumption. cbn. unfold upd. rewrite Nat.eqb_refl. reflexivity. }
        assert (ST : Step s N i s1 (nx s) ([], 0)).
        { apply Step_keep; auto. - rewrite (val_some _ _ _ _ NX H1). reflexivity. - apply (Keep_trans _ _ s0); [apply Keep_alloc|assumption]. }
        destruct (finish_set s N i s1 (nx s) [] 0 l ST ltac:(intros; contradiction)) as (s2 & E2 & ST2).
        { intros b1 _ Hb1. rewrite H1 in Hb1. injection Hb1 as <-. cbn [iref cap]. pose proof (align16_ge (length l)). split; [lia|assumption]. }
        rewrite E2. cbn. exists (nx s). split; [assumption|]. split; [auto|lia].
    - destruct (unshared_nz V s a b) as (NZ & Hb & Lb & R); [destruct C as [?|(?&?&?&?)]; [left; assumption|right; rewrite D; auto]|assumption|].
      rewrite LU. rewrite D in *. destruct (Nat.leb_spec 1 k) as [K1|K0].
      + destruct (Nat.ltb_spec (length l) (length l0)) as [B1|B1]; [cbn; auto|].
        destruct (Nat.ltb_spec (cap V b) (length l)) as [B2|B2]; [cbn; auto|].
        unfold bind at 1. cbn [ret].
        destruct (finish_set s N i s a l0 k l (Step_refl _ _ _ _ _ _ I A Va) ltac:(intros; contradiction)) as (s2 & E2 & ST2).
        { intros b1 _ Hb1. rewrite Hb in Hb1. injection Hb1 as <-. auto. }
        rewrite E2. cbn. exists a. split; [assumption|]. split; [auto|auto].
      + destruct k as [|k]; [|lia]. destruct (Nat.ltb_spec (cap V b) (length l)) as [B2|B2].
        * unfold bind at 1. unfold bind at 1.
          destruct (ReAlloc_spec V s N i oom a b (length l) I A NZ Hb R B2) as [[E X]|[[E O]|(s1 & s2 & E & E2 & ST & NZ2 & LK0 & c & Lc & Hc)]]; rewrite E.
          -- lia.
          -- cbn. auto.
          -- unfold bind at 1. rewrite E2. cbn [ret].
             destruct (finish_set s N i s2 (nx s) (data V b) 0 l ST ltac:(intros; contradiction)) as (s3 & E3 & ST3).
             { intros b1 _ Hb1. rewrite Hc in Hb1. injection Hb1 as <-. cbn [iref cap]. split; [lia|assumption]. }
             rewrite E3. cbn. exists (nx s). split; [assumption|]. split; [auto|lia].
        * unfold bind at 1. cbn [ret].
          destruct (finish_set s N i s a l0 0 l (Step_refl _ _ _ _ _ _ I A Va) ltac:(intros; contradiction)) as (s2 & E2 & ST2).
          { intros b1 _ Hb1. rewrite Hb in Hb1. injection Hb1 as <-. auto. }
          rewrite E2. cbn. exists a. split; [assumption|]. split; [auto|lia].
  Qed.

  Lemma locked_val : forall (b : blk V) k, lockn (iref V b) = k -> IsLocked V b = (1 <=? k).
  Proof.
    intros b k K. rewrite <- K. unfold IsLocked, lockn. destruct (Z.ltb_spec (iref V b) 0); destruct (Z.leb_spec 0 (iref V b)); try lia; symmetry;
      [apply Nat.leb_le; lia|reflexivity].
  Qed.

  (** SetArray(const Array&) on an array that is not locked, or with itself. *)
  Lemma SetArrayCopy_spec : forall s N i j a c oom l0 k l m, Inv s N [] -> ar s i = Some a -> val s a = Some (l0, k) ->
    ar s j = Some c -> val s c = Some (l, m) -> (k = 0 \/ i = j) ->
    match SetArrayCopy V oom i j s with
    | Ret s' S_OK => (i = j /\ s' = s) \/ (i <> j /\ exists d, Step s N i s' d (l, 0))
    | Ret s' E_OUTOFMEMORY => s' = s /\ oom = true /\ 1 <= m
    | _ => False
    end.
  Proof.
    intros s N i j a c oom l0 k l m I A Va A' Vc H.
    unfold SetArrayCopy. unfold bind at 1. rewrite (addr_ok _ _ _ _ A). unfold bind at 1. rewrite (addr_ok _ _ _ _ A').
    destruct (Nat.eqb_spec a c) as [->|NE].
    - cbn. destruct (Nat.eq_dec i j) as [->|NIJ]; [left; auto|right]. split; [assumption|]. exists c.
      assert (m = 0 /\ l = l0) as [-> ->] by (destruct H as [->|]; [|contradiction]; split; congruence).
      apply Step_refl; auto.
    - assert (NIJ : i <> j) by (intros ->; congruence). destruct H as [->|]; [|contradiction].
      destruct (load_val _ _ _ _ _ _ I A' Vc) as (b & L & D & K & C). unfold bind at 1. rewrite L. rewrite (locked_val _ _ K).
      destruct (Nat.leb_spec 1 m) as [M1|M0].
      + rewrite D. pose proof (SetArray_spec s N i a oom l0 0 l I A Va) as P. unfold SetArray_post in P.
        destruct (SetArray V oom i l s) as [s' []|s'|]; try contradiction.
        * destruct P as (d & ST & _). right. eauto.
        * destruct P as (-> & O & _). auto.
        * lia.
      + destruct m as [|m]; [|lia].
        destruct C as [[-> ->]|(NZc & Hc & Lc & Rc)].
        * (* the static block *)
          unfold bind at 1. unfold AddRef, IsReadOnly at 1. cbn [Nat.eqb ret].
          destruct (load_val _ _ _ _ _ _ I A Va) as (ba & La & Da & Ka & Ca).
          rewrite (Attach_eq V s i a 0 ba) by (auto; rewrite (locked_val _ _ Ka); reflexivity).
          destruct (Swap V s N i a 0 (Inv_ex0 _ _ _ _ I) A) as (s1 & E1 & _ & I1 & Ai & Aj & K1 & _).
          rewrite E1. cbn [ret]. right. split; [assumption|]. exists 0. cbn in D. subst l. apply Step_keep; auto.
        * assert (P : (0 < iref V b)%Z) by (unfold lockn in K; destruct (Z.leb_spec 0 (iref V b)); lia).
          destruct (AddRef_spec V s N [] c b I NZc Hc P) as (s1 & E1 & I1 & A1 & X1 & K1 & V1 & H1).
          unfold bind at 1. rewrite E1.
          destruct (load_val _ _ _ _ _ _ I A Va) as (ba & La & Da & Ka & Ca).
          assert (La1 : exists ba1, load V a s1 = Ret s1 ba1 /\ IsLocked V ba1 = false).
          { pose proof (V1 a) as Ea. rewrite Va in Ea. unfold load. destruct (Nat.eqb_spec a 0) as [E0|NZa]; [exists (empty_blk V); auto|].
            destruct (val_inv _ _ _ _ NZa Ea) as (b1 & Hb1 & E2). rewrite Hb1. exists b1. split; [reflexivity|].
            injection E2 as _ E2. rewrite (locked_val b1 0 (eq_sym E2)). reflexivity. }
          destruct La1 as (ba1 & La1 & NL1).
          rewrite (Attach_eq V s1 i a c ba1) by (auto; rewrite A1; assumption).
          destruct (Swap V s1 N i a c I1 ltac:(rewrite A1; assumption)) as (s2 & E2 & _ & I2 & Ai & Aj & K2 & O2 & _).
          rewrite E2. cbn [ret]. right. split; [assumption|]. exists c. apply Step_keep; auto.
          -- unfold CowProofs.val. destruct (Nat.eqb_spec c 0); [contradiction|]. rewrite O2 by auto.
             pose proof (V1 c) as Ec. rewrite Vc in Ec. unfold CowProofs.val in Ec. destruct (Nat.eqb_spec c 0); [contradiction|]. exact Ec.
          -- apply (Keep_trans _ _ s1); assumption.
          -- intros j' NJ. rewrite Aj by assumption. rewrite A1. reflexivity.
  Qed.

  (** SetArray(Array&&) between arrays that are not locked. *)
  Lemma SetArrayMove_spec : forall s N w i j a c l0 l, Rep s N w -> i <> j -> ar s i = Some a -> val s a = Some (l0, 0) ->
    ar s j = Some c -> val s c = Some (l, 0) ->
    exists s', SetArrayMove V i j s = Ret s' S_OK /\
      ((a = c /\ s' = s) \/
       (Rep s' N (wput (wput w i (Some (l, 0))) j (Some ([], 0))) /\ forall x, x <> i -> x <> j -> ar s' x = ar s x)).
  Proof.
    intros s N w i j a c l0 l [I R] NIJ A Va A' Vc.
    unfold SetArrayMove. unfold bind at 1. rewrite (addr_ok _ _ _ _ A). unfold bind at 1. rewrite (addr_ok _ _ _ _ A').
    destruct (Nat.eqb_spec a c) as [->|NE]; [eexists; split; [reflexivity|]; auto|].
    destruct (load_val _ _ _ _ _ _ I A' Vc) as (b & L & D & K & C).
    destruct (load_val _ _ _ _ _ _ I A Va) as (ba & La & Da & Ka & Ca).
    unfold Detach. unfold bind at 1. unfold bind at 1. rewrite (addr_ok _ _ _ _ A'). unfold bind at 1. rewrite L. rewrite (locked_val _ _ K). cbn [Nat.leb].
    unfold bind at 1. rewrite (point_ok _ _ _ _ 0 A'). cbn [ret].
    set (s1 := point_st V s j (Some 0)).
    assert (I1 : Inv s1 N [c]) by (apply (Inv_point _ _ _ _ _ c); [apply Inv_ex0|]; assumption).
    assert (A1 : ar s1 i = Some a) by (cbn; unfold upd; destruct (Nat.eqb_spec i j); [contradiction|assumption]).
    assert (La1 : load V a s1 = Ret s1 ba).
    { revert La. unfold load. subst s1. cbn [CowModel.hp point_st]. destruct (a =? 0); [|destruct (hp s a)]; intros X; try discriminate X; injection X as ->; reflexivity. }
    rewrite (Attach_eq V s1 i a c ba) by (auto; rewrite (locked_val _ _ Ka); reflexivity).
    destruct (Swap V s1 N i a c I1 A1) as (s2 & E2 & _ & I2 & Ai & Aj & K2 & O2 & _).
    rewrite E2. eexists; split; [reflexivity|]. right.
    split; [|intros x Xi Xj; rewrite Aj by assumption; cbn; unfold upd; destruct (Nat.eqb_spec x j); [contradiction|reflexivity]].
    split; [exact I2|]. intros x. unfold wput.
    destruct (Nat.eqb_spec x j) as [->|NXJ].
    - rewrite Aj by auto. cbn. unfold upd. rewrite Nat.eqb_refl. reflexivity.
    - destruct (Nat.eqb_spec x i) as [->|NXI].
      + rewrite Ai. unfold CowProofs.val. destruct (Nat.eqb_spec c 0) as [->|NZ]; [unfold CowProofs.val in Vc; cbn in Vc; congruence|].
        rewrite O2 by auto. change (hp s1 c) with (hp s c). unfold CowProofs.val in Vc. destruct (Nat.eqb_spec c 0); [contradiction|]. symmetry. exact Vc.
      + rewrite Aj by assumption. cbn. unfold upd. destruct (Nat.eqb_spec x j); [contradiction|]. rewrite R.
        destruct (ar s x) as [ax|] eqn:Ax; [|reflexivity].
        assert (Ax2 : ar s2 x = Some ax) by (rewrite Aj by assumption; cbn; unfold upd; destruct (Nat.eqb_spec x j); [contradiction|assumption]).
        assert (S12 : Step s1 N i s2 c (l, 0) \/ True) by auto. clear S12.
        destruct (Nat.eq_dec ax 0) as [->|NZx]; [reflexivity|].
        destruct (live _ _ _ _ _ I NZx (handle_total _ _ _ _ _ _ I Ax)) as (bx & Hbx & _).
        destruct (live _ _ _ _ _ I2 NZx (handle_total _ _ _ _ _ _ I2 Ax2)) as (bx2 & Hbx2 & _).
        destruct K2 as [_ K2]. destruct (K2 ax (live_lt _ _ _ _ _ _ I Hbx)) as [[_ X]|X]; [congruence|].
        rewrite X. reflexivity.
  Qed.

  (** The destructor. *)
  Lemma Delete_spec : forall s N w i a, Rep s N w -> ar s i = Some a ->
    exists s', Delete V i s = Ret s' S_OK /\ Rep s' N (wput w i None) /\ forall x, x <> i -> ar s' x = ar s x.
  Proof.
    intros s N w i a [I R] A. pose proof (Inv_del _ _ _ _ _ _ I A) as I1.
    destruct (Release_spec _ _ _ _ _ I1) as (s' & E & I' & A' & X' & K' & O'). exists s'. split.
    - unfold Delete. unfold bind at 1. rewrite (addr_ok _ _ _ _ A). unfold bind at 1.
      revert E. clear. unfold Release, bind, load, store, Free, IsReadOnly, ret, point_st. destruct (a =? 0).
      + intros E. injection E as <-. reflexivity.
      + cbn [CowModel.hp]. destruct (hp s a) as [b|] eqn:Hb; [|discriminate].
        destruct (0 <? iref V b)%Z; cbn [CowModel.hp CowModel.ar CowModel.nx]; rewrite ?Hb.
        * destruct (iref V b - 1 =? 0)%Z; cbn [CowModel.hp CowModel.ar CowModel.nx].
          -- destruct (upd (hp s) a _ a); [|discriminate]. intros E. injection E as <-. reflexivity.
          -- intros E. injection E as <-. reflexivity.
        * intros E. injection E as <-. reflexivity.
    - split; [|intros x NX; rewrite A'; cbn; unfold upd; destruct (Nat.eqb_spec x i); [contradiction|reflexivity]].
      split; [exact I'|]. intros x. unfold wput. rewrite A'. cbn. unfold upd. destruct (Nat.eqb_spec x i) as [->|NE]; [reflexivity|].
      rewrite R. destruct (ar s x) as [ax|] eqn:Ax; [|reflexivity].
      destruct (Nat.eq_dec ax 0) as [->|NZ]; [reflexivity|].
      destruct (live _ _ _ _ _ I NZ (handle_total _ _ _ _ _ _ I Ax)) as (bx & Hbx & _).
      assert (Ax2 : ar s' x = Some ax) by (rewrite A'; cbn; unfold upd; destruct (Nat.eqb_spec x i); [contradiction|assumption]).
      destruct (live _ _ _ _ _ I' NZ (handle_total _ _ _ _ _ _ I' Ax2)) as (bx2 & Hbx2 & _).
      destruct K' as [_ K']. destruct (K' ax (live_lt _ _ _ _ _ _ I Hbx)) as [[_ X]|X]; [congruence|]. rewrite X. reflexivity.
  Qed.

  Lemma Clear_spec : forall s N i a l k, Inv s N [] -> ar s i = Some a -> val s a = Some (l, k) ->
    match Clear V i s with
    | Ret s' S_OK => exists c, Step s N i s' c ([], k) /\ (k = 0 \/ l = []) /\ (1 <= k -> c = a)
    | Exn s' => s' = s /\ 1 <= k /\ l <> []
    | _ => False
    end.
  Proof.
    intros s N i a l k I A Va. destruct (load_val _ _ _ _ _ _ I A Va) as (b & L & D & K & C).
    unfold Clear. unfold bind at 1. rewrite (addr_ok _ _ _ _ A). unfold bind at 1. rewrite L.
    destruct (IsShared V b) eqn:SH.
    - destruct (shared_cases _ _ SH) as (R & NL & LK0). destruct k as [|k]; [|congruence].
      destruct (Swap V s N i a 0 (Inv_ex0 _ _ _ _ I) A) as (s1 & E1 & _ & I1 & Ai & Aj & K1 & _).
      rewrite E1. cbn. exists 0. split; [apply Step_keep; auto|]. split; [auto|lia].
    - destruct (unshared_nz V s a b) as (NZ & Hb & Lb & R); [destruct C as [?|(?&?&?&?)]; [left; assumption|right; rewrite D; auto]|assumption|].
      rewrite D. destruct (Nat.eqb_spec (length l) 0) as [Z0|NZ0].
      + destruct l; [|discriminate]. cbn. exists a. split; [apply Step_refl; auto|auto].
      + rewrite (locked_val _ _ K). destruct (Nat.leb_spec 1 k) as [K1|K0].
        * cbn. split; [reflexivity|]. split; [assumption|]. intros ->. apply NZ0. reflexivity.
        * destruct k as [|k]; [|lia].
          destruct (SetData_spec V s N [] a b [] I NZ Hb ltac:(cbn; lia)) as (E1 & I1). unfold bind. rewrite E1. cbn. exists a.
          pose proof (Step_set V s N i a b (mkblk V (iref V b) (cap V b) []) I A NZ Hb R I1) as ST. cbn [data iref] in ST. rewrite K in ST.
          split; [exact ST|]. split; [auto|lia].
  Qed.

  (** ** The operations one by one *)
  Lemma Inc0_no_exn : forall s N i a oom l k s', Inv s N [] -> ar s i = Some a -> val s a = Some (l, k) ->
    LockInternalDataIncrement V oom i 0 s <> Exn s'.
  Proof.
    intros s N i a oom l k s' I A Va. destruct (load_val _ _ _ _ _ _ I A Va) as (b & L & D & K & C).
    unfold LockInternalDataIncrement, bind. rewrite (addr_ok _ _ _ _ A), L.
    destruct (IsShared V b) eqn:SH.
    - pose proof (LockInternalDataIncrement_spec V s N i a oom 0 l k I A Va) as P.
      unfold LockInternalDataIncrement, bind, LockResult in P. rewrite (addr_ok _ _ _ _ A), L, SH in P.
      destruct (shared_cases _ _ SH) as (_ & _ & LK0). rewrite K in LK0.
      intros E. rewrite E in P. lia.
    - destruct (unshared_nz V s a b) as (NZ & Hb & Lb & R); [destruct C as [?|(?&?&?&?)]; [left; assumption|right; rewrite D; auto]|assumption|].
      assert (E : cap V b <? GetNewCapacity (cap V b) (length (data V b) + 0) = false).
      { unfold GetNewCapacity. destruct (Nat.leb_spec (length (data V b) + 0) (cap V b)); [|lia]. apply Nat.ltb_irrefl. }
      rewrite E. destruct (Lock_spec V s N a b I NZ Hb R) as (EL & _). rewrite EL. discriminate.
  Qed.
  Lemma Lock0_no_exn : forall s N i a oom l k s', Inv s N [] -> ar s i = Some a -> val s a = Some (l, k) ->
    LockInternalData V oom i 0 s <> Exn s'.
  Proof.
    intros s N i a oom l k s' I A Va. destruct (load_val _ _ _ _ _ _ I A Va) as (b & L & D & K & C).
    unfold LockInternalData, bind. rewrite (addr_ok _ _ _ _ A), L.
    destruct (IsShared V b) eqn:SH.
    - pose proof (LockInternalData_spec V s N i a oom 0 l k I A Va) as P.
      unfold LockInternalData, bind, LockResult in P. rewrite (addr_ok _ _ _ _ A), L, SH in P.
      destruct (shared_cases _ _ SH) as (_ & _ & LK0). rewrite K in LK0.
      intros E. rewrite E in P. lia.
    - destruct (unshared_nz V s a b) as (NZ & Hb & Lb & R); [destruct C as [?|(?&?&?&?)]; [left; assumption|right; rewrite D; auto]|assumption|].
      cbn [Nat.ltb Nat.leb]. destruct (Lock_spec V s N a b I NZ Hb R) as (EL & _). rewrite EL. discriminate.
  Qed.

  Lemma setnth_replaced : forall l k v, setnth V l k v = replaced l k v.
  Proof. intros. unfold setnth, replaced. rewrite Nat.add_1_r. reflexivity. Qed.
  Lemma replaced_length : forall l k v, k < length l -> length (replaced l k v) = length l.
  Proof. intros. unfold replaced. rewrite !app_length, firstn_length, skipn_length. cbn. lia. Qed.
  Lemma elems_buf_of : forall l, elems V (buf_of V dflt l) (length l) = l.
  Proof.
    intros l. apply (list_eq_nth V). intros k. rewrite elems_nth. unfold buf_of. destruct (Nat.ltb_spec k (length l)) as [H|H].
    - symmetry. apply nth_error_nth'. assumption.
    - symmetry. apply nth_error_None. assumption.
  Qed.
  Lemma insert_body : forall l k v, k <= length l -> (trivial = true \/ length l <= k + 2) ->
    elems V (InsertBody V moved trivial (buf_of V dflt l) (length l) k v) (S (length l)) = insert_spec V l k v.
  Proof.
    intros l k v L G. assert (E : elems V (InsertBody V moved trivial (buf_of V dflt l) (length l) k v) (S (length l))
      = insert_spec V (elems V (buf_of V dflt l) (length l)) k v).
    { destruct trivial; [apply C06_Insert_trivial; assumption|]. apply C06_Insert_nontrivial_partial; [assumption|]. destruct G; [discriminate|assumption]. }
    rewrite E, elems_buf_of. reflexivity.
  Qed.
  Lemma remove_body : forall l k c, k + c <= length l -> (trivial = true \/ length l <= k + c + c) ->
    elems V (RemoveBody V moved trivial (buf_of V dflt l) (length l) k c) (length l - c) = remove_spec V l k c.
  Proof.
    intros l k c L G. assert (E : elems V (RemoveBody V moved trivial (buf_of V dflt l) (length l) k c) (length l - c)
      = remove_spec V (elems V (buf_of V dflt l) (length l)) k c).
    { destruct trivial; [apply C06_Remove_trivial; assumption|]. apply C06_Remove_nontrivial_partial; [assumption|]. destruct G; [discriminate|assumption]. }
    rewrite E, elems_buf_of. reflexivity.
  Qed.
  Lemma remove_clamp : forall l k c, k <= length l -> remove_spec V l k c = remove_spec V l k (Nat.min c (length l - k)).
  Proof.
    intros l k c L. unfold remove_spec. f_equal. destruct (Nat.le_ge_cases c (length l - k)) as [H|H].
    - rewrite Nat.min_l by assumption. reflexivity.
    - rewrite Nat.min_r by assumption. rewrite !skipn_all2 by lia. reflexivity.
  Qed.

  Lemma Clear_good : forall s N w i o l k, Rep s N w -> w i = Some (l, k) ->
    ((k = 0 \/ l = []) -> aspec w o (Some S_OK) (wput w i (Some ([], k)))) ->
    (forall k', k = S k' -> l <> [] -> aspec w o None w) -> GoodO s N w o (Clear V i s).
  Proof.
    intros s N w i o l k R Hi G1 G2. destruct (Rep_get _ _ _ _ _ R Hi) as (a & A & Va).
    pose proof (Clear_spec s N i a l k (proj1 R) A Va) as P. destruct (Clear V i s) as [s' []|s'|]; try contradiction.
    - destruct P as (c & ST & Hk & Hc). cbn. eexists; split; [apply G1; assumption|]. split; [apply (Rep_step s N w i s' c); assumption|].
      apply (Stab_step s N i s' c _ w o ST). intros l1 k1 H1. rewrite Hi in H1. injection H1 as <- ->. rewrite Hc by lia. assumption.
    - destruct P as (-> & K1 & NE). destruct k as [|k]; [lia|]. cbn. exists w. split; [apply (G2 k); auto|]. split; [assumption|apply Stab_refl].
  Qed.

  Definition LockBuffer_post (s : st) (N i : nat) (oom : bool) (l : list V) (k n : nat) (x : outcome st (option nat)) : Prop :=
    match x with
    | Ret s' (Some c) =>
        (1 <= k -> ar s i = Some c) /\
        ((c <> 0 /\ length l <= n /\ Step s N i s' c (grown l n, S k)) \/
         (c <> 0 /\ k = 0 /\ n < length l /\ Step s N i s' c (firstn n l, 1)) \/
         (c = 0 /\ k = 0 /\ n = 0 /\ l = [] /\ Step s N i s' 0 ([], 0)))
    | Ret s' None => s' = s /\ oom = true
    | Exn s' => 1 <= k /\ exists c, Step s N i s' c (l, k) /\ ar s i = Some c
    | UB => False
    end.

  Lemma LockBuffer_spec : forall s N i a oom l k n, Inv s N [] -> ar s i = Some a -> val s a = Some (l, k) ->
    LockBuffer_post s N i oom l k n (LockBufferAndSetSize V dflt oom i n s).
  Proof.
    intros s N i a oom l k n I A Va. unfold LockBufferAndSetSize. unfold bind at 1.
    pose proof (LockInternalData_spec V s N i a oom n l k I A Va) as P. unfold LockResult in P.
    destruct (LockInternalData V oom i n s) as [s1 [c|]|s1|]; [| | |contradiction].
    - destruct P as (lk' & ST & Z0 & NZ & AD).
      destruct (load_val s1 N i c l lk' (step_inv _ _ _ _ _ _ _ ST) (step_i _ _ _ _ _ _ _ ST) (step_v _ _ _ _ _ _ _ ST)) as (b & L & D & K & C).
      unfold bind at 1. rewrite L, D.
      destruct (Nat.leb_spec (length l) n) as [Ln|Ln].
      + destruct (Nat.eq_dec c 0) as [->|NZc].
        * destruct (Z0 eq_refl) as (-> & -> & ->). cbn. split; [assumption|]. right; right.
          split; [reflexivity|]. split; [|split; [reflexivity|split; [reflexivity|exact ST]]].
          destruct k as [|k]; [reflexivity|]. specialize (AD ltac:(lia)). rewrite AD in A. injection A as <-. unfold CowProofs.val in Va. cbn in Va. congruence.
        * destruct (NZ NZc) as [-> Cap].
          destruct (SetData_step V s1 N i c l (S k) (grown l n) (step_inv _ _ _ _ _ _ _ ST) (step_i _ _ _ _ _ _ _ ST) (step_v _ _ _ _ _ _ _ ST)
            ltac:(lia) ltac:(intros; contradiction)) as (s2 & E2 & ST2 & _ & _).
          { intros b1 _ Hb1. unfold grown. rewrite app_length, repeat_length. specialize (Cap b1 Hb1). lia. }
          unfold bind. unfold grown in E2. rewrite E2. cbn. split; [assumption|]. left. split; [assumption|]. split; [assumption|].
          eapply Step_trans; eassumption.
      + destruct (Nat.eq_dec c 0) as [->|NZc]; [destruct (Z0 eq_refl) as (_ & -> & _); cbn in Ln; lia|].
        destruct (NZ NZc) as [-> Cap].
        replace (GetLockedCount V b) with (S k) by (rewrite <- K; reflexivity).
        destruct (Nat.ltb_spec 1 (S k)) as [K1|K1].
        * destruct (Unlock_step V s1 N i c l k (step_inv _ _ _ _ _ _ _ ST) (step_i _ _ _ _ _ _ _ ST) NZc (step_v _ _ _ _ _ _ _ ST)) as (s2 & E2 & ST2).
          unfold bind. rewrite E2. cbn. split; [lia|]. exists c. split; [eapply Step_trans; eassumption|apply AD; lia].
        * destruct k as [|k]; [|lia].
          destruct (SetData_step V s1 N i c l 1 (firstn n l) (step_inv _ _ _ _ _ _ _ ST) (step_i _ _ _ _ _ _ _ ST) (step_v _ _ _ _ _ _ _ ST)
            ltac:(lia) ltac:(intros; contradiction)) as (s2 & E2 & ST2 & _ & _).
          { intros b1 _ Hb1. rewrite firstn_length. specialize (Cap b1 Hb1). lia. }
          unfold bind. rewrite E2. cbn. split; [assumption|]. right; left. split; [assumption|]. split; [reflexivity|]. split; [assumption|]. eapply Step_trans; eassumption.
    - cbn. assumption.
    - destruct P as [-> K1]. cbn. split; [assumption|]. exists a. split; [apply Step_refl; auto|assumption].
  Qed.

  Lemma UnlockBuffer_locked : forall s N i c l k, Inv s N [] -> ar s i = Some c -> c <> 0 -> val s c = Some (l, S k) ->
    exists s', UnlockBuffer V i s = Ret s' S_OK /\ Step s N i s' c (l, k).
  Proof.
    intros s N i c l k I A NZ Vc. destruct (load_val _ _ _ _ _ _ I A Vc) as (b & L & D & K & C).
    destruct (Unlock_step V s N i c l k I A NZ Vc) as (s' & E & ST). exists s'. split; [|assumption].
    unfold UnlockBuffer, bind. rewrite (addr_ok _ _ _ _ A), L, (locked_val _ _ K). cbn [Nat.leb]. rewrite E. reflexivity.
  Qed.

  Lemma wput_wput : forall w i x y, weq (wput (wput w i x) i y) (wput w i y).
  Proof. intros w i x y j. unfold wput. destruct (j =? i); reflexivity. Qed.
  Lemma wput_none : forall w i x, w i = None -> weq (wput (wput w i x) i None) w.
  Proof. intros w i x H j. unfold wput. destruct (Nat.eqb_spec j i) as [->|]; auto. Qed.

  (** A new object. *)
  Lemma New_spec : forall s N w i, Rep s N w -> w i = None ->
    exists s1, New V i s = Ret s1 tt /\ Rep s1 (Nat.max N (S i)) (wput w i (Some ([], 0))) /\ ar s1 i = Some 0 /\ val s1 0 = Some ([], 0)
      /\ (forall j, j <> i -> ar s1 j = ar s j).
  Proof.
    intros s N w i R Hi. pose proof (Rep_none _ _ _ _ R Hi) as A. exists (point_st V s i (Some 0)).
    split; [unfold New; rewrite A; reflexivity|]. split; [|split; [|split]].
    - split; [apply Inv_new; [apply R|assumption]|]. intros j. unfold wput. cbn. unfold upd. destruct (Nat.eqb_spec j i) as [->|NE]; [reflexivity|].
      destruct R as [_ R]. rewrite R. destruct (ar s j); reflexivity.
    - cbn. unfold upd. rewrite Nat.eqb_refl. reflexivity.
    - reflexivity.
    - intros j NE. cbn. unfold upd. destruct (Nat.eqb_spec j i); [contradiction|reflexivity].
  Qed.
  Lemma Stab_new : forall s s' w o i, w i = None -> (forall j, j <> i -> ar s' j = ar s j) -> Stab s s' w o.
  Proof. intros s s' w o i Hi H j l k Hj _. apply H. intros ->. congruence. Qed.

  (** A constructor body that failed: the object disappears again. *)
  Lemma construct_fail : forall s N w i s1, Rep s N w -> w i = None -> New V i s = Ret s1 tt ->
    exists s2, Delete V i s1 = Ret s2 S_OK /\ Rep s2 (Nat.max N (S i)) w /\ (forall j, j <> i -> ar s2 j = ar s j).
  Proof.
    intros s N w i s1 R Hi E. destruct (New_spec s N w i R Hi) as (s1' & E' & R1 & A1 & _ & O1).
    rewrite E in E'. injection E' as <-.
    destruct (Delete_spec s1 _ _ i 0 R1 A1) as (s2 & E2 & R2 & _). exists s2. split; [assumption|].
    split; [eapply Rep_weq; [exact R2|apply wput_none; assumption]|].
    intros j NE. unfold Delete, bind in E2. rewrite (addr_ok _ _ _ _ A1) in E2. cbn in E2. injection E2 as <-. cbn. unfold upd.
    destruct (Nat.eqb_spec j i); [contradiction|]. apply O1; assumption.
  Qed.

  Lemma op_good : forall s N w o, Rep s N w -> pre w o -> Good s w o.
  Proof.
    intros s N w o R P. pose proof (proj1 R) as I. destruct o; cbn [pre] in P.
    - (* New *)
      destruct (New_spec s N w i R P) as (s1 & E & R1 & _ & _ & O1). apply (Good_O s (Nat.max N (S i))). cbn. unfold bind. rewrite E. cbn.
      eexists; split; [constructor|]. split; [exact R1|]. apply (Stab_new _ _ _ _ i); assumption.
    - (* NewList *)
      destruct (New_spec s N w i R P) as (s1 & E & R1 & A1 & V1 & O1). apply (Good_O s (Nat.max N (S i))).
      cbn. unfold NewList, construct, bind at 1. rewrite E.
      pose proof (SetArray_spec s1 _ i 0 oom [] 0 l (proj1 R1) A1 V1) as S1. unfold SetArray_post in S1.
      destruct (construct_fail s N w i s1 R P E) as (s3 & E3 & R3 & O3).
      destruct (SetArray V oom i l s1) as [s2 []|s2|]; try contradiction.
      + destruct S1 as (c & ST & _). cbn. eexists; split; [constructor|].
        split; [eapply Rep_weq; [eapply Rep_step; [exact R1|exact ST]|apply wput_wput]|].
        apply (Stab_new _ _ _ _ i P). intros j NE. rewrite <- (O1 j NE). apply (step_o _ _ _ _ _ _ _ ST j NE).
      + destruct S1 as (-> & O & _). rewrite E3. cbn. subst oom. exists w. split; [constructor|]. split; [assumption|].
        apply (Stab_new _ _ _ _ i P O3).
      + destruct S1 as [_ ?]. lia.
    - (* NewCopy *)
      destruct P as (P & l & k & Hj). destruct (New_spec s N w i R P) as (s1 & E & R1 & A1 & V1 & O1). apply (Good_O s (Nat.max N (S i))).
      assert (NIJ : i <> j) by congruence.
      assert (Hj1 : wput w i (Some ([], 0)) j = Some (l, k)) by (unfold wput; destruct (Nat.eqb_spec j i); congruence).
      destruct (Rep_get _ _ _ _ _ R1 Hj1) as (c & Aj & Vj).
      cbn. unfold NewCopy, construct, bind at 1. rewrite E.
      pose proof (SetArrayCopy_spec s1 _ i j 0 c oom [] 0 l k (proj1 R1) A1 V1 Aj Vj ltac:(auto)) as S1.
      destruct (construct_fail s N w i s1 R P E) as (s3 & E3 & R3 & O3).
      destruct (SetArrayCopy V oom i j s1) as [s2 []|s2|]; try contradiction.
      + destruct S1 as [[? _]|(_ & d & ST)]; [contradiction|]. cbn. eexists; split; [econstructor; eassumption|].
        split; [eapply Rep_weq; [eapply Rep_step; [exact R1|exact ST]|apply wput_wput]|].
        apply (Stab_new _ _ _ _ i P). intros x NE. rewrite <- (O1 x NE). apply (step_o _ _ _ _ _ _ _ ST x NE).
      + destruct S1 as (-> & O & K1). rewrite E3. cbn. subst oom. destruct k as [|k]; [lia|]. exists w. split; [econstructor; eassumption|]. split; [assumption|].
        apply (Stab_new _ _ _ _ i P O3).
    - (* NewMove *)
      destruct P as (P & l & Hj). destruct (New_spec s N w i R P) as (s1 & E & R1 & A1 & V1 & O1). apply (Good_O s (Nat.max N (S i))).
      assert (NIJ : i <> j) by congruence.
      assert (Hj1 : wput w i (Some ([], 0)) j = Some (l, 0)) by (unfold wput; destruct (Nat.eqb_spec j i); congruence).
      destruct (Rep_get _ _ _ _ _ R1 Hj1) as (c & Aj & Vj).
      destruct (SetArrayMove_spec s1 _ _ i j 0 c [] l R1 NIJ A1 V1 Aj Vj) as (s2 & E2 & CS).
      cbn. unfold NewMove, construct, bind at 1. rewrite E, E2. cbn.
      destruct CS as [[<- ->]|[R2 R2o]].
      + cbn in Vj. unfold CowProofs.val in Vj. cbn in Vj. injection Vj as <-. eexists; split; [econstructor; eassumption|].
        split; [eapply Rep_weq; [exact R1|]|apply (Stab_new _ _ _ _ i P O1)].
        intros x. unfold wput. destruct (Nat.eqb_spec x j) as [->|]; [|reflexivity]. destruct (Nat.eqb_spec j i); congruence.
      + eexists; split; [econstructor; eassumption|].
        split; [eapply Rep_weq; [exact R2|]|].
        * intros x. unfold wput. destruct (x =? j); [reflexivity|]. destruct (x =? i); reflexivity.
        * intros x lx kx Hx _. assert (x <> i) by congruence. assert (x <> j) by congruence.
          rewrite R2o by assumption. apply O1. assumption.
    - (* Delete *)
      destruct P as (l & k & Hi). destruct (Rep_get _ _ _ _ _ R Hi) as (a & A & Va).
      destruct (Delete_spec s N w i a R A) as (s' & E & R' & O'). apply (Good_O s N). cbn. rewrite E. cbn.
      eexists; split; [constructor|]. split; [exact R'|]. intros x lx kx Hx NE. apply O'. intros ->. apply NE. reflexivity.
    - (* Assign *)
      destruct P as ((l & m & Hj) & D). destruct (Rep_get _ _ _ _ _ R Hj) as (c & Aj & Vj). apply (Good_O s N). cbn.
      assert (Hi : exists l0 k, w i = Some (l0, k) /\ (k = 0 \/ i = j)).
      { destruct D as [->|[l0 H0]]; [eauto|]. exists l0, 0. auto. }
      destruct Hi as (l0 & k & Hi & D'). destruct (Rep_get _ _ _ _ _ R Hi) as (a & A & Va).
      pose proof (SetArrayCopy_spec s N i j a c oom l0 k l m I A Va Aj Vj D') as S1.
      unfold bind. destruct (SetArrayCopy V oom i j s) as [s2 []|s2|]; try contradiction; cbn.
      + destruct S1 as [[-> ->]|(NIJ & d & ST)].
        * exists w. split; [constructor|]. split; [assumption|apply Stab_refl].
        * eexists; split; [eapply A_Assign; eassumption|]. split; [eapply Rep_step; eassumption|].
          apply (Stab_step s N i s2 d _ w _ ST). intros l1 k1 H1. destruct D' as [->|]; [congruence|contradiction].
      + destruct S1 as (-> & -> & M1). destruct m as [|m]; [lia|]. exists w. split; [eapply A_Assign_oom; eassumption|]. split; [assumption|apply Stab_refl].
    - (* AssignMove *)
      apply (Good_O s N). cbn. destruct P as [(-> & l & k & Hi)|((l0 & Hi) & l & Hj)].
      + destruct (Rep_get _ _ _ _ _ R Hi) as (a & A & Va). unfold SetArrayMove, bind. do 2 (rewrite (addr_ok _ _ _ _ A); cbv beta iota). rewrite Nat.eqb_refl. cbn.
        exists w. split; [constructor|]. split; [assumption|apply Stab_refl].
      + destruct (Rep_get _ _ _ _ _ R Hi) as (a & A & Va). destruct (Rep_get _ _ _ _ _ R Hj) as (c & Aj & Vj).
        destruct (Nat.eq_dec i j) as [->|NIJ].
        * unfold SetArrayMove, bind. do 2 (rewrite (addr_ok _ _ _ _ A); cbv beta iota). rewrite Nat.eqb_refl. cbn.
          exists w. split; [constructor|]. split; [assumption|apply Stab_refl].
        * destruct (SetArrayMove_spec s N w i j a c l0 l R NIJ A Va Aj Vj) as (s2 & E2 & CS). rewrite E2. cbn.
          destruct CS as [[<- ->]|[R2 R2o]].
          -- exists w. split; [apply (A_AssignMove_same w i j l); congruence|]. split; [assumption|apply Stab_refl].
          -- eexists; split; [eapply A_AssignMove; eassumption|]. split; [exact R2|]. intros x lx kx Hx _. apply R2o; congruence.
    - (* SetArray *)
      destruct P as (l0 & k & Hi). destruct (Rep_get _ _ _ _ _ R Hi) as (a & A & Va). apply (Good_O s N). cbn.
      pose proof (SetArray_spec s N i a oom l0 k l I A Va) as S1. unfold SetArray_post in S1.
      destruct (SetArray V oom i l s) as [s2 []|s2|]; try contradiction; cbn.
      + destruct S1 as (c & ST & HL & AD). eexists; split; [eapply A_SetArray; eassumption|]. split; [eapply Rep_step; eassumption|].
        apply (Stab_step s N i s2 c _ w _ ST). intros l1 k1 H1. apply AD. rewrite Hi in H1. injection H1 as <- ->. lia.
      + destruct S1 as (-> & -> & ->). exists w. split; [eapply A_SetArray_oom; eassumption|]. split; [assumption|apply Stab_refl].
      + destruct S1 as (-> & K1). destruct k as [|k]; [lia|]. exists w. split; [eapply A_SetArray_locked; eassumption|]. split; [assumption|apply Stab_refl].
    - (* Clear *)
      destruct P as (l & k & Hi). apply (Good_O s N). cbn. apply (Clear_good s N w i _ l k R Hi).
      + intros H. eapply A_Clear; eassumption.
      + intros k' -> NE. eapply A_Clear_locked; eassumption.
    - (* Reserve *)
      destruct P as (l & k & Hi). destruct (Rep_get _ _ _ _ _ R Hi) as (a & A & Va). apply (Good_O s N). cbn. unfold Reserve, bind at 1.
      pose proof (LockInternalData_spec V s N i a oom n l k I A Va) as P. unfold LockResult in P.
      destruct (LockInternalData V oom i n s) as [s1 [c|]|s1|]; [| | |contradiction].
      + destruct P as (lk' & ST & Z0 & NZ & AD). destruct (Nat.eq_dec c 0) as [->|NZc].
        * destruct (Z0 eq_refl) as (_ & -> & ->). cbn. exists w. split; [constructor|].
          assert (K0 : k = 0). { destruct k as [|k]; [reflexivity|]. rewrite (AD ltac:(lia)) in A. injection A as <-. unfold CowProofs.val in Va. cbn in Va. congruence. }
          subst k. split; [eapply Rep_weq; [eapply Rep_step; eassumption|]|].
          -- intros x. symmetry. apply weq_put_same. assumption.
          -- apply (Stab_step s N i s1 0 _ w _ ST). intros l1 k1 H1. congruence.
        * destruct (NZ NZc) as [-> _].
          destruct (Unlock_step V s1 N i c l k (step_inv _ _ _ _ _ _ _ ST) (step_i _ _ _ _ _ _ _ ST) NZc (step_v _ _ _ _ _ _ _ ST)) as (s2 & E2 & ST2).
          unfold bind. rewrite E2. cbn. exists w. split; [constructor|]. pose proof (Step_trans _ _ _ _ _ _ _ _ _ _ ST ST2) as ST3.
          split; [eapply Rep_weq; [eapply Rep_step; eassumption|]|].
          -- intros x. symmetry. apply weq_put_same. assumption.
          -- apply (Stab_step s N i s2 c _ w _ ST3). intros l1 k1 H1. apply AD. rewrite Hi in H1. injection H1 as <- ->. lia.
      + destruct P as [-> ->]. cbn. exists w. split; [constructor|]. split; [assumption|apply Stab_refl].
      + destruct P as [-> K1]. destruct k as [|k]; [lia|]. cbn. exists w. split; [eapply A_Reserve_locked; eassumption|]. split; [assumption|apply Stab_refl].
    - (* Resize *)
      destruct P as (l & k & Hi). destruct (Rep_get _ _ _ _ _ R Hi) as (a & A & Va). apply (Good_O s N). cbn. unfold Resize.
      destruct (Nat.eqb_spec n 0) as [->|NZn].
      + apply (Clear_good s N w i _ l k R Hi).
        * intros [->| ->].
          -- destruct l as [|x l]; [apply (A_Resize_grow w oom i 0 [] 0 Hi); cbn; lia|]. apply (A_Resize_shrink w oom i 0 (x :: l) Hi). cbn; lia.
          -- apply (A_Resize_grow w oom i 0 [] k Hi). cbn; lia.
        * intros k' -> NE. eapply A_Resize_locked; eassumption.
      + unfold bind. pose proof (LockBuffer_spec s N i a oom l k n I A Va) as P. unfold LockBuffer_post in P.
        destruct (LockBufferAndSetSize V dflt oom i n s) as [s1 [c|]|s1|]; [| | |contradiction].
        * destruct P as (AD & [(NZc & Ln & ST)|[(NZc & -> & Ln & ST)|(_ & _ & ? & _)]]); [| |contradiction].
          -- destruct (UnlockBuffer_locked s1 N i c _ k (step_inv _ _ _ _ _ _ _ ST) (step_i _ _ _ _ _ _ _ ST) NZc (step_v _ _ _ _ _ _ _ ST)) as (s2 & E2 & ST2).
             rewrite E2. cbn. pose proof (Step_trans _ _ _ _ _ _ _ _ _ _ ST ST2) as ST3.
             eexists; split; [eapply A_Resize_grow; eassumption|]. split; [eapply Rep_step; eassumption|].
             apply (Stab_step s N i s2 c _ w _ ST3). intros l1 k1 H1. apply AD. rewrite Hi in H1. injection H1 as <- ->. lia.
          -- destruct (UnlockBuffer_locked s1 N i c _ 0 (step_inv _ _ _ _ _ _ _ ST) (step_i _ _ _ _ _ _ _ ST) NZc (step_v _ _ _ _ _ _ _ ST)) as (s2 & E2 & ST2).
             rewrite E2. cbn. pose proof (Step_trans _ _ _ _ _ _ _ _ _ _ ST ST2) as ST3.
             eexists; split; [eapply A_Resize_shrink; eassumption|]. split; [eapply Rep_step; eassumption|].
             apply (Stab_step s N i s2 c _ w _ ST3). intros l1 k1 H1. congruence.
        * destruct P as [-> ->]. cbn. exists w. split; [constructor|]. split; [assumption|apply Stab_refl].
        * destruct P as (K1 & c & ST & Ac). destruct k as [|k]; [lia|]. cbn. exists w. split; [eapply A_Resize_locked; eassumption|].
          split; [eapply Rep_weq; [eapply Rep_step; eassumption|]|].
          -- intros x. symmetry. apply weq_put_same. assumption.
          -- apply (Stab_step s N i s1 c _ w _ ST). auto.
    - (* Lock *)
      destruct P as (l & k & Hi). destruct (Rep_get _ _ _ _ _ R Hi) as (a & A & Va). apply (Good_O s N). cbn.
      unfold bind. pose proof (LockBuffer_spec s N i a oom l k n I A Va) as P. unfold LockBuffer_post in P.
      destruct (LockBufferAndSetSize V dflt oom i n s) as [s1 [c|]|s1|]; [| | |contradiction].
      + destruct P as (AD & [(NZc & Ln & ST)|[(NZc & -> & Ln & ST)|(-> & -> & -> & -> & ST)]]); cbn.
        * eexists; split; [eapply A_Lock_grow; eassumption|]. split; [eapply Rep_step; eassumption|].
          apply (Stab_step s N i s1 c _ w _ ST). intros l1 k1 H1. apply AD. rewrite Hi in H1. injection H1 as <- ->. lia.
        * eexists; split; [eapply A_Lock_shrink; eassumption|]. split; [eapply Rep_step; eassumption|].
          apply (Stab_step s N i s1 c _ w _ ST). intros l1 k1 H1. congruence.
        * exists w. split; [eapply A_Lock_empty; eassumption|]. split; [eapply Rep_weq; [eapply Rep_step; eassumption|]|].
          -- intros x. symmetry. apply weq_put_same. assumption.
          -- apply (Stab_step s N i s1 0 _ w _ ST). intros l1 k1 H1. congruence.
      + destruct P as [-> ->]. cbn. exists w. split; [constructor|]. split; [assumption|apply Stab_refl].
      + destruct P as (K1 & c & ST & Ac). destruct k as [|k]; [lia|]. cbn. exists w. split; [eapply A_Lock_locked; eassumption|].
        split; [eapply Rep_weq; [eapply Rep_step; eassumption|]|].
        * intros x. symmetry. apply weq_put_same. assumption.
        * apply (Stab_step s N i s1 c _ w _ ST). auto.
    - (* Unlock *)
      destruct P as (l & k & Hi). destruct (Rep_get _ _ _ _ _ R Hi) as (a & A & Va). apply (Good_O s N). cbn.
      destruct k as [|k].
      + destruct (load_val _ _ _ _ _ _ I A Va) as (b & L & D & K & C).
        unfold UnlockBuffer, bind. rewrite (addr_ok _ _ _ _ A), L, (locked_val _ _ K). cbn.
        exists w. split; [eapply A_Unlock_not; eassumption|]. split; [assumption|apply Stab_refl].
      + assert (NZ : a <> 0) by (intros ->; unfold CowProofs.val in Va; cbn in Va; congruence).
        destruct (UnlockBuffer_locked s N i a l k I A NZ Va) as (s' & E & ST). rewrite E. cbn.
        eexists; split; [eapply A_Unlock; eassumption|]. split; [eapply Rep_step; eassumption|].
        apply (Stab_step s N i s' a _ w _ ST). auto.
    - (* Write *)
      destruct P as (l & n & Hi & Lk). destruct (Rep_get _ _ _ _ _ R Hi) as (a & A & Va). apply (Good_O s N). cbn.
      destruct (load_val _ _ _ _ _ _ I A Va) as (b & L & D & K & C).
      unfold WriteLocked, bind. rewrite (addr_ok _ _ _ _ A), L, (locked_val _ _ K), D. cbn [Nat.leb andb].
      destruct (Nat.ltb_spec k (length l)); [|lia].
      destruct C as [[-> _]|(NZ & Hb & Lb & _)]; [unfold CowProofs.val in Va; cbn in Va; congruence|].
      destruct (SetData_step V s N i a l (S n) (setnth V l k v) I A Va ltac:(lia) ltac:(intros; contradiction)) as (s2 & E2 & ST2 & _ & _).
      { intros b1 _ Hb1. rewrite Hb in Hb1. injection Hb1 as <-. rewrite setnth_replaced, replaced_length by assumption. assumption. }
      rewrite E2. cbn. rewrite setnth_replaced in ST2. eexists; split; [eapply A_Write; eassumption|]. split; [eapply Rep_step; eassumption|].
      apply (Stab_step s N i s2 a _ w _ ST2). auto.
    - (* SetItem *)
      destruct P as (l & n & Hi). destruct (Rep_get _ _ _ _ _ R Hi) as (a & A & Va). apply (Good_O s N). cbn. unfold SetItem.
      destruct (load_val _ _ _ _ _ _ I A Va) as (b & L & D & K & C). unfold bind at 1. rewrite (addr_ok _ _ _ _ A). unfold bind at 1. rewrite L, D.
      destruct (Nat.leb_spec (length l) k) as [Lk|Lk].
      + cbn. exists w. split; [eapply A_SetItem_bounds; eassumption|]. split; [assumption|apply Stab_refl].
      + eapply (mutate_good s N w i _ oom l n (length l + 0) _ (fun l => setnth V l k v) (LockInternalDataIncrement V oom i 0)); try reflexivity; auto.
        * apply (LockInternalDataIncrement_spec V s N i a); assumption.
        * intros E ->. cbn in Lk. lia.
        * right. rewrite setnth_replaced, replaced_length by assumption. lia.
        * rewrite setnth_replaced. eapply A_SetItem; eassumption.
        * intros ->. eapply A_SetItem_oom; eassumption.
        * intros k' _ [s' X]. exfalso. exact (Inc0_no_exn s N i a oom l n s' I A Va X).
    - (* Add *)
      destruct P as (l & n & Hi). destruct (Rep_get _ _ _ _ _ R Hi) as (a & A & Va). apply (Good_O s N). cbn. unfold Add, AddMany.
      eapply (mutate_good s N w i _ oom l n (length l + 1) _ (fun l => l ++ [v]) (LockInternalDataIncrement V oom i 1)); try reflexivity; auto.
      * apply (LockInternalDataIncrement_spec V s N i a); assumption.
      * lia.
      * left. rewrite app_length. cbn. lia.
      * eapply A_Add; eassumption.
      * intros ->. constructor.
      * intros k' -> _. eapply A_Add_locked; eassumption.
    - (* AddMany *)
      destruct P as (l0 & n & Hi). destruct (Rep_get _ _ _ _ _ R Hi) as (a & A & Va). apply (Good_O s N). cbn. unfold AddMany.
      destruct l as [|x l].
      + cbn. eexists; split; [eapply A_AddMany; eassumption|]. rewrite app_nil_r.
        split; [eapply Rep_weq; [exact R|apply weq_put_same; assumption]|apply Stab_refl].
      + eapply (mutate_good s N w i _ oom l0 n (length l0 + length (x :: l)) _ (fun l0 => l0 ++ x :: l) (LockInternalDataIncrement V oom i (length (x :: l)))); try reflexivity; auto.
        * apply (LockInternalDataIncrement_spec V s N i a); assumption.
        * cbn; lia.
        * left. rewrite app_length. lia.
        * eapply A_AddMany; eassumption.
        * intros ->. constructor.
        * intros k' -> _. eapply A_AddMany_locked; eassumption.
    - (* Insert *)
      destruct P as (l & n & Hi & G). destruct (Rep_get _ _ _ _ _ R Hi) as (a & A & Va). apply (Good_O s N). cbn. unfold Insert.
      destruct (load_val _ _ _ _ _ _ I A Va) as (b & L & D & K & C). unfold bind at 1. rewrite (addr_ok _ _ _ _ A). unfold bind at 1. rewrite L, D.
      destruct (Nat.ltb_spec (length l) k) as [Lk|Lk].
      + cbn. exists w. split; [eapply A_Insert_bounds; eassumption|]. split; [assumption|apply Stab_refl].
      + eapply (mutate_good s N w i _ oom l n (length l + 1) _
          (fun l => elems V (InsertBody V moved trivial (buf_of V dflt l) (length l) k v) (S (length l))) (LockInternalDataIncrement V oom i 1)); try reflexivity; auto.
        * apply (LockInternalDataIncrement_spec V s N i a); assumption.
        * lia.
        * left. rewrite elems_length. lia.
        * rewrite insert_body by assumption. eapply A_Insert; eassumption.
        * intros ->. eapply A_Insert_oom; eassumption.
        * intros k' -> _. eapply A_Insert_locked; eassumption.
    - (* Remove *)
      destruct P as (l & n & Hi & G). destruct (Rep_get _ _ _ _ _ R Hi) as (a & A & Va). apply (Good_O s N). cbn. unfold Remove.
      destruct (Nat.eqb_spec c 0) as [->|NZc].
      { cbn. eexists; split; [eapply A_Remove; [eassumption|]|].
        - destruct l; [auto|right; right; left; cbn; lia].
        - unfold remove_spec. rewrite Nat.add_0_r, firstn_skipn. split; [eapply Rep_weq; [exact R|apply weq_put_same; assumption]|apply Stab_refl]. }
      destruct (load_val _ _ _ _ _ _ I A Va) as (b & L & D & K & C). unfold bind at 1. rewrite (addr_ok _ _ _ _ A). unfold bind at 1. rewrite L, D.
      destruct (Nat.leb_spec (length l) k) as [Lk|Lk].
      { cbn. eexists; split; [eapply A_Remove; [eassumption|]|].
        - destruct k; [|auto with arith]. destruct l; [auto|cbn in Lk; lia].
        - unfold remove_spec. rewrite firstn_all2 by assumption. rewrite skipn_all2 by lia. rewrite app_nil_r. split; [eapply Rep_weq; [exact R|apply weq_put_same; assumption]|apply Stab_refl]. }
      assert (RC : (if c <? length l - k then c else length l - k) = Nat.min c (length l - k)) by (destruct (Nat.ltb_spec c (length l - k)); lia).
      rewrite RC. destruct (Nat.eqb_spec (Nat.min c (length l - k)) (length l)) as [EA|EA].
      + assert (k = 0) by lia. subst k.
        assert (RE : remove_spec V l 0 c = []) by (unfold remove_spec; cbn; apply skipn_all2; lia).
        apply (Clear_good s N w i _ l n R Hi).
        * intros H. rewrite <- RE. eapply A_Remove; [eassumption|]. destruct H as [->| ->]; auto.
        * intros k' -> NE. eapply A_Remove_locked; [eassumption|assumption|lia].
      + eapply (mutate_good s N w i _ oom l n (length l + 0) _
          (fun l0 => elems V (RemoveBody V moved trivial (buf_of V dflt l0) (length l) k (Nat.min c (length l - k))) (length l - Nat.min c (length l - k)))
          (LockInternalDataIncrement V oom i 0)); try reflexivity; auto.
        * apply (LockInternalDataIncrement_spec V s N i a); assumption.
        * intros E ->. cbn in Lk. lia.
        * right. rewrite elems_length. lia.
        * rewrite remove_body by (try lia; assumption). rewrite <- remove_clamp by lia. eapply A_Remove; [eassumption|]. destruct k; [|auto with arith]. right; right; left. lia.
        * intros ->. constructor.
        * intros k' _ [s' X]. exfalso. exact (Inc0_no_exn s N i a oom l n s' I A Va X).
    - (* Sort *)
      destruct P as (l & n & Hi). destruct (Rep_get _ _ _ _ _ R Hi) as (a & A & Va). apply (Good_O s N). cbn. unfold Sort.
      destruct (load_val _ _ _ _ _ _ I A Va) as (b & L & D & K & C). unfold bind at 1. rewrite (addr_ok _ _ _ _ A). unfold bind at 1. rewrite L, D.
      destruct (Nat.leb_spec (length l) 1) as [L1|L1].
      + cbn. exists w. split; [eapply A_Sort_no; [eassumption|lia]|]. split; [assumption|apply Stab_refl].
      + eapply (mutate_good s N w i _ oom l n 0 _ qs (LockInternalData V oom i 0)); try reflexivity; auto.
        * apply (LockInternalData_spec V s N i a); assumption.
        * intros _ ->. cbn in L1. lia.
        * right. rewrite (Permutation_length (qs_perm l)). lia.
        * eapply A_Sort; [eassumption|lia].
        * intros ->. eapply A_Sort_oom; [eassumption|lia].
        * intros k' _ [s' X]. exfalso. exact (Lock0_no_exn s N i a oom l n s' I A Va X).
  Qed.

  (** ** Reachable states *)
  Definition w0 : world := fun _ => None.
  (** Lists and lock counts as read from a state. *)
  Definition locks (s : st) (i : nat) : nat :=
    match ar s i with
    | None => 0
    | Some a => if a =? 0 then 0 else match hp s a with Some b => Z.to_nat (- iref V b) | None => 0 end
    end.
  Definition world_of (s : st) : world :=
    fun i => match contents s i with Some l => Some (l, locks s i) | None => None end.
  Inductive Reach : st -> Prop :=
  | R_init : Reach (st_init V)
  | R_step s o s' r : Reach s -> pre (world_of s) o -> run1 s o = Some (s', r) -> Reach s'.

  Lemma Rep_world : forall s N w, Rep s N w -> weq (world_of s) w.
  Proof.
    intros s N w [I R] i. rewrite R. unfold world_of, contents, locks. destruct (ar s i) as [a|] eqn:A; [|reflexivity].
    unfold CowProofs.val, GetLockedCount. destruct (Nat.eqb_spec a 0) as [->|NZ]; [reflexivity|].
    destruct (hp s a) as [b|]; [|reflexivity]. destruct (Z.leb_spec 0 (iref V b)); [|reflexivity].
    replace (Z.to_nat (- iref V b)) with 0 by lia. reflexivity.
  Qed.
  Lemma Rep_init : Rep (st_init V) 0 w0.
  Proof.
    split; [|intros i; reflexivity]. split; cbn; try reflexivity; auto.
  Qed.
  Lemma Reach_Rep : forall s, Reach s -> exists N, Rep s N (world_of s).
  Proof.
    intros s H. induction H as [|s o s' r H [N IH] P E].
    - exists 0. eapply Rep_weq; [apply Rep_init|]. intros i. symmetry. apply (Rep_world _ _ _ Rep_init).
    - destruct (op_good _ _ _ _ IH P) as (s1 & r1 & w1 & N1 & E1 & _ & R1 & _). rewrite E in E1. injection E1 as <- <-.
      exists N1. eapply Rep_weq; [exact R1|]. intros i. symmetry. apply (Rep_world _ _ _ R1).
  Qed.

  (** * C01 *)
  Lemma run_ok : forall ops s N w, Rep s N w -> safe w ops ->
    exists s' rs w' N', run s ops = Some (s', rs) /\ aspecs w ops rs w' /\ Rep s' N' w'.
  Proof.
    induction ops as [|o ops IH]; intros s N w R S.
    - exists s, [], w, N. split; [reflexivity|]. split; [constructor; intros i; reflexivity|assumption].
    - destruct S as [P S]. destruct (op_good _ _ _ _ R P) as (s1 & r & w1 & N1 & E & A & R1 & _).
      destruct (IH s1 N1 w1 R1 (S r w1 w1 A ltac:(intros i; reflexivity))) as (s2 & rs & w2 & N2 & E2 & A2 & R2).
      exists s2, (r :: rs), w2, N2. split; [cbn; rewrite E, E2; reflexivity|]. split; [|assumption].
      econstructor; [exact A|intros i; reflexivity|exact A2].
  Qed.

  Lemma values : forall ops, safe w0 ops ->
    exists s rs w, run (st_init V) ops = Some (s, rs) /\ aspecs w0 ops rs w /\
      forall i, contents s i = match w i with Some (l, _) => Some l | None => None end.
  Proof.
    intros ops S. destruct (run_ok ops _ _ _ Rep_init S) as (s & rs & w & N & E & A & R). exists s, rs, w.
    split; [assumption|]. split; [assumption|]. intros i. rewrite <- (Rep_world _ _ _ R i). unfold world_of.
    destruct (contents s i); reflexivity.
  Qed.

  (** Trivially copyable elements: no restriction beyond [pre]'s first sentence.  Every program
      runs without undefined behaviour, reports what the lists report, and every array reads
      back its list. *)
  Theorem C01_values : trivial = true -> forall ops, safe w0 ops ->
    exists s rs w, run (st_init V) ops = Some (s, rs) /\ aspecs w0 ops rs w /\
      forall i, contents s i = match w i with Some (l, _) => Some l | None => None end.
  Proof. intros _. exact values. Qed.

  (** Full statement: the same for every element type.  Missing: Insert more than two places
      before the end and Remove of a range followed by more elements than it has; for
      these the elements come out wrong (C06_Insert_refuted, C06_Remove_refuted). *)
  Theorem C01_values_nontrivial_partial : trivial = false -> forall ops, safe w0 ops ->
    exists s rs w, run (st_init V) ops = Some (s, rs) /\ aspecs w0 ops rs w /\
      forall i, contents s i = match w i with Some (l, _) => Some l | None => None end.
  Proof. intros _. exact values. Qed.

  (** One operation from any reachable state. *)
  Theorem C01_step : forall s o, Reach s -> pre (world_of s) o ->
    exists s' r w', run1 s o = Some (s', r) /\ aspec (world_of s) o r w' /\ weq w' (world_of s').
  Proof.
    intros s o H P. destruct (Reach_Rep s H) as [N R]. destruct (op_good _ _ _ _ R P) as (s1 & r1 & w1 & N1 & E1 & A1 & R1 & _).
    exists s1, r1, w1. split; [assumption|]. split; [assumption|]. intros i. symmetry. apply (Rep_world _ _ _ R1).
  Qed.

  (** An operation changes only the arrays it is called on. *)
  Definition touches (o : op) (i : nat) : Prop :=
    match o with
    | ONewMove _ a b | OAssignMove _ a b => i = a \/ i = b
    | ONew _ a | ONewList _ _ a _ | ONewCopy _ _ a _ | ODelete _ a | OAssign _ _ a _ | OSetArray _ _ a _ | OClear _ a
    | OReserve _ _ a _ | OResize _ _ a _ | OLock _ _ a _ | OUnlock _ a | OWrite _ a _ _ | OSetItem _ _ a _ _ | OAdd _ _ a _
    | OAddMany _ _ a _ | OInsert _ _ a _ _ | ORemove _ _ a _ _ | OSort _ _ a => i = a
    end.
  Lemma aspec_frame : forall w o r w' i, aspec w o r w' -> ~ touches o i -> w' i = w i.
  Proof.
    intros w o r w' i A T. destruct A; cbn [touches] in T; unfold wput;
      repeat match goal with |- context [i =? ?x] => destruct (Nat.eqb_spec i x); [exfalso; tauto|] end; reflexivity.
  Qed.
  Theorem C01_independent : forall s o s' r i, Reach s -> pre (world_of s) o -> run1 s o = Some (s', r) -> ~ touches o i ->
    contents s' i = contents s i.
  Proof.
    intros s o s' r i H P E T. destruct (C01_step s o H P) as (s1 & r1 & w1 & E1 & A1 & W). rewrite E in E1. injection E1 as <- <-.
    pose proof (aspec_frame _ _ _ _ _ A1 T) as F. rewrite (W i) in F. unfold world_of in F.
    destruct (contents s' i); destruct (contents s i); congruence.
  Qed.

  (** The specification leaves no choice when no allocation fails and no array is locked,
      apart from what a moved-from array keeps and whether locking an empty array locks it. *)
  Definition oom_of (o : op) : bool :=
    match o with
    | ONewList _ b _ _ | ONewCopy _ b _ _ | OAssign _ b _ _ | OSetArray _ b _ _ | OReserve _ b _ _ | OResize _ b _ _ | OLock _ b _ _
    | OSetItem _ b _ _ _ | OAdd _ b _ _ | OAddMany _ b _ _ | OInsert _ b _ _ _ | ORemove _ b _ _ _ | OSort _ b _ => b
    | ONew _ _ | ONewMove _ _ _ | ODelete _ _ | OAssignMove _ _ _ | OClear _ _ | OUnlock _ _ | OWrite _ _ _ _ => false
    end.
  Theorem C01_spec_functional : forall w o r1 w1 r2 w2, pre w o -> (forall i l k, w i = Some (l, k) -> k = 0) -> oom_of o = false ->
    (forall i j, o <> OAssignMove V i j) -> (forall b i, o <> OLock V b i 0) ->
    aspec w o r1 w1 -> aspec w o r2 w2 -> r1 = r2 /\ weq w1 w2.
  Proof.
    intros w o r1 w1 r2 w2 P L O NM NL A1 A2.
    destruct A1; cbn [oom_of] in O; try discriminate; inversion A2; subst; try discriminate; try congruence;
      repeat match goal with
      | H : ?u ?i = Some (?l, S ?k) |- _ => specialize (L i l (S k) H); discriminate L
      | H : ?u ?i = Some (?l, ?k), H' : ?u ?i = Some (?l', ?k') |- _ =>
          assert (l' = l /\ k' = k) as [-> ->] by (split; congruence); clear H'
      end; try lia; try (split; [reflexivity|intros x; reflexivity]).
    all: try (exfalso; eapply NM; reflexivity).
    all: try (exfalso; eapply NL; reflexivity).
    all: assert (l0 = l) as -> by congruence; split; [reflexivity|intros x; reflexivity].
  Qed.

  (** * C02 *)
  (** A heap block exists exactly while an array refers to it; its counter is the number of
      arrays that do, or minus the number of locks and then there is one. *)
  Definition holders_are (s : st) (a : nat) (hs : list nat) : Prop :=
    NoDup hs /\ forall i, In i hs <-> ar s i = Some a.
  Fixpoint holders (f : nat -> option nat) (a n : nat) : list nat :=
    match n with
    | O => []
    | S n' => match f n' with Some b => if b =? a then n' :: holders f a n' else holders f a n' | None => holders f a n' end
    end.
  Lemma holders_in : forall f a n i, In i (holders f a n) <-> i < n /\ f i = Some a.
  Proof.
    intros f a n i. induction n as [|n IH]; cbn [holders]; [cbn; lia|].
    destruct (f n) as [b|] eqn:E; [destruct (Nat.eqb_spec b a) as [->|NE]|]; cbn [In]; rewrite IH; split.
    - intros [<-|[? ?]]; auto with arith.
    - intros [? ?]. destruct (Nat.eq_dec n i); [auto|right; split; [lia|assumption]].
    - intros [? ?]; auto with arith.
    - intros [? ?]. split; [|assumption]. destruct (Nat.eq_dec n i) as [->|]; [congruence|lia].
    - intros [? ?]; auto with arith.
    - intros [? ?]. split; [|assumption]. destruct (Nat.eq_dec n i) as [->|]; [congruence|lia].
  Qed.
  Lemma holders_nodup : forall f a n, NoDup (holders f a n).
  Proof.
    intros f a n. induction n as [|n IH]; cbn [holders]; [constructor|].
    destruct (f n) as [b|]; [destruct (b =? a)|]; auto. constructor; [rewrite holders_in; lia|assumption].
  Qed.
  Lemma holders_cnt : forall f a n, length (holders f a n) = cnt f a n.
  Proof.
    intros f a n. induction n as [|n IH]; cbn [holders cnt]; [reflexivity|].
    destruct (f n) as [b|]; [destruct (b =? a)|]; cbn [length]; lia.
  Qed.

  Theorem C02_counts : forall s, Reach s -> forall a b, a <> 0 -> hp s a = Some b ->
    exists hs, holders_are s a hs /\ hs <> [] /\
      ((0 < iref V b)%Z /\ iref V b = Z.of_nat (length hs) \/ (iref V b < 0)%Z /\ length hs = 1).
  Proof.
    intros s H a b NZ Hb. destruct (Reach_Rep s H) as [N [I R]]. pose proof (inv_b _ _ _ _ I a NZ) as B. rewrite Hb in B.
    destruct B as [_ B]. unfold total in B. cbn in B. rewrite Nat.add_0_r in B.
    exists (holders (ar s) a N). pose proof (holders_cnt (ar s) a N) as C. split; [|split].
    - split; [apply holders_nodup|]. intros i. rewrite holders_in. split; [intros [_ X]; exact X|].
      intros X. split; [|assumption]. apply (inv_lt _ s N i a (inv_h _ _ _ _ I) X).
    - intros X. rewrite X in C. cbn in C. lia.
    - rewrite C. assumption.
  Qed.
  Theorem C02_live_iff_held : forall s, Reach s -> forall a, a <> 0 -> (hp s a <> None <-> exists i, ar s i = Some a).
  Proof.
    intros s H a NZ. split.
    - intros X. destruct (hp s a) as [b|] eqn:Hb; [|contradiction].
      destruct (C02_counts s H a b NZ Hb) as (hs & [_ HI] & NE & _). destruct hs as [|i hs]; [contradiction|]. exists i. apply HI. left. reflexivity.
    - intros [i Hi]. destruct (Reach_Rep s H) as [N [I R]].
      destruct (live _ _ _ _ _ I NZ (handle_total _ _ _ _ _ _ I Hi)) as (b & Hb & _). congruence.
  Qed.
  (** No operation touches freed memory, frees twice or writes to the static block ([UB]). *)
  Theorem C02_no_ub : forall s o, Reach s -> pre (world_of s) o -> run_op o s <> UB.
  Proof.
    intros s o H P E. destruct (C01_step s o H P) as (s1 & r1 & w1 & E1 & _). unfold CowModel.run1 in E1. rewrite E in E1. discriminate.
  Qed.
  (** All arrays destroyed: nothing is left. *)
  Theorem C02_no_leak : forall s, Reach s -> (forall i, ar s i = None) -> forall a, a <> 0 -> hp s a = None.
  Proof.
    intros s H A a NZ. destruct (hp s a) as [b|] eqn:Hb; [|reflexivity].
    destruct (proj1 (C02_live_iff_held s H a NZ)) as [i Hi]; congruence.
  Qed.

  (** * C05 *)
  Lemma contents_load : forall s i l, contents s i = Some l -> exists a b, addr V i s = Ret s a /\ load V a s = Ret s b /\ data V b = l.
  Proof.
    intros s i l H. unfold contents in H. unfold addr, load. destruct (ar s i) as [a|]; [|discriminate]. exists a.
    destruct (a =? 0) eqn:E; rewrite ?E; [injection H as <-; exists (empty_blk V); auto|].
    destruct (hp s a) as [b|] eqn:Hb; rewrite ?Hb; [|discriminate]. injection H as <-. exists b. auto.
  Qed.
  (** From every state, reachable or not. *)
  Theorem C05_SetItem_bounds : forall s oom i k v l, contents s i = Some l -> length l <= k ->
    run_op (OSetItem V oom i k v) s = Ret s E_BOUNDS.
  Proof.
    intros s oom i k v l H L. destruct (contents_load s i l H) as (a & b & A & B & D). cbn. unfold SetItem, bind.
    rewrite A, B, D. destruct (Nat.leb_spec (length l) k); [reflexivity|lia].
  Qed.
  Theorem C05_Insert_bounds : forall s oom i k v l, contents s i = Some l -> length l < k ->
    run_op (OInsert V oom i k v) s = Ret s E_BOUNDS.
  Proof.
    intros s oom i k v l H L. destruct (contents_load s i l H) as (a & b & A & B & D). cbn. unfold Insert, bind.
    rewrite A, B, D. destruct (Nat.ltb_spec (length l) k); [reflexivity|lia].
  Qed.
  Theorem C05_GetItemPtr : forall s i k l, contents s i = Some l ->
    exists p, GetItemPtr V i k s = Ret s p /\ (p = None <-> length l <= k) /\ forall v, p = Some v -> nth_error l k = Some v.
  Proof.
    intros s i k l H. destruct (contents_load s i l H) as (a & b & A & B & D). unfold GetItemPtr, bind. rewrite A, B, D.
    destruct (Nat.leb_spec (length l) k) as [L|L].
    - exists None. split; [reflexivity|]. split; [tauto|discriminate].
    - exists (nth_error l k). split; [reflexivity|]. split; [|auto]. rewrite nth_error_None. tauto.
  Qed.
  Theorem C05_Index : forall s i k l, contents s i = Some l ->
    (length l <= k -> Index V i k s = Exn s) /\ (k < length l -> Index V i k s = Ret s (nth k l dflt)).
  Proof.
    intros s i k l H. destruct (contents_load s i l H) as (a & b & A & B & D). unfold Index, bind. rewrite A, B, D.
    destruct (Nat.leb_spec (length l) k) as [L|L]; split; intros X; try lia; [reflexivity|].
    rewrite (nth_error_nth' l dflt L). reflexivity.
  Qed.
  (** Remove takes away the part of the range that is in the array, and nothing when the range
      begins behind it. *)
  Theorem C05_Remove_clamps : forall s oom i k c s' r l, Reach s -> pre (world_of s) (ORemove V oom i k c) ->
    contents s i = Some l -> run1 s (ORemove V oom i k c) = Some (s', r) -> r = Some S_OK ->
    contents s' i = Some (firstn k l ++ skipn (k + c) l).
  Proof.
    intros s oom i k c s' r l H P C E ->. destruct (C01_step _ _ H P) as (s1 & r1 & w1 & E1 & A1 & W). rewrite E in E1. injection E1 as <- <-.
    inversion A1; subst. specialize (W i). unfold wput in W. rewrite Nat.eqb_refl in W. unfold world_of in W.
    match goal with X : world_of s i = Some (l0, n) |- _ => unfold world_of in X; rewrite C in X; injection X as <- <- end.
    destruct (contents s' i); [|discriminate]. injection W as <- _. reflexivity.
  Qed.
  Theorem C05_Remove_out_of_range : forall s oom i k c l, contents s i = Some l -> length l <= k ->
    run_op (ORemove V oom i k c) s = Ret s S_OK.
  Proof.
    intros s oom i k c l H L. destruct (contents_load s i l H) as (a & b & A & B & D). cbn. unfold Remove, bind.
    destruct (c =? 0); [reflexivity|]. rewrite A, B, D. destruct (Nat.leb_spec (length l) k); [reflexivity|lia].
  Qed.

  (** * C07 *)
  (** Number of locks on [i] after [o] reported [r]. *)
  Definition count (i : nat) (k : nat) (o : op) (r : option code) : nat :=
    match o, r with
    | OLock _ _ j _, Some S_OK => if j =? i then S k else k
    | OUnlock _ j, Some S_OK => if j =? i then k - 1 else k
    | _, _ => k
    end.
  Fixpoint held (i k : nat) (ops : list op) (rs : list (option code)) : Prop :=
    match ops, rs with
    | o :: ops', r :: rs' => 0 < k /\ o <> ODelete V i /\ held i (count i k o r) ops' rs'
    | _, _ => True
    end.
  Fixpoint counts (i k : nat) (ops : list op) (rs : list (option code)) : nat :=
    match ops, rs with
    | o :: ops', r :: rs' => counts i (count i k o r) ops' rs'
    | _, _ => k
    end.
  (** Operations allowed from a state on. *)
  Fixpoint allowed (s : st) (ops : list op) : Prop :=
    match ops with
    | [] => True
    | o :: ops' => pre (world_of s) o /\ forall s' r, run1 s o = Some (s', r) -> allowed s' ops'
    end.

  Lemma aspec_count : forall w o r w' i l k, pre w o -> aspec w o r w' -> w i = Some (l, S k) -> o <> ODelete V i ->
    exists l', w' i = Some (l', count i (S k) o r).
  Proof.
    intros w o r w' i l k P A Hi ND.
    destruct A; cbn [count]; unfold wput; cbn [pre] in P; try (exists l; assumption);
      repeat match goal with |- context [?x =? ?y] => destruct (Nat.eqb_spec x y) end; subst; try congruence;
      repeat match goal with
      | H : ?u ?i = Some (?l, ?k), H' : ?u ?i = Some (?l', ?k') |- _ =>
          let Q := fresh in let Q' := fresh in assert (l' = l /\ k' = k) as [Q Q'] by (split; congruence); first [discriminate Q'|subst l'; subst k'|subst l'; injection Q' as ->]; clear H'
      | H : _ /\ _ |- _ => destruct H
      | H : exists _, _ |- _ => destruct H
      | H : _ \/ _ |- _ => destruct H; [|]
      end; try congruence; try (eexists; eassumption); try (eexists; reflexivity).
    all: try (replace (S k - 1) with k by lia; eexists; reflexivity).
    all: try (exfalso; congruence).
    exists l0. do 2 f_equal. lia.
  Qed.

  Theorem C07_stays : forall ops s i k s' rs, Reach s -> locks s i = k -> 0 < k -> allowed s ops -> run s ops = Some (s', rs) ->
    held i k ops rs -> ar s' i = ar s i /\ locks s' i = counts i k ops rs.
  Proof.
    induction ops as [|o ops IH]; intros s i k s' rs H K K0 AL E HL.
    - cbn in E. injection E as <- <-. auto.
    - cbn [CowModel.run] in E. destruct (run1 s o) as [[s1 r]|] eqn:E1; [|discriminate].
      destruct (run s1 ops) as [[s2 rs2]|] eqn:E2; [|discriminate]. injection E as <- <-.
      destruct AL as [P AL]. destruct HL as (_ & ND & HL). cbn [counts].
      destruct (Reach_Rep s H) as [N R]. destruct (op_good _ _ _ _ R P) as (s1' & r1 & w1 & N1 & E1' & A1 & R1 & ST). rewrite E1 in E1'. injection E1' as <- <-.
      assert (Hi : exists l, world_of s i = Some (l, k)).
      { unfold world_of. rewrite K. unfold locks in K. destruct (contents s i) as [l|] eqn:C; [eauto|]. exfalso. unfold contents in C.
        destruct (ar s i) as [a|]; [|lia]. destruct (a =? 0); [discriminate|]. destruct (hp s a); [discriminate|lia]. }
      destruct Hi as [l Hi]. destruct k as [|k]; [lia|].
      destruct (aspec_count _ _ _ _ i l k P A1 Hi ND) as [l' Hi'].
      assert (K1 : locks s1 i = count i (S k) o r).
      { pose proof (Rep_world _ _ _ R1 i) as W. rewrite Hi' in W. unfold world_of in W. destruct (contents s1 i); congruence. }
      pose proof (ST i l k Hi ND) as SA. assert (RS : Reach s1) by (eapply R_step; eassumption).
      destruct (Nat.eq_dec (count i (S k) o r) 0) as [Z0|NZ].
      + destruct ops as [|o2 ops]; [|cbn [CowModel.run] in E2].
        * cbn in E2. injection E2 as <- <-. cbn [counts]. auto.
        * destruct (run1 s1 o2) as [[s3 r3]|]; [|discriminate]. destruct (run s3 ops) as [[s4 r4]|]; [|discriminate]. injection E2 as <- <-.
          destruct HL as [X _]. lia.
      + destruct (IH s1 i _ s2 rs2 RS K1 ltac:(lia) (AL s1 r E1) E2 HL) as [IA IK]. split; [congruence|assumption].
  Qed.

  (** The buffer of a locked array belongs to it alone. *)
  Theorem C07_not_shared : forall s i j a, Reach s -> 0 < locks s i -> ar s i = Some a -> ar s j = Some a -> i = j.
  Proof.
    intros s i j a H K Hi Hj. unfold locks in K. rewrite Hi in K. destruct (Nat.eqb_spec a 0) as [->|NZ]; [lia|].
    destruct (hp s a) as [b|] eqn:Hb; [|lia]. destruct (C02_counts s H a b NZ Hb) as (hs & [ND HI] & _ & [C|[_ C]]); [lia|].
    destruct hs as [|x [|y hs]]; try discriminate C. apply HI in Hi. apply HI in Hj. destruct Hi as [<-|[]]. destruct Hj as [<-|[]]. reflexivity.
  Qed.
  (** Unlocking an array that is not locked throws and changes nothing. *)
  Theorem C07_unlock_unlocked : forall s i, Reach s -> contents s i <> None -> locks s i = 0 -> run_op (OUnlock V i) s = Exn s.
  Proof.
    intros s i H C K. destruct (contents s i) as [l|] eqn:CE; [|contradiction]. destruct (contents_load s i l CE) as (a & b & A & B & D).
    cbn. unfold UnlockBuffer, bind. rewrite A, B. assert (NL : IsLocked V b = false); [|rewrite NL; reflexivity].
    unfold addr in A. destruct (ar s i) as [a'|] eqn:E; [injection A as ->|discriminate].
    unfold load in B. unfold locks in K. rewrite E in K. destruct (a =? 0); [injection B as <-; reflexivity|].
    destruct (hp s a) as [b'|]; [injection B as ->|discriminate]. unfold IsLocked. apply Z.ltb_ge. lia.
  Qed.
  (** Every lock but that of an empty array is undone by one unlock. *)
  Theorem C07_lock_unlock : forall s oom i n l s1 s2 r2, Reach s -> contents s i = Some l ->
    run1 s (OLock V oom i n) = Some (s1, Some S_OK) -> (0 < n \/ 0 < locks s i) -> run1 s1 (OUnlock V i) = Some (s2, r2) ->
    r2 = Some S_OK /\ locks s2 i = locks s i /\ contents s2 i = Some (firstn n l ++ repeat dflt (n - length l)) /\ ar s2 i = ar s1 i.
  Proof.
    intros s oom i n l s1 s2 r2 H C E1 G E2.
    assert (P : pre (world_of s) (OLock V oom i n)) by (cbn; unfold world_of; rewrite C; eauto).
    destruct (C01_step _ _ H P) as (s1' & r1 & w1 & E1' & A1 & W1). rewrite E1 in E1'. injection E1' as <- <-.
    assert (H1 : Reach s1) by (eapply R_step; eassumption).
    assert (W : exists l1, l1 = firstn n l ++ repeat dflt (n - length l) /\ world_of s1 i = Some (l1, S (locks s i))).
    { inversion A1; subst.
      - match goal with X : world_of s i = Some (?a, ?b) |- _ => unfold world_of in X; rewrite C in X; injection X as <- <- end.
        specialize (W1 i). unfold wput in W1. rewrite Nat.eqb_refl in W1. eexists; split; [|symmetry; exact W1].
        unfold grown. rewrite firstn_all2 by assumption. reflexivity.
      - match goal with X : world_of s i = Some (?a, 0) |- _ => unfold world_of in X; rewrite C in X; injection X as <- K end.
        specialize (W1 i). unfold wput in W1. rewrite Nat.eqb_refl in W1. rewrite K. eexists; split; [|symmetry; exact W1].
        replace (n - length l) with 0 by lia. rewrite app_nil_r. reflexivity.
      - match goal with X : world_of s i = Some ([], 0) |- _ => unfold world_of in X; rewrite C in X; injection X as _ K end. lia. }
    destruct W as (l1 & -> & W).
    assert (P2 : pre (world_of s1) (OUnlock V i)) by (cbn; eauto).
    destruct (Reach_Rep s1 H1) as [N R]. destruct (op_good _ _ _ _ R P2) as (s2' & r2' & w2 & N2 & E2' & A2 & R2 & ST).
    rewrite E2 in E2'. injection E2' as <- <-. inversion A2; subst; [|congruence].
    match goal with X : world_of s1 i = Some (_, S _) |- _ => rewrite W in X; injection X as <- <- end.
    pose proof (Rep_world _ _ _ R2 i) as W2. unfold wput in W2. rewrite Nat.eqb_refl in W2.
    split; [reflexivity|]. unfold world_of in W2. destruct (contents s2 i); [|discriminate]. injection W2 as -> K2. rewrite K2.
    split; [reflexivity|]. split; [reflexivity|]. eapply ST; [exact W|discriminate].
  Qed.

  (** * C08 *)
  (** Full statement: an assignment to a locked array is refused and changes neither the
      contents nor the references.  Missing: the reference count of the source
      (C08_leak_refuted), assignment from a source that is locked itself (C08_not_refused_refuted)
      and move assignment (C08_move_refuted). *)
  Theorem C08_copy_contents_partial : forall s oom i j, Reach s -> 0 < locks s i -> contents s j <> None -> locks s j = 0 ->
    exists s', run_op (OAssign V oom i j) s = Exn s' /\ (forall x, contents s' x = contents s x /\ ar s' x = ar s x /\ locks s' x = locks s x).
  Proof.
    intros s oom i j H K C K0. destruct (Reach_Rep s H) as [N [I R]].
    destruct (contents s j) as [l|] eqn:CE; [|contradiction]. unfold locks in K. unfold locks in K0. unfold contents in CE.
    destruct (ar s i) as [a|] eqn:A; [|lia]. destruct (ar s j) as [c|] eqn:A'; [|discriminate].
    destruct (Nat.eqb_spec a 0) as [->|NZ]; [lia|]. destruct (hp s a) as [b|] eqn:Hb; [|lia].
    assert (LB : IsLocked V b = true) by (unfold IsLocked; apply Z.ltb_lt; lia).
    cbn. unfold bind at 1. unfold SetArrayCopy. unfold bind at 1. rewrite (addr_ok _ _ _ _ A). unfold bind at 1. rewrite (addr_ok _ _ _ _ A').
    destruct (Nat.eqb_spec a c) as [<-|NAC].
    { destruct (Nat.eqb_spec a 0); [contradiction|]. rewrite Hb in K0. lia. }
    destruct (Nat.eqb_spec c 0) as [->|NZc].
    - (* the static block *)
      exists s. split; [|auto]. unfold bind at 1. unfold load at 1. cbn [Nat.eqb]. cbn [IsLocked].
      replace (IsLocked V (empty_blk V)) with false by reflexivity.
      unfold Attach, AddRef, IsReadOnly, bind, ret, load, throw. cbn [Nat.eqb]. rewrite (addr_ok _ _ _ _ A).
      destruct (Nat.eqb_spec a 0); [contradiction|]. rewrite Hb, LB. reflexivity.
    - destruct (hp s c) as [d|] eqn:Hc; [|discriminate]. injection CE as <-.
      assert (LD : IsLocked V d = false) by (unfold IsLocked; apply Z.ltb_ge; lia).
      pose proof (inv_b _ _ _ _ I c NZc) as B. rewrite Hc in B. destruct B as [_ B].
      assert (D1 : (iref V d <? 1)%Z = false) by (apply Z.ltb_ge; lia).
      assert (E : forall (T : Type) (X : blk V -> M V T), load V c s = Ret s d -> bind V (load V c) X s = X d s) by (intros T X EX; unfold bind; rewrite EX; reflexivity).
      rewrite E by (unfold load; destruct (Nat.eqb_spec c 0); [contradiction|]; rewrite Hc; reflexivity). rewrite LD.
      unfold AddRef, IsReadOnly. destruct (Nat.eqb_spec c 0); [contradiction|]. unfold bind at 1. rewrite E by (unfold load; destruct (Nat.eqb_spec c 0); [contradiction|]; rewrite Hc; reflexivity).
      rewrite D1. unfold store. destruct (Nat.eqb_spec c 0); [contradiction|]. rewrite Hc.
      unfold Attach. unfold bind at 1. unfold bind at 1. unfold addr at 1. cbn [CowModel.ar]. rewrite A.
      destruct (Nat.eqb_spec a c); [contradiction|]. unfold bind at 1. unfold bind at 1. unfold load at 1. cbn [CowModel.hp].
      destruct (Nat.eqb_spec a 0); [contradiction|]. unfold upd at 1. destruct (Nat.eqb_spec a c); [contradiction|]. rewrite Hb, LB. unfold throw.
      eexists; split; [reflexivity|]. intros x. split; [|split; [reflexivity|]].
      + unfold contents. cbn. destruct (ar s x) as [ax|]; [|reflexivity]. unfold upd. destruct (ax =? 0); [reflexivity|].
        destruct (Nat.eqb_spec ax c) as [->|]; [rewrite Hc|]; reflexivity.
      + unfold locks. cbn. destruct (ar s x) as [ax|]; [|reflexivity]. unfold upd. destruct (ax =? 0); [reflexivity|].
        destruct (Nat.eqb_spec ax c) as [->|]; [rewrite Hc; cbn; lia|reflexivity].
  Qed.
End Thms.

(** * Pointers and searching (C05) *)
Local Open Scope Z_scope.
Lemma sint64_small : forall x, - 2 ^ 63 <= x < 2 ^ 63 -> sint64 x = x.
Proof. intros x H. unfold sint64. rewrite Z.mod_small by lia. lia. Qed.
(** A pointer to an element position (in the array or not), user space addresses. *)
Theorem C05_GetItemIndex : forall sz n data p, 0 < sz -> 0 <= n -> 0 <= data -> data + n * sz <= 2 ^ 63 -> 0 <= p < 2 ^ 63 ->
  (sz | p - data) ->
  (exists k, 0 <= k < n /\ p = data + k * sz /\ GetItemIndex sz n data p = k) \/
  ((forall k, 0 <= k < n -> p <> data + k * sz) /\ GetItemIndex sz n data p = 2 ^ 64 - 1).
Proof.
  intros sz n data p S N D DE P [q Q]. unfold GetItemIndex.
  assert (n <= n * sz) by nia. assert (- 2 ^ 63 <= p - data < 2 ^ 63) as B by lia.
  rewrite (sint64_small (p - data) B). rewrite Q, Z.quot_mul by lia.
  assert (- 2 ^ 63 <= q < 2 ^ 63) as BQ by nia.
  destruct (Z.ltb_spec (q mod 2 ^ 64) n) as [L|L].
  - destruct (Z.lt_ge_cases q 0) as [NQ|NQ].
    + exfalso. replace (q mod 2 ^ 64) with (q + 2 ^ 64) in L; [lia|]. rewrite <- (Z_mod_plus_full q 1 (2 ^ 64)). rewrite Z.mod_small; lia.
    + rewrite Z.mod_small in L by lia. left. exists q. rewrite Z.mod_small by lia. repeat split; lia.
  - right. split; [|reflexivity]. intros k K ->. assert (q = k) as -> by nia. rewrite Z.mod_small in L by lia. lia.
Qed.
Local Close Scope Z_scope.

Theorem C05_FindItemIndex : forall (V : Type) (eqb : V -> V -> bool) l x k,
  match FindItemIndex eqb l x k with
  | Some r => exists y, k <= r < k + length l /\ nth_error l (r - k) = Some y /\ eqb y x = true /\
      forall j z, j < r - k -> nth_error l j = Some z -> eqb z x = false
  | None => forall y, In y l -> eqb y x = false
  end.
Proof.
  intros V eqb l x. induction l as [|y l IH]; intros k; cbn [FindItemIndex]; [intros y []|].
  destruct (eqb y x) eqn:E.
  - exists y. rewrite Nat.sub_diag. cbn. repeat split; auto; lia.
  - specialize (IH (S k)). destruct (FindItemIndex eqb l x (S k)) as [r|].
    + destruct IH as (z & B & Z1 & Z2 & Z3). exists z. cbn [length]. replace (r - k) with (S (r - S k)) by lia. cbn [nth_error].
      split; [lia|]. split; [assumption|]. split; [assumption|]. intros [|j] u J U; [cbn in U; congruence|]. apply (Z3 j u); [lia|exact U].
    + intros u [<-|U]; [assumption|auto].
Qed.

(** * Refuted parts *)
Section Refuted.
  Variable moved : nat -> nat.
  Variable trivial : bool.
  Variable qs : list nat -> list nat.
  Notation run := (run nat 0 moved trivial qs).
  Notation run_op := (run_op nat 0 moved trivial qs).

  (** LockBufferAndSetSize(0) on an array with the static buffer succeeds, but the matching
      UnlockBuffer throws. *)
  Theorem C07_lock_empty_refuted : exists s1 s2, run_op (ONew nat 0) (st_init nat) = Ret s1 S_OK /\
    run_op (OLock nat false 0 0) s1 = Ret s2 S_OK /\ run_op (OUnlock nat 0) s2 = Exn s2.
  Proof. do 2 eexists. split; [reflexivity|]. split; [reflexivity|]. reflexivity. Qed.

  (** The source's block keeps a reference that nobody owns: all arrays are gone, the block stays. *)
  Definition leak_prog : list (op nat) :=
    [ONewList nat false 0 [1]; OLock nat false 0 1; ONewList nat false 1 [2]; OAssign nat false 0 1;
     OUnlock nat 0; ODelete nat 0; ODelete nat 1].
  Theorem C08_leak_refuted :
    match run (st_init nat) leak_prog with
    | Some (s, rs) => rs = [Some S_OK; Some S_OK; Some S_OK; None; Some S_OK; Some S_OK; Some S_OK] /\
        ar nat s 0 = None /\ ar nat s 1 = None /\ hp nat s 2 <> None
    | None => False
    end.
  Proof. vm_compute. repeat split; discriminate. Qed.

  (** SetArray(Array&&) to a locked array throws after it has emptied the source, whose block
      nobody refers to any more. *)
  Theorem C08_move_refuted :
    match run (st_init nat) [ONewList nat false 0 [1]; OLock nat false 0 1; ONewList nat false 1 [2]] with
    | Some (s, _) =>
        match SetArrayMove nat 0 1 s with
        | Exn s' => contents nat s 1 = Some [2] /\ contents nat s' 1 = Some [] /\ hp nat s' 2 <> None /\ forall i, ar nat s' i <> Some 2
        | _ => False
        end
    | None => False
    end.
  Proof.
    vm_compute. repeat split; try discriminate. intros [|[|[|i]]]; cbn; discriminate.
  Qed.
  (** [operator=(Array&&)] is noexcept: the same case ends the program. *)
  Theorem C08_move_terminates_refuted :
    match run (st_init nat) [ONewList nat false 0 [1]; OLock nat false 0 1; ONewList nat false 1 [2]] with
    | Some (s, _) => run_op (OAssignMove nat 0 1) s = UB
    | None => False
    end.
  Proof. vm_compute. reflexivity. Qed.

  (** Assignment to a locked array is not refused when the source is locked too and fits. *)
  Theorem C08_not_refused_refuted :
    match run (st_init nat) [ONewList nat false 0 [1]; OLock nat false 0 1; ONewList nat false 1 [2]; OLock nat false 1 1] with
    | Some (s, _) => locks nat s 0 = 1 /\
        match run_op (OAssign nat false 0 1) s with
        | Ret s' S_OK => contents nat s 0 = Some [1] /\ contents nat s' 0 = Some [2]
        | _ => False
        end
    | None => False
    end.
  Proof. vm_compute. auto. Qed.

  (** Partial Remove shrinks a locked array, which Resize, Clear and SetArray refuse to do. *)
  Theorem C07_remove_while_locked_refuted :
    match run (st_init nat) [ONewList nat false 0 [1; 2]; OLock nat false 0 2] with
    | Some (s, _) => locks nat s 0 = 1 /\ match run_op (OResize nat false 0 1) s with Exn s' => contents nat s' 0 = contents nat s 0 | _ => False end /\
        match run_op (ORemove nat false 0 1 1) s with
        | Ret s' S_OK => match contents nat s' 0 with Some l => length l = 1 | None => False end
        | _ => False
        end
    | None => False
    end.
  Proof. destruct trivial; vm_compute; repeat split. Qed.
End Refuted.

(** C01 refuted for elements with their own move: whatever a moved-from element reads as, one
    Insert at the front, or one Remove of the first element, of an array of five that nobody
    shares reports S_OK and leaves other elements than the list would. *)
Theorem C01_nontrivial_refuted : forall (moved : nat -> nat) (qs : list nat -> list nat),
  match run nat 0 moved false qs (st_init nat) [ONewList nat false 0 [1; 2; 3; 4; 5]; OInsert nat false 0 0 9] with
  | Some (s, rs) => rs = [Some S_OK; Some S_OK] /\ exists l, contents nat s 0 = Some l /\ length l = 6 /\ l <> [9; 1; 2; 3; 4; 5]
  | None => False
  end /\
  match run nat 0 moved false qs (st_init nat) [ONewList nat false 0 [1; 2; 3; 4; 5]; ORemove nat false 0 0 1] with
  | Some (s, rs) => rs = [Some S_OK; Some S_OK] /\ exists l, contents nat s 0 = Some l /\ length l = 4 /\ l <> [2; 3; 4; 5]
  | None => False
  end.
Proof.
  intros moved qs. split; vm_compute; (split; [reflexivity|]); eexists; (split; [reflexivity|]); (split; [reflexivity|]); discriminate.
Qed.

(** * Concrete cases *)
Example ex_share : (* copy, write to the copy, assignment, destruction of the original *)
  match run nat 0 (fun x => x) true (fun l => l) (st_init nat)
    [ONewList nat false 0 [1; 2]; ONewCopy nat false 1 0; OAdd nat false 1 3; OSetItem nat false 0 0 9; OInsert nat false 1 1 7;
     ONew nat 2; OAssign nat false 2 1; ODelete nat 1; ORemove nat false 2 0 2] with
  | Some (s, rs) => contents nat s 0 = Some [9; 2] /\ contents nat s 1 = None /\ contents nat s 2 = Some [2; 3] /\ Forall (eq (Some S_OK)) rs
  | None => False
  end.
Proof. vm_compute. repeat constructor. Qed.
(** A program with its [safe] condition, checked for every outcome the specification allows. *)
Example ex_safe : safe nat 0 true (fun l => l) (w0 nat) [ONewList nat true 0 [1; 2]; ONew nat 1; OClear nat 1].
Proof.
  cbn. split; [reflexivity|]. intros r w1 w1' A E. assert (E1 : w1' 1 = None) by (rewrite <- E; inversion A; reflexivity).
  split; [assumption|]. intros r2 w2 w2' A2 E2. split; [|auto]. exists [], 0. rewrite <- E2. inversion A2. reflexivity.
Qed.
Example ex_locked : (* two locks, a copy made meanwhile has its own block *)
  match run nat 0 (fun x => x) true (fun l => l) (st_init nat)
    [ONewList nat false 0 [1]; OLock nat false 0 2; OLock nat false 0 2; OWrite nat 0 1 5; ONewCopy nat false 1 0; OUnlock nat 0; OUnlock nat 0; OUnlock nat 0] with
  | Some (s, rs) => contents nat s 0 = Some [1; 5] /\ contents nat s 1 = Some [1; 5] /\ ar nat s 0 = Some 1 /\ ar nat s 1 = Some 2 /\
      nth 7 rs (Some S_OK) = None
  | None => False
  end.
Proof. vm_compute. repeat constructor. Qed.
Example ex_index : GetItemIndex 24 3 1000 1048 = 2%Z /\ GetItemIndex 24 3 1000 1072 = (2 ^ 64 - 1)%Z /\ GetItemIndex 24 3 1000 976 = (2 ^ 64 - 1)%Z.
Proof. vm_compute. auto. Qed.

Print Assumptions C01_values.
Print Assumptions C01_values_nontrivial_partial.
Print Assumptions C01_nontrivial_refuted.
Print Assumptions C01_step.
Print Assumptions C01_independent.
Print Assumptions C01_spec_functional.
Print Assumptions C02_counts.
Print Assumptions C02_live_iff_held.
Print Assumptions C02_no_ub.
Print Assumptions C02_no_leak.
Print Assumptions C05_SetItem_bounds.
Print Assumptions C05_Insert_bounds.
Print Assumptions C05_GetItemPtr.
Print Assumptions C05_Index.
Print Assumptions C05_Remove_clamps.
Print Assumptions C05_Remove_out_of_range.
Print Assumptions C05_GetItemIndex.
Print Assumptions C05_FindItemIndex.
Print Assumptions C07_stays.
Print Assumptions C07_not_shared.
Print Assumptions C07_unlock_unlocked.
Print Assumptions C07_lock_unlock.
Print Assumptions C07_lock_empty_refuted.
Print Assumptions C07_remove_while_locked_refuted.
Print Assumptions C08_copy_contents_partial.
Print Assumptions C08_leak_refuted.
Print Assumptions C08_move_refuted.
Print Assumptions C08_move_terminates_refuted.
Print Assumptions C08_not_refused_refuted.
