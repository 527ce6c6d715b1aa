(** Properties C54-C57 and C74: the timing wheel never fires a near timer early, loses
    nothing, is on time when no fetch is left out, and does not oversleep. *)
From Coq Require Import ZArith Lia Bool List Permutation ZifyBool.
From Verif Require Import Word BitMapModel BitMapThms TimerModel TimerProofs TimerInv.
Import ListNotations.
Local Open Scope Z_scope.
Ltac Zify.zify_post_hook ::= Z.to_euclidean_division_equations.

(** ** Specification *)
(** The timers handed to the manager by a history. *)
Fixpoint sets (ops : list op) : list timer :=
  match ops with
  | [] => []
  | OSet t :: r => t :: sets r
  | _ :: r => sets r
  end.
(** The timers in the buckets of the three wheels and in the list of far timers. *)
Definition bucket_numbers (n : nat) : list Z := map Z.of_nat (seq 0 n).
Definition pending (s : tm) : list timer :=
  flat_map (bk (w1 s)) (bucket_numbers 128) ++ flat_map (bk (w2 s)) (bucket_numbers 64)
  ++ flat_map (bk (w3 s)) (bucket_numbers 64) ++ oth s.
(** The last 8 ms boundary, and the next one. *)
Definition floor8 (m : Z) : Z := m / 8 * 8.
Definition ceil8 (m : Z) : Z := (m + 7) / 8 * 8.
(** [P] holds for every operation of a history, in the state in which it is made. *)
Fixpoint along (tpm : Z) (P : tm -> op -> Prop) (s : tm) (ops : list op) : Prop :=
  match ops with
  | [] => True
  | o :: r => P s o /\ match step tpm s o with Some (s', _) => along tpm P s' r | None => True end
  end.
(** Expiry times are [uint64_t] tick counts. *)
Definition is_tick (t : timer) : Prop := 0 <= texp t < W64.

(** ** Single operations *)
Section Ops.
Variable tpm : Z.
Hypothesis tpm0 : 0 < tpm.
Variable far : timer -> Prop.
Variable st : Prop.
Hypothesis stdec : st \/ ~ st.

Definition clock (s : tm) : Prop := 0 <= last s /\ base s = floor8 (ms tpm (last s)).
Definition SI (s : tm) : Prop := clock s /\ WI tpm far st (base s) s.

Lemma ms_pos : forall t, 0 <= t -> 0 <= ms tpm t.
Proof. intros t H. unfold ms. apply Z.div_pos; lia. Qed.
Lemma ms_mono : forall a b, a <= b -> ms tpm a <= ms tpm b.
Proof. intros a b H. unfold ms. apply Z.div_le_mono; lia. Qed.

Lemma init_ok : forall now, 0 <= now -> SI (tm_init tpm now).
Proof.
  intros now H. split.
  - split; [exact H|]. cbn [tm_init base last]. change kTick with 8. unfold floor8.
    assert (P := ms_pos now H). lia.
  - split; [split; [apply wok_init|split; apply wok_init]|]. cbn [tm_init w1 w2 w3 oth].
    split; [|split; [|split]]; intros i; try (intros t []); destruct 1.
Qed.

Lemma SetTimer_ok : forall s t, SI s -> is_tick t -> (far t \/ ems tpm t <= base s + 4194304) ->
  (st -> texp t <= last s \/ base s < ems tpm t) ->
  let r := SetTimer tpm s t in
  SI (fst r) /\ last (fst r) = last s /\ canc (fst r) = canc s
  /\ Forall (fun u => ems tpm u <= ms tpm (last s)) (snd r)
  /\ Permutation (t :: all s) (snd r ++ all (fst r)).
Proof.
  intros s t [[C1 C2] W] T F ST r. unfold r, SetTimer.
  change kTick with 8 in *; change kN1 with 128 in *; change kN2 with 64 in *; change kN3 with 64 in *.
  destruct (Z.leb_spec (texp t) (last s)) as [L|L].
  - cbn [fst snd]. split; [split; [split; assumption|exact W]|]. split; [reflexivity|]. split; [reflexivity|].
    split; [constructor; [apply ms_mono; exact L|constructor]|reflexivity].
  - assert (G : ms tpm (last s) <= ems tpm t) by (apply ms_mono; lia).
    assert (P := ms_pos (last s) C1).
    assert (U : ems tpm t < W64).
    { unfold ems, ms. destruct T as [T1 T2]. apply Z.div_lt_upper_bound; [lia|]. nia. }
    assert (B : base s <= ems tpm t /\ 0 <= base s /\ base s mod 8 = 0) by (rewrite C2; unfold floor8; lia).
    replace (base s + (ems tpm t - base s) - 1) with (ems tpm t - 1) by lia.
    assert (K : forall s', WP (G1 tpm st (base s)) (G2 tpm (base s)) (G3 tpm st (base s)) (G4 tpm far st (base s)) s'
       /\ same s s' /\ Permutation (t :: all s) (all s') ->
       SI s' /\ last s' = last s /\ canc s' = canc s /\ Forall (fun u => ems tpm u <= ms tpm (last s)) []
       /\ Permutation (t :: all s) ([] ++ all s')).
    { intros s' (W' & (S1 & S2 & S3) & P'). split; [split|].
      - split; [congruence|]. rewrite S1, S2. exact C2.
      - rewrite S2. exact W'.
      - split; [exact S1|]. split; [exact S3|]. split; [constructor|exact P']. }
    destruct (Z.leb_spec (ems tpm t - base s) (8 * 128)) as [L1|L1]; [|
      assert (UU : u64 (ems tpm t - 1) = ems tpm t - 1) by (unfold u64; apply Z.mod_small; lia);
      rewrite UU; clear UU;
      destruct (Z.leb_spec (ems tpm t - base s) (8 * 128 * 64)) as [L2|L2]; [|
      destruct (Z.leb_spec (ems tpm t - base s) (8 * 128 * 64 * 64)) as [L3|L3]]].
    + apply K. apply (put1_ok far (G1 tpm st (base s)) (G2 tpm (base s)) (G3 tpm st (base s)) (G4 tpm far st (base s)) s _ t W).
      split; [apply Z.mod_pos_bound; lia|].
      destruct (Z_lt_dec (base s) (ems tpm t)) as [D|D].
      * right. split; [lia|]. f_equal. f_equal. unfold u64. apply Z.mod_small. lia.
      * left. split; [|lia]. intros S. destruct (ST S); lia.
    + apply K. apply (put2_ok far (G1 tpm st (base s)) (G2 tpm (base s)) (G3 tpm st (base s)) (G4 tpm far st (base s)) s _ t W). rewrite div8_128. split; [|split; [lia|reflexivity]].
      clear - L1 B. lia.
    + apply K. apply (put3_ok far (G1 tpm st (base s)) (G2 tpm (base s)) (G3 tpm st (base s)) (G4 tpm far st (base s)) s _ t W). rewrite div8_128, div1024_64.
      split; [apply Z.mod_pos_bound; lia|]. right. split; [lia|]. split; [reflexivity|].
      intros _. clear - L2 B. lia.
    + apply K. split; [|split; [repeat split|]].
      * destruct W as (O & B1 & B2 & B3 & B4). split; [exact O|]. split; [exact B1|]. split; [exact B2|].
        split; [exact B3|]. intros u Hu. cbn [set_oth oth] in Hu. apply in_app_or in Hu.
        destruct Hu as [Hu|[<-|[]]]; [apply B4; exact Hu|]. split; [destruct F as [F|F]; [exact F|lia]|].
        intros _. clear - L3 B. lia.
      * unfold all. cbn [fst set_oth w1 w2 w3 oth]. rewrite !app_assoc. apply Permutation_cons_append.
Qed.

Lemma Process_ok : forall s now, SI s -> (~ st \/ noskip (ms tpm now) (base s)) ->
  exists s' l, Process tpm s now = Some (s', l)
  /\ SI s' /\ last s' = Z.max (last s) now /\ canc s' = canc s
  /\ Forall (due tpm far (ms tpm (last s')) s') l
  /\ Permutation (all s) (l ++ all s').
Proof.
  intros s now [[C1 C2] W] SK. unfold Process.
  change kTick with 8 in *; change kN1 with 128 in *; change kN2 with 64 in *; change kN3 with 64 in *.
  destruct (Z.leb_spec now (last s)) as [L|L].
  - exists s, []. split; [reflexivity|]. split; [split; [split; assumption|exact W]|].
    split; [lia|]. split; [reflexivity|]. split; [constructor|reflexivity].
  - set (cur := ms tpm now) in *. assert (CP : 0 <= cur) by (apply ms_pos; lia).
    assert (ML : ms tpm (last s) <= cur) by (apply ms_mono; lia).
    assert (P := ms_pos (last s) C1).
    change (base (set_last s now)) with (base s).
    replace (base s + (cur - base s)) with cur by lia.
    assert (K0 : base s / 8 = cur / 8 ->
       SI (set_last s now) /\ last (set_last s now) = Z.max (last s) now /\ canc (set_last s now) = canc s
       /\ Forall (due tpm far (ms tpm (last (set_last s now))) (set_last s now)) []
       /\ Permutation (all s) ([] ++ all (set_last s now))).
    { intros E. split; [split|].
      - split; [cbn [set_last last]; lia|]. cbn [set_last last base]. fold cur. unfold floor8 in *. lia.
      - exact W.
      - split; [cbn [set_last last]; lia|]. split; [reflexivity|]. split; [constructor|reflexivity]. }
    destruct (Z.eqb_spec (cur - base s) 0) as [E0|E0].
    + exists (set_last s now), []. split; [reflexivity|]. apply K0. f_equal. lia.
    + destruct (Z.eqb_spec (base s / 8) (cur / 8)) as [E1|E1].
      * exists (set_last s now), []. split; [reflexivity|]. apply K0. exact E1.
      * assert (b00 : 0 <= base s) by (rewrite C2; unfold floor8; lia).
        assert (b08 : base s mod 8 = 0) by (rewrite C2; unfold floor8; lia).
        assert (BL : base s <= cur) by (rewrite C2; unfold floor8; lia).
        assert (blk : base s / 8 < cur / 8).
        { assert (base s / 8 <= cur / 8) by (apply Z.div_le_mono; lia). lia. }
        assert (WL : WI tpm far st (base s) (set_last s now)) by exact W.
        assert (KK : exists s' l,
          (if cur - base s <? 8 * 128 then branch1 tpm (base s / 8) (cur / 8) cur (set_last s now)
           else if cur - base s <? 8 * 128 * 64 then branch2 tpm (base s / 8) (cur / 8) cur (set_last s now)
           else if cur - base s <? 8 * 128 * 64 * 64 then branch3 tpm (base s / 8) (cur / 8) cur (set_last s now)
           else branch4 tpm cur (set_last s now)) = Some (s', l)
          /\ WI tpm far st (cur - cur mod 8) s' /\ moves tpm far cur (set_last s now) [] (s', l)).
        { destruct (Z.ltb_spec (cur - base s) (8 * 128)); [|
            destruct (Z.ltb_spec (cur - base s) (8 * 128 * 64)); [|
            destruct (Z.ltb_spec (cur - base s) (8 * 128 * 64 * 64))]].
          - apply (branch1_ok tpm far st cur (base s) b00 b08 blk); [exact WL|lia].
          - apply (branch2_ok tpm far st cur (base s) b00 b08 blk); [exact WL|lia|exact SK|exact stdec].
          - apply (branch3_ok tpm far st cur (base s) b00 b08 blk); [exact WL|lia|exact SK|exact stdec].
          - apply (branch4_ok tpm far st cur (base s) b00 b08 blk); [exact WL|lia]. }
        destruct KK as (s' & l & EQ & W' & (S1 & S2 & S3) & l' & El & D & PM). cbn [fst snd app] in *. subst l'.
        rewrite EQ. exists (set_base s' (cur - cur mod 8)), l. split; [reflexivity|].
        split; [split|].
        -- split; cbn [set_base last base]; rewrite S1; cbn [set_last last]; [lia|].
           fold cur. unfold floor8. lia.
        -- exact W'.
        -- cbn [set_base last canc]. rewrite S1. cbn [set_last last]. split; [lia|].
           split; [rewrite S3; reflexivity|]. split; [|exact PM].
           eapply Forall_impl; [|exact D]. intros t. fold cur. unfold due. cbn [set_base canc]. rewrite S3.
           exact (fun x => x).
Qed.

Definition okop (s : tm) (o : op) : Prop :=
  match o with
  | OSet t => is_tick t /\ (far t \/ ems tpm t <= base s + 4194304)
              /\ (st -> texp t <= last s \/ base s < ems tpm t)
  | OCancel _ => True
  | OProcess now => ~ st \/ noskip (ms tpm now) (base s)
  end.
Definition good_event (e : event) : Prop :=
  let '(t, c, k) := e in k = true \/ far t \/ ems tpm t <= ms tpm c.

Lemma map_stamp : forall s l, map (fun e => fst (fst e)) (stamp s l) = l.
Proof. intros s l. unfold stamp. rewrite map_map. apply map_id. Qed.

Lemma runs_ok : forall ops s, SI s -> along tpm okop s ops ->
  exists s' ev, runs tpm s ops = Some (s', ev) /\ SI s' /\ Forall good_event ev
    /\ Permutation (sets ops ++ all s) (map (fun e => fst (fst e)) ev ++ all s').
Proof.
  induction ops as [|o ops IH]; intros s I A; cbn [runs].
  - exists s, []. split; [reflexivity|]. split; [exact I|]. split; [constructor|reflexivity].
  - cbn [along] in A. destruct A as [A1 A2]. destruct o as [t|i|now]; cbn [step okop sets] in *.
    + destruct A1 as (T & F & S). destruct (SetTimer_ok s t I T F S) as (I' & L & C & D & P).
      destruct (SetTimer tpm s t) as [s1 l]. cbn [fst snd] in *.
      destruct (IH s1 I' A2) as (s' & ev & E & I2 & G & P2). rewrite E.
      exists s', (stamp s1 l ++ ev). split; [reflexivity|]. split; [exact I2|]. split.
      * apply Forall_app. split; [|exact G]. unfold stamp. apply Forall_map.
        eapply Forall_impl; [|exact D]. intros u Hu. right. right. cbn. rewrite L. exact Hu.
      * rewrite map_app, map_stamp. rewrite <- app_assoc, <- P2. cbn [app].
        rewrite Permutation_app_swap_app, <- P. apply Permutation_middle.
    + destruct I as [Cl W].
      destruct (IH _ (conj Cl W : SI (mktm (last s) (base s) (w1 s) (w2 s) (w3 s) (oth s)
                            (fun j => if Nat.eqb j i then true else canc s j))) A2) as (s' & ev & E & I2 & G & P2).
      rewrite E. exists s', ev. split; [reflexivity|]. split; [exact I2|]. split; [exact G|exact P2].
    + destruct (Process_ok s now I A1) as (s1 & l & E1 & I' & L & C & D & P). rewrite E1 in A2 |- *.
      destruct (IH s1 I' A2) as (s' & ev & E & I2 & G & P2). rewrite E.
      exists s', (stamp s1 l ++ ev). split; [reflexivity|]. split; [exact I2|]. split.
      * apply Forall_app. split; [|exact G]. unfold stamp. apply Forall_map.
        eapply Forall_impl; [|exact D]. intros u Hu. exact Hu.
      * rewrite map_app, map_stamp. rewrite <- app_assoc, <- P2.
        rewrite Permutation_app_swap_app, <- P. reflexivity.
Qed.
End Ops.

Lemma along_impl : forall tpm (P Q : tm -> op -> Prop) ops s, (forall s o, P s o -> Q s o) ->
  along tpm P s ops -> along tpm Q s ops.
Proof.
  intros tpm P Q ops. induction ops as [|o r IH]; intros s H A; [exact I|].
  cbn [along] in *. destruct A as [A1 A2]. split; [apply H; exact A1|].
  destruct (step tpm s o) as [[s' e]|]; [apply IH; assumption|exact I].
Qed.

Lemma along_sets : forall tpm (Q : timer -> Prop) (P : tm -> op -> Prop) ops s,
  (forall t, In t (sets ops) -> Q t) ->
  (forall s o, match o with OSet t => Q t -> P s o | _ => P s o end) -> along tpm P s ops.
Proof.
  intros tpm Q P ops. induction ops as [|o r IH]; intros s HQ HP; [exact I|]. cbn [along]. split.
  - specialize (HP s o). destruct o as [t|i|now]; [|exact HP|exact HP]. apply HP, HQ. left. reflexivity.
  - destruct (step tpm s o) as [[s' e]|]; [|exact I]. apply IH; [|exact HP].
    intros t Ht. apply HQ. destruct o; [right|..]; exact Ht.
Qed.

Lemma all_pending : forall s, all s = pending s. Proof. reflexivity. Qed.

Lemma all_init : forall tpm now, all (tm_init tpm now) = [].
Proof. reflexivity. Qed.

(** ** C55 *)
(** Processing never gets stuck, and at any moment every timer that was set is either
    pending or was dispatched, exactly once (as multisets). *)
Theorem C55_no_timer_lost : forall tpm now0 ops, 0 < tpm -> 0 <= now0 ->
  (forall t, In t (sets ops) -> is_tick t) ->
  exists s ev, runs tpm (tm_init tpm now0) ops = Some (s, ev)
    /\ Permutation (sets ops) (map (fun e => fst (fst e)) ev ++ pending s).
Proof.
  intros tpm now0 ops Ht Hn HT.
  destruct (runs_ok tpm Ht (fun _ => True) False (or_intror (fun x => x)) ops (tm_init tpm now0)) as (s & ev & E & _ & _ & P).
  - apply init_ok; assumption.
  - apply (along_sets tpm is_tick); [exact HT|]. intros s [t|i|now]; cbn [okop].
    + intros T. split; [exact T|]. split; [left; exact I|intros []].
    + exact I.
    + left. intros [].
  - exists s, ev. split; [exact E|]. rewrite all_init, app_nil_r in P. exact P.
Qed.

(** In particular a timer with a unique name is dispatched at most once. *)
Theorem C55_dispatched_once : forall tpm now0 ops s ev, 0 < tpm -> 0 <= now0 ->
  (forall t, In t (sets ops) -> is_tick t) -> NoDup (map tid (sets ops)) ->
  runs tpm (tm_init tpm now0) ops = Some (s, ev) ->
  NoDup (map (fun e => tid (fst (fst e))) ev)
  /\ forall t, In t (pending s) -> ~ In (tid t) (map (fun e => tid (fst (fst e))) ev).
Proof.
  intros tpm now0 ops s ev Ht Hn HT ND E.
  destruct (C55_no_timer_lost tpm now0 ops Ht Hn HT) as (s' & ev' & E' & P).
  rewrite E in E'. injection E' as <- <-.
  assert (P2 := Permutation_map tid P). rewrite map_app, map_map in P2.
  assert (N2 := Permutation_NoDup P2 ND). split.
  - clear - N2. induction (map (fun e : timer * Z * bool => tid (fst (fst e))) ev) as [|a l IH]; [constructor|].
    cbn [app] in N2. inversion N2 as [|? ? A B]; subst. constructor; [|apply IH; exact B].
    intros C. apply A. apply in_or_app. left. exact C.
  - intros t Hp Hi. clear - N2 Hp Hi.
    induction (map (fun e : timer * Z * bool => tid (fst (fst e))) ev) as [|a l IH]; [destruct Hi|].
    cbn [app] in N2. inversion N2 as [|? ? A B]; subst. destruct Hi as [->|Hi].
    + apply A. apply in_or_app. right. apply in_map. exact Hp.
    + apply IH; assumption.
Qed.

(** ** C54 *)
(** A timer set at most 2^22 ms (about 70 minutes) ahead is not dispatched before the
    millisecond in which it expires (so at most one millisecond early), unless it was
    cancelled.  [far] is any set of timers that contains those set further ahead.
    Missing for the full property: the far timers and the fraction of a millisecond; both
    are refuted below. *)
Theorem C54_never_early_partial : forall tpm now0 ops (far : timer -> Prop) s ev, 0 < tpm -> 0 <= now0 ->
  (forall t, In t (sets ops) -> is_tick t) ->
  along tpm (fun s o => match o with OSet t => far t \/ texp t / tpm <= base s + 4194304 | _ => True end)
    (tm_init tpm now0) ops ->
  runs tpm (tm_init tpm now0) ops = Some (s, ev) ->
  Forall (fun '(t, now, cancelled) => cancelled = true \/ far t
          \/ (texp t / tpm <= now / tpm /\ texp t < now + tpm)) ev.
Proof.
  intros tpm now0 ops far s ev Ht Hn HT A E.
  destruct (runs_ok tpm Ht far False (or_intror (fun x => x)) ops (tm_init tpm now0)) as (s' & ev' & E' & _ & G & _).
  - apply init_ok; assumption.
  - revert A HT. clear E. generalize (tm_init tpm now0). induction ops as [|o r IH]; intros s0 A HT; [exact I|].
    cbn [along] in *. destruct A as [A1 A2]. split.
    + destruct o as [t|i|now]; cbn [okop].
      * split; [apply HT; left; reflexivity|]. split; [exact A1|intros []].
      * exact I.
      * left. intros [].
    + destruct (step tpm s0 o) as [[s1 e]|]; [|exact I]. apply IH; [exact A2|].
      intros t Hi. apply HT. destruct o; [right|..]; exact Hi.
  - rewrite E in E'. injection E' as <- <-. eapply Forall_impl; [|exact G].
    intros [[t c] k]. cbn [good_event]. unfold ems, ms. intros [H|[H|H]]; [left; exact H|right; left; exact H|].
    right. right. split; [exact H|].
    assert (texp t < (texp t / tpm + 1) * tpm) by (rewrite Z.mul_comm; apply Z.mul_succ_div_gt; lia).
    assert ((texp t / tpm + 1) * tpm <= (c / tpm + 1) * tpm) by (apply Z.mul_le_mono_nonneg_r; lia).
    assert (tpm * (c / tpm) <= c) by (apply Z.mul_div_le; lia). nia.
Qed.

(** A timer due 70 minutes later than the processing that dispatches it: it is moved
    from the list of far timers into bucket 0 of the third wheel, which is emptied right
    after (FetchTimingWheel2 calls FetchTimingWheel3 before it takes the bucket). *)
Definition early_far : list op := [OSet (mkt 1 8388616); OProcess 4194320].
Theorem C54_far_timer_early_refuted : exists tpm now0 ops s ev t now, 0 < tpm /\ 0 <= now0
  /\ (forall t, In t (sets ops) -> is_tick t)
  /\ runs tpm (tm_init tpm now0) ops = Some (s, ev) /\ ev = [(t, now, false)]
  /\ texp t / tpm - now / tpm = 4194296.
Proof.
  exists 1, 4194200, early_far.
  assert (E : match runs 1 (tm_init 1 4194200) early_far with
              | Some (_, ev) => ev = [(mkt 1 8388616, 4194320, false)] | None => False end) by (vm_compute; reflexivity).
  destruct (runs 1 (tm_init 1 4194200) early_far) as [[s ev]|]; [|destruct E].
  exists s, ev, (mkt 1 8388616), 4194320. split; [lia|]. split; [lia|]. split.
  - intros t [<-|[]]. unfold is_tick, W64. cbn. lia.
  - split; [reflexivity|]. split; [exact E|reflexivity].
Qed.

(** With ten ticks per millisecond, a timer for tick 85 is dispatched at tick 80. *)
Theorem C54_within_millisecond_refuted : exists tpm now0 ops s ev t now, 0 < tpm /\ 0 <= now0
  /\ (forall t, In t (sets ops) -> is_tick t)
  /\ runs tpm (tm_init tpm now0) ops = Some (s, ev) /\ ev = [(t, now, false)] /\ now < texp t.
Proof.
  exists 10, 0, [OSet (mkt 1 85); OProcess 80].
  assert (E : match runs 10 (tm_init 10 0) [OSet (mkt 1 85); OProcess 80] with
              | Some (_, ev) => ev = [(mkt 1 85, 80, false)] | None => False end) by (vm_compute; reflexivity).
  destruct (runs 10 (tm_init 10 0) [OSet (mkt 1 85); OProcess 80]) as [[s ev]|]; [|destruct E].
  exists s, ev, (mkt 1 85), 80. split; [lia|]. split; [lia|]. split.
  - intros t [<-|[]]. unfold is_tick, W64. cbn. lia.
  - split; [reflexivity|]. split; [exact E|cbn; lia].
Qed.

(** ** C56 *)
(** The processing that would have to fetch from the next wheel but does not: it starts in
    the last block of a turn and ends in the second or a later block of the next turn. *)
Definition fetch_left_out (b cur : Z) : Prop :=
  (1024 <= cur - b < 65536 /\ b / 1024 mod 64 = 63 /\ b / 1024 + 1 < cur / 1024)
  \/ (65536 <= cur - b < 4194304 /\ b / 65536 mod 64 = 63 /\ b / 65536 + 1 < cur / 65536).
(** A timer is not set for the past of the wheel: it is either expired (dispatched at
    once) or expires after the last 8 ms boundary. *)
Definition timely_op (tpm : Z) (s : tm) (o : op) : Prop :=
  match o with
  | OSet t => texp t <= last s \/ base s < texp t / tpm
  | OCancel _ => True
  | OProcess now => ~ fetch_left_out (base s) (now / tpm)
  end.

Lemma strict_run : forall tpm now0 ops s ev, 0 < tpm -> 0 <= now0 ->
  (forall t, In t (sets ops) -> is_tick t) ->
  along tpm (timely_op tpm) (tm_init tpm now0) ops ->
  runs tpm (tm_init tpm now0) ops = Some (s, ev) -> SI tpm (fun _ => True) True s.
Proof.
  intros tpm now0 ops s ev Ht Hn HT A E.
  destruct (runs_ok tpm Ht (fun _ => True) True (or_introl I) ops (tm_init tpm now0)) as (s' & ev' & E' & SI' & _).
  - apply init_ok; assumption.
  - revert A HT. clear E. generalize (tm_init tpm now0). induction ops as [|o r IH]; intros s0 A HT; [exact I|].
    cbn [along] in *. destruct A as [A1 A2]. split.
    + destruct o as [t|i|now]; cbn [okop timely_op] in *.
      * split; [apply HT; left; reflexivity|]. split; [left; exact I|]. intros _. exact A1.
      * exact I.
      * right. unfold noskip, ms. unfold fetch_left_out in A1. tauto.
    + destruct (step tpm s0 o) as [[s1 e]|]; [|exact I]. apply IH; [exact A2|].
      intros t Hi. apply HT. destruct o; [right|..]; exact Hi.
  - rewrite E in E'. injection E' as <- <-. exact SI'.
Qed.

Lemma in_all : forall s t, In t (all s) ->
  (exists i, 0 <= i < 128 /\ In t (bk (w1 s) i)) \/ (exists i, 0 <= i < 64 /\ In t (bk (w2 s) i))
  \/ (exists i, 0 <= i < 64 /\ In t (bk (w3 s) i)) \/ In t (oth s).
Proof.
  intros s t H. unfold all in H. rewrite !in_app_iff, !in_content in H. exact H.
Qed.

Theorem C56_on_time_partial : forall tpm now0 ops s ev, 0 < tpm -> 0 <= now0 ->
  (forall t, In t (sets ops) -> is_tick t) ->
  along tpm (timely_op tpm) (tm_init tpm now0) ops ->
  runs tpm (tm_init tpm now0) ops = Some (s, ev) ->
  forall t, In t (pending s) -> floor8 (last s / tpm) < texp t / tpm.
Proof.
  intros tpm now0 ops s ev Ht Hn HT A E t Hp.
  destruct (strict_run tpm now0 ops s ev Ht Hn HT A E) as [[C1 C2] W].
  rewrite <- all_pending in Hp. apply in_all in Hp. unfold ms in C2. rewrite <- C2.
  destruct W as (_ & B1 & B2 & B3 & B4). change (texp t / tpm) with (ems tpm t).
  destruct Hp as [(i & _ & H)|[(i & _ & H)|[(i & _ & H)|H]]].
  - destruct (B1 i t H) as (_ & [(N & _)|(G & _)]); [exfalso; exact (N I)|lia].
  - destruct (B2 i t H) as (G & _). lia.
  - destruct (B3 i t H) as (_ & [(N & _)|(G & _)]); [exfalso; exact (N I)|lia].
  - destruct (B4 t H) as (_ & G). specialize (G I). lia.
Qed.

(** When the thread processes its timers at least once a second no fetch is left out. *)
Theorem C56_on_time_every_second_partial : forall tpm now0 ops s ev, 0 < tpm -> 0 <= now0 ->
  (forall t, In t (sets ops) -> is_tick t) ->
  along tpm (fun s o => match o with
                        | OSet t => texp t <= last s \/ floor8 (last s / tpm) < texp t / tpm
                        | OCancel _ => True
                        | OProcess now => now / tpm - last s / tpm <= 1016
                        end) (tm_init tpm now0) ops ->
  runs tpm (tm_init tpm now0) ops = Some (s, ev) ->
  forall t, In t (pending s) -> floor8 (last s / tpm) < texp t / tpm.
Proof.
  intros tpm now0 ops s ev Ht Hn HT A E. apply (C56_on_time_partial tpm now0 ops s ev Ht Hn HT); [|exact E].
  assert (I0 : SI tpm (fun _ => True) False (tm_init tpm now0)) by (apply init_ok; assumption).
  revert A HT I0. clear E. generalize (tm_init tpm now0). induction ops as [|o r IH]; intros s0 A HT I0; [exact I|].
  cbn [along] in *. destruct A as [A1 A2]. destruct I0 as [[C1 C2] W].
  assert (I0 : SI tpm (fun _ => True) False s0) by (split; [split|]; assumption).
  assert (HT' : forall t, In t (sets r) -> is_tick t) by (intros t Hi; apply HT; destruct o; [right|..]; exact Hi).
  split.
  - destruct o as [t|i|now]; cbn [timely_op]; [rewrite C2; exact A1|exact I|].
    unfold fetch_left_out, ms, floor8 in *. lia.
  - destruct (runs_ok tpm Ht (fun _ => True) False (or_intror (fun x => x)) [o] s0) as (s1 & e1 & E1 & I1 & _).
    + exact I0.
    + cbn [along]. split; [|destruct (step tpm s0 o) as [[? ?]|]; exact I].
      destruct o as [t|i|now]; cbn [okop]; [|exact I|left; intros []].
      split; [apply HT; left; reflexivity|]. split; [left; exact I|intros []].
    + cbn [runs] in E1. destruct (step tpm s0 o) as [[s2 e2]|]; [|exact I].
      injection E1 as <- _. apply IH; assumption.
Qed.

(** A timer set for the millisecond in which the wheel stands is put behind the position
    of the wheel: at 1020 ms a timer for 8.5 ms (set at 8 ms) is still pending. *)
Theorem C56_current_block_refuted : exists tpm now0 ops s ev t, 0 < tpm /\ 0 <= now0
  /\ (forall t, In t (sets ops) -> is_tick t)
  /\ runs tpm (tm_init tpm now0) ops = Some (s, ev) /\ In t (pending s)
  /\ last s / tpm - texp t / tpm = 1012.
Proof.
  exists 10, 80, [OSet (mkt 1 85); OProcess 10200].
  assert (E : match runs 10 (tm_init 10 80) [OSet (mkt 1 85); OProcess 10200] with
              | Some (s, _) => pending s = [mkt 1 85] /\ last s = 10200 | None => False end)
    by (vm_compute; split; reflexivity).
  destruct (runs 10 (tm_init 10 80) [OSet (mkt 1 85); OProcess 10200]) as [[s ev]|]; [|destruct E].
  destruct E as [E1 E2]. exists s, ev, (mkt 1 85). split; [lia|]. split; [lia|]. split.
  - intros t [<-|[]]. unfold is_tick, W64. cbn. lia.
  - split; [reflexivity|]. split; [rewrite E1; left; reflexivity|]. rewrite E2. reflexivity.
Qed.

(** A fetch left out: the timer is more than an hour late. *)
Definition late_ops : list op := [OSet (mkt 1 130544); OProcess 68000; OProcess 4000000].
Theorem C56_left_out_fetch_refuted : exists tpm now0 ops s ev t, 0 < tpm /\ 0 <= now0
  /\ (forall t, In t (sets ops) -> is_tick t)
  /\ runs tpm (tm_init tpm now0) ops = Some (s, ev) /\ In t (pending s)
  /\ last s / tpm - texp t / tpm = 3869456.
Proof.
  exists 1, 65000, late_ops.
  assert (E : match runs 1 (tm_init 1 65000) late_ops with
              | Some (s, _) => pending s = [mkt 1 130544] /\ last s = 4000000 | None => False end)
    by (vm_compute; split; reflexivity).
  destruct (runs 1 (tm_init 1 65000) late_ops) as [[s ev]|]; [|destruct E].
  destruct E as [E1 E2]. exists s, ev, (mkt 1 130544). split; [lia|]. split; [lia|]. split.
  - intros t [<-|[]]. unfold is_tick, W64. cbn. lia.
  - split; [reflexivity|]. split; [rewrite E1; left; reflexivity|]. rewrite E2. reflexivity.
Qed.

(** ** C57 *)
Lemma content_nil : forall n w, (forall i, bk w i = []) -> content n w = [].
Proof.
  intros n w H. unfold content. induction (zseq n) as [|z l IH]; [reflexivity|]. cbn. rewrite H, IH. reflexivity.
Qed.

Lemma some_inj : forall a b : Z, Some a = Some b -> a = b.
Proof. intros a b H. congruence. Qed.
Lemma w1_wrap_le : forall b E i c, i < b / 8 mod 128 -> 0 <= i < 128 -> b < E <= b + 1024 ->
  i = (E - 1) / 8 mod 128 -> E <= c -> b mod 8 = 0 -> b + (128 - b / 8 mod 128) * 8 <= c.
Proof.
  intros b E i c H0 Hi H1 H2 H3 H4. assert (b / 8 <= (E - 1) / 8) by (clear - H1 H4; lia).
  assert (b = 8 * (b / 8)) by (clear - H4; lia). set (q := (E - 1) / 8) in *.
  assert (8 * q <= E - 1) by (unfold q; clear; lia). set (p := b / 8) in *. clearbody p q. clear H1 H4. subst b. lia.
Qed.
Lemma w1_find_le : forall b E i f, b / 8 mod 128 <= f < 128 -> f <= i \/ i < b / 8 mod 128 -> 0 <= i < 128 ->
  b < E <= b + 1024 -> i = (E - 1) / 8 mod 128 -> b mod 8 = 0 -> b + (f - b / 8 mod 128 + 1) * 8 <= ceil8 E.
Proof.
  intros b E i f Hf H0 Hi H1 H2 H4. assert (b / 8 <= (E - 1) / 8) by (clear - H1 H4; lia).
  assert (b = 8 * (b / 8)) by (clear - H4; lia). set (q := (E - 1) / 8) in *.
  assert (HC : 8 * (q + 1) = ceil8 E) by (unfold q, ceil8; clear; lia).
  set (p := b / 8) in *. rewrite <- HC. clearbody p q. clear H1 H4 HC. subst b. lia.
Qed.

Lemma w1_end : forall b, b mod 8 = 0 -> b + (128 - b / 8 mod 128) * 8 = (b / 1024 + 1) * 1024.
Proof.
  intros b H. rewrite <- div8_128. assert (b = 8 * (b / 8)) by (clear - H; lia).
  set (p := b / 8) in *. clearbody p. clear H. subst b. lia.
Qed.
Lemma w1_find_end : forall b f, b mod 8 = 0 -> f < 128 ->
  b + (f - b / 8 mod 128 + 1) * 8 <= (b / 1024 + 1) * 1024.
Proof. intros b f H Hf. rewrite <- (w1_end b H). lia. Qed.

Section Wake.
Variable tpm : Z.
Variable s : tm.
Hypothesis I0 : SI tpm (fun _ => True) True s.
Let b := base s.
Ltac kunf := change kTick with 8 in *; change kN1 with 128 in *; change kN2 with 64 in *; change kN3 with 64 in *.

Lemma wake_none : MinimumWakeup s = None -> all s = [].
Proof.
  destruct I0 as [_ ((O1 & O2 & O3) & _)]. unfold MinimumWakeup. kunf.
  destruct (IsEmpty (bmp (w1 s))) eqn:E1.
  2:{ destruct (0 <=? _); discriminate. }
  destruct (IsEmpty (bmp (w2 s))) eqn:E2.
  2:{ destruct (0 <? _); discriminate. }
  destruct (IsEmpty (bmp (w3 s))) eqn:E3.
  2:{ destruct (0 <=? _); discriminate. }
  intros H. assert (H4 : oth s = []) by (destruct (oth s); [reflexivity|discriminate]).
  unfold all. rewrite H4.
  rewrite (content_nil 128 (w1 s)) by (apply (wok_empty 128); [exact O1|unfold W32; lia|exact E1]).
  rewrite (content_nil 64 (w2 s)) by (apply (wok_empty 64); [exact O2|unfold W32; lia|exact E2]).
  rewrite (content_nil 64 (w3 s)) by (apply (wok_empty 64); [exact O3|unfold W32; lia|exact E3]).
  reflexivity.
Qed.

Lemma wake_some : forall m, MinimumWakeup s = Some m ->
  (IsEmpty (bmp (w1 s)) = false \/ IsEmpty (bmp (w2 s)) = false \/ IsEmpty (bmp (w3 s)) = false
   \/ forall t, In t (oth s) -> b + 4194304 <= ems tpm t) ->
  forall t, In t (all s) -> m <= ceil8 (ems tpm t).
Proof.
  destruct I0 as [[C1 C2] ((O1 & O2 & O3) & B1 & B2 & B3 & B4)].
  assert (b8 : b mod 8 = 0) by (unfold b; rewrite C2; unfold floor8; lia).
  assert (F1 : forall i t, In t (bk (w1 s) i) -> 0 <= i < 128 /\ b < ems tpm t <= b + 1024 /\ i = (ems tpm t - 1) / 8 mod 128).
  { intros i t H. destruct (B1 i t H) as (Hi & [(N & _)|(G & G')]); [exfalso; exact (N I)|]. tauto. }
  assert (F3 : forall i t, In t (bk (w3 s) i) -> 0 <= i < 64 /\ ems tpm t <= b + 4194304
             /\ i = (ems tpm t - 1) / 65536 mod 64 /\ b / 65536 < (ems tpm t - 1) / 65536).
  { intros i t H. destruct (B3 i t H) as (Hi & [(N & _)|(G & G' & G'')]); [exfalso; exact (N I)|].
    split; [exact Hi|]. split; [apply G|]. split; [exact G'|exact (G'' I)]. }
  assert (F4 : forall t, In t (oth s) -> b / 4194304 < (ems tpm t - 1) / 4194304).
  { intros t H. destruct (B4 t H) as (_ & G). exact (G I). }
  fold b in B2.
  intros m HM HC t Ht. apply in_all in Ht.
  assert (CE : ems tpm t <= ceil8 (ems tpm t)) by (unfold ceil8; clear; lia).
  unfold MinimumWakeup in HM. kunf. fold b in HM.
  change (8 * 128) with 1024 in HM. change (1024 * 64) with 65536 in HM. change (65536 * 64) with 4194304 in HM.
  rewrite div8_128, div1024_64 in HM.
  destruct (IsEmpty (bmp (w1 s))) eqn:E1.
  - (* first wheel empty *)
    assert (N1 : forall i, bk (w1 s) i = []) by (apply (wok_empty 128); [exact O1|unfold W32; lia|exact E1]).
    destruct Ht as [(i & _ & H)|Ht]; [rewrite N1 in H; destruct H|].
    destruct (IsEmpty (bmp (w2 s))) eqn:E2.
    + assert (N2 : forall i, bk (w2 s) i = []) by (apply (wok_empty 64); [exact O2|unfold W32; lia|exact E2]).
      destruct Ht as [(i & _ & H)|Ht]; [rewrite N2 in H; destruct H|].
      destruct (IsEmpty (bmp (w3 s))) eqn:E3.
      * assert (N3 : forall i, bk (w3 s) i = []) by (apply (wok_empty 64); [exact O3|unfold W32; lia|exact E3]).
        destruct Ht as [(i & _ & H)|Ht]; [rewrite N3 in H; destruct H|].
        destruct HC as [HC|[HC|[HC|HC]]]; try discriminate. specialize (HC t Ht).
        destruct (oth s); [discriminate|]. apply some_inj in HM; subst m. lia.
      * destruct (wok_find 64 (w3 s) ((b / 65536 + 1) mod 64) O3) as [[W1 W2]|(W1 & W2 & W3)];
          [apply Z.mod_pos_bound; lia| |].
        -- rewrite W1 in HM. cbn [Z.leb Z.compare] in HM. apply some_inj in HM; subst m.
           destruct Ht as [(i & Hi & H)|H].
           ++ destruct (F3 i t H) as (G1' & G2' & G3' & G4').
              assert (i < (b / 65536 + 1) mod 64).
              { destruct (Z_lt_dec i ((b / 65536 + 1) mod 64)); [assumption|]. rewrite (W2 i ltac:(lia)) in H. destruct H. }
              clear - H0 G1' G3' G4' CE b8. lia.
           ++ specialize (F4 t H). clear - F4 CE. lia.
        -- set (f := Find 64 (bmp (w3 s)) ((b / 65536 + 1) mod 64)) in *.
           destruct (Z.leb_spec 0 f); [|clear - W1 H; lia]. apply some_inj in HM; subst m.
           destruct Ht as [(i & Hi & H')|H'].
           ++ destruct (F3 i t H') as (G1' & G2' & G3' & G4').
              assert (f <= i \/ i < (b / 65536 + 1) mod 64).
              { destruct (Z_lt_dec i f); [right|left; lia]. destruct (Z_lt_dec i ((b / 65536 + 1) mod 64)); [assumption|].
                rewrite (W3 i ltac:(lia)) in H'. destruct H'. }
              clearbody f. clear - H0 W1 G1' G2' G3' G4' CE b8. lia.
           ++ specialize (F4 t H'). clearbody f. clear - F4 CE W1. lia.
    + destruct (wok_find 64 (w2 s) ((b / 1024 + 1) mod 64) O2) as [[W1 W2]|(W1 & W2 & W3)];
        [apply Z.mod_pos_bound; lia| |].
      * rewrite W1 in HM. cbn [Z.ltb Z.compare] in HM. apply some_inj in HM; subst m.
        destruct Ht as [(i & Hi & H)|[(i & Hi & H)|H]].
        -- destruct (B2 i t H) as (G1' & G2' & G3').
           assert (i < (b / 1024 + 1) mod 64).
           { destruct (Z_lt_dec i ((b / 1024 + 1) mod 64)); [assumption|]. rewrite (W2 i ltac:(lia)) in H. destruct H. }
           clear - H0 Hi G1' G3' CE b8. lia.
        -- destruct (F3 i t H) as (_ & _ & _ & G4'). clear - G4' CE. lia.
        -- specialize (F4 t H). clear - F4 CE. lia.
      * set (f := Find 64 (bmp (w2 s)) ((b / 1024 + 1) mod 64)) in *.
        assert (HM' : m <= b - b mod 65536 + 65536 /\ (0 < f -> m <= b - b mod 65536 + f * 1024)
                      /\ (f = 0 -> (b / 1024 + 1) mod 64 = 0)).
        { clearbody f. destruct (Z.ltb_spec 0 f); apply some_inj in HM; subst m; clear - W1 H; lia. }
        clear HM. destruct HM' as (M1 & M2 & M3).
        destruct Ht as [(i & Hi & H)|[(i & Hi & H)|H]].
        -- destruct (B2 i t H) as (G1' & G2' & G3').
           assert (f <= i \/ i < (b / 1024 + 1) mod 64).
           { destruct (Z_lt_dec i f); [right|left; lia]. destruct (Z_lt_dec i ((b / 1024 + 1) mod 64)); [assumption|].
             rewrite (W3 i ltac:(lia)) in H. destruct H. }
           clearbody f. clear - H0 W1 Hi M1 M2 M3 G1' G2' G3' CE b8. lia.
        -- destruct (F3 i t H) as (_ & _ & _ & G4'). clear - G4' CE M1. lia.
        -- specialize (F4 t H). clear - F4 CE M1. lia.
  - (* some timer in the first wheel *)
    destruct (wok_find 128 (w1 s) (b / 8 mod 128) O1) as [[W1 W2]|(W1 & W2 & W3)];
      [apply Z.mod_pos_bound; lia| |].
    + rewrite W1 in HM. cbn [Z.leb Z.compare] in HM. apply some_inj in HM; subst m.
      destruct Ht as [(i & Hi & H)|[(i & Hi & H)|[(i & Hi & H)|H]]].
      * destruct (F1 i t H) as (_ & G1' & G3').
        assert (i < b / 8 mod 128).
        { destruct (Z_lt_dec i (b / 8 mod 128)); [assumption|]. rewrite (W2 i ltac:(lia)) in H. destruct H. }
        apply (w1_wrap_le b (ems tpm t) i); assumption.
      * destruct (B2 i t H) as (G1' & _). rewrite (w1_end b b8). clear - G1' CE. lia.
      * destruct (F3 i t H) as (_ & _ & _ & G4'). rewrite (w1_end b b8). clear - G4' CE. lia.
      * specialize (F4 t H). rewrite (w1_end b b8). clear - F4 CE. lia.
    + set (f := Find 128 (bmp (w1 s)) (b / 8 mod 128)) in *.
      destruct (Z.leb_spec 0 f) as [HF|HF]; [|clearbody f; clear - W1 HF; lia]. apply some_inj in HM; subst m.
      destruct Ht as [(i & Hi & H)|[(i & Hi & H)|[(i & Hi & H)|H]]].
      * destruct (F1 i t H) as (_ & G1' & G3').
        assert (f <= i \/ i < b / 8 mod 128).
        { destruct (Z_lt_dec i f); [right|left; lia]. destruct (Z_lt_dec i (b / 8 mod 128)); [assumption|].
          rewrite (W3 i ltac:(lia)) in H. destruct H. }
        apply (w1_find_le b (ems tpm t) i f); assumption.
      * destruct (B2 i t H) as (G1' & _). assert (X := w1_find_end b f b8 (proj2 W1)). clearbody f. clear - G1' CE X. lia.
      * destruct (F3 i t H) as (_ & _ & _ & G4'). assert (X := w1_find_end b f b8 (proj2 W1)). clearbody f. clear - G4' CE X. lia.
      * specialize (F4 t H). assert (X := w1_find_end b f b8 (proj2 W1)). clearbody f. clear - F4 CE X. lia.
Qed.
End Wake.

(** The wake-up time is not later than the 8 ms boundary at which the earliest timer is
    due; "no wake-up" only when nothing is pending.  Missing: the state in which only far
    timers remain and the wheel has moved since they were set (refuted below), and the
    histories excluded by [timely_op]. *)
Theorem C57_no_oversleep_partial : forall tpm now0 ops s ev, 0 < tpm -> 0 <= now0 ->
  (forall t, In t (sets ops) -> is_tick t) ->
  along tpm (timely_op tpm) (tm_init tpm now0) ops ->
  runs tpm (tm_init tpm now0) ops = Some (s, ev) ->
  match MinimumWakeup s with
  | None => pending s = []
  | Some m => (exists t, In t (pending s) /\ ~ In t (oth s))
              \/ (forall t, In t (oth s) -> base s + 4194304 <= texp t / tpm) ->
              forall t, In t (pending s) -> m <= ceil8 (texp t / tpm)
  end.
Proof.
  intros tpm now0 ops s ev Ht Hn HT A E.
  assert (SI0 := strict_run tpm now0 ops s ev Ht Hn HT A E).
  destruct (MinimumWakeup s) as [m|] eqn:M.
  - intros H t Hp. apply (wake_some tpm s SI0 m M); [|exact Hp].
    destruct SI0 as [_ ((O1 & O2 & O3) & _)].
    destruct H as [(u & Hu & No)|H]; [|right; right; right; exact H].
    rewrite <- all_pending in Hu. apply in_all in Hu. destruct Hu as [(i & _ & Y)|[(i & _ & Y)|[(i & _ & Y)|Y]]].
    + left. destruct (IsEmpty (bmp (w1 s))) eqn:X; [|reflexivity].
      assert (Z0 := proj1 (wok_empty 128 (w1 s) O1 ltac:(unfold W32; lia)) X i). rewrite Z0 in Y. destruct Y.
    + right. left. destruct (IsEmpty (bmp (w2 s))) eqn:X; [|reflexivity].
      assert (Z0 := proj1 (wok_empty 64 (w2 s) O2 ltac:(unfold W32; lia)) X i). rewrite Z0 in Y. destruct Y.
    + right. right. left. destruct (IsEmpty (bmp (w3 s))) eqn:X; [|reflexivity].
      assert (Z0 := proj1 (wok_empty 64 (w3 s) O3 ltac:(unfold W32; lia)) X i). rewrite Z0 in Y. destruct Y.
    + contradiction.
  - apply (wake_none tpm s SI0 M).
Qed.

(** Only a far timer is left and the wheel has moved: the thread sleeps 70 minutes too long. *)
Theorem C57_far_only_refuted : exists tpm now0 ops s ev t m, 0 < tpm /\ 0 <= now0
  /\ (forall t, In t (sets ops) -> is_tick t)
  /\ runs tpm (tm_init tpm now0) ops = Some (s, ev) /\ pending s = [t]
  /\ MinimumWakeup s = Some m /\ m - ceil8 (texp t / tpm) = 4194200.
Proof.
  exists 1, 0, [OSet (mkt 1 4194400); OProcess 4194296].
  assert (E : match runs 1 (tm_init 1 0) [OSet (mkt 1 4194400); OProcess 4194296] with
              | Some (s, _) => pending s = [mkt 1 4194400] /\ MinimumWakeup s = Some 8388600 | None => False end)
    by (vm_compute; split; reflexivity).
  destruct (runs 1 (tm_init 1 0) [OSet (mkt 1 4194400); OProcess 4194296]) as [[s ev]|]; [|destruct E].
  destruct E as [E1 E2]. exists s, ev, (mkt 1 4194400), 8388600. split; [lia|]. split; [lia|]. split.
  - intros t [<-|[]]. unfold is_tick, W64. cbn. lia.
  - split; [reflexivity|]. split; [exact E1|]. split; [exact E2|reflexivity].
Qed.

(** ** C74 *)
(** With a timer in the first wheel the wake-up time lies after the last 8 ms boundary. *)
Theorem C74_wake_later_partial : forall tpm now0 ops s ev m, 0 < tpm -> 0 <= now0 ->
  (forall t, In t (sets ops) -> is_tick t) ->
  runs tpm (tm_init tpm now0) ops = Some (s, ev) ->
  (exists i t, In t (bk (w1 s) i)) -> MinimumWakeup s = Some m ->
  floor8 (last s / tpm) < m <= floor8 (last s / tpm) + 1024.
Proof.
  intros tpm now0 ops s ev m Ht Hn HT E (i & t & Hi) M.
  destruct (runs_ok tpm Ht (fun _ => True) False (or_intror (fun x => x)) ops (tm_init tpm now0)) as (s' & ev' & E' & SI' & _).
  - apply init_ok; assumption.
  - apply (along_sets tpm is_tick); [exact HT|]. intros s0 [u|j|now]; cbn [okop].
    + intros T. split; [exact T|]. split; [left; exact I|intros []].
    + exact I.
    + left. intros [].
  - rewrite E in E'. injection E' as <- <-. destruct SI' as [[C1 C2] ((O1 & _ & _) & _)].
    unfold ms in C2. rewrite <- C2. unfold MinimumWakeup in M.
    destruct (IsEmpty (bmp (w1 s))) eqn:X.
    + assert (Z0 := proj1 (wok_empty 128 (w1 s) O1 ltac:(unfold W32; lia)) X i). rewrite Z0 in Hi. destruct Hi.
    + change kTick with 8 in M. change kN1 with 128 in M.
      assert (Y := Z.mod_pos_bound (base s / 8) 128 ltac:(lia)).
      destruct (wok_find 128 (w1 s) (base s / 8 mod 128) O1 ltac:(lia)) as [[W1 _]|(W1 & _)];
        [rewrite W1 in M; cbn [Z.leb Z.compare] in M; apply some_inj in M; subst m; lia|].
      destruct (Z.leb_spec 0 (Find 128 (bmp (w1 s)) (base s / 8 mod 128))); [|lia].
      apply some_inj in M; subst m. lia.
Qed.

(** In the last block of a turn of the second wheel the wake-up time lies a minute in the
    past: the thread does not sleep at all until the turn ends. *)
Theorem C74_busy_loop_refuted : exists tpm now0 ops s ev m, 0 < tpm /\ 0 <= now0
  /\ (forall t, In t (sets ops) -> is_tick t)
  /\ runs tpm (tm_init tpm now0) ops = Some (s, ev)
  /\ (forall t, In t (pending s) -> last s / tpm + 1024 < texp t / tpm)
  /\ MinimumWakeup s = Some m /\ m < last s / tpm - 60000.
Proof.
  exists 1, 64600, [OSet (mkt 1 67000)].
  assert (E : match runs 1 (tm_init 1 64600) [OSet (mkt 1 67000)] with
              | Some (s, _) => pending s = [mkt 1 67000] /\ last s = 64600 /\ MinimumWakeup s = Some 1024 | None => False end)
    by (vm_compute; repeat split; reflexivity).
  destruct (runs 1 (tm_init 1 64600) [OSet (mkt 1 67000)]) as [[s ev]|]; [|destruct E].
  destruct E as (E1 & E2 & E3). exists s, ev, 1024. split; [lia|]. split; [lia|]. split.
  - intros t [<-|[]]. unfold is_tick, W64. cbn. lia.
  - split; [reflexivity|]. split; [|split; [exact E3|rewrite E2; cbn; lia]].
    rewrite E1, E2. intros t [<-|[]]. cbn. lia.
Qed.

(** ** Instances: three timers at three distances, processed at four moments. *)
Definition ops0 : list op :=
  [OSet (mkt 1 1005); OSet (mkt 2 4000); OSet (mkt 3 100000); OProcess 1008; OCancel 2;
   OProcess 3000; OProcess 5000; OProcess 100008].
Example ex_run : match runs 1 (tm_init 1 100) ops0 with
  | Some (s, ev) => ev = [(mkt 1 1005, 1008, false); (mkt 2 4000, 5000, true); (mkt 3 100000, 100008, false)]
                    /\ pending s = []
  | None => False end.
Proof. vm_compute. split; reflexivity. Qed.
Example ex_tick : forall t, In t (sets ops0) -> is_tick t.
Proof. intros t [<-|[<-|[<-|[]]]]; unfold is_tick, W64; cbn; lia. Qed.
Definition ops1 : list op := [OSet (mkt 1 1005); OSet (mkt 2 4000); OSet (mkt 3 100000); OProcess 500].
Example ex_timely : along 1 (timely_op 1) (tm_init 1 100) ops1.
Proof. cbn [along ops1 timely_op]. vm_compute. intuition discriminate. Qed.
Example ex_wake : match runs 1 (tm_init 1 100) ops1 with
  | Some (s, ev) => MinimumWakeup s = Some 1008 /\ length (pending s) = 3%nat | None => False end.
Proof. vm_compute. split; reflexivity. Qed.

Print Assumptions C55_no_timer_lost.
Print Assumptions C55_dispatched_once.
Print Assumptions C54_never_early_partial.
Print Assumptions C54_far_timer_early_refuted.
Print Assumptions C54_within_millisecond_refuted.
Print Assumptions C56_on_time_partial.
Print Assumptions C56_on_time_every_second_partial.
Print Assumptions C56_current_block_refuted.
Print Assumptions C56_left_out_fetch_refuted.
Print Assumptions C57_no_oversleep_partial.
Print Assumptions C57_far_only_refuted.
Print Assumptions C74_wake_later_partial.
Print Assumptions C74_busy_loop_refuted.
