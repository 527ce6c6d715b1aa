(** Lemmas about the timing wheel model: the bit maps mirror the buckets, the scan loops
    move exactly the buckets of their range, and the placement invariant. *)
From Coq Require Import ZArith Lia Bool List Permutation ZifyBool.
From Verif Require Import Word BitMapModel BitMapThms TimerModel.
Import ListNotations.
Local Open Scope Z_scope.
Ltac Zify.zify_post_hook ::= Z.to_euclidean_division_equations.

Definition isnil {A} (l : list A) : bool := match l with [] => true | _ => false end.

(** The bit map of a wheel has exactly the bits of the non-empty buckets. *)
Definition wok (n : Z) (w : wheel) : Prop :=
  (exists h, in_range n h /\ run n h = bmp w
     /\ forall i, 0 <= i < n -> last_set h i = negb (isnil (bk w i)))
  /\ forall i, ~ (0 <= i < n) -> bk w i = [].

Lemma wok_init : forall n, wok n (w_init n).
Proof.
  intros n. split; [|intros; reflexivity]. exists []. repeat split; intros; try reflexivity. constructor.
Qed.

Lemma wok_set : forall n w i l, wok n w -> 0 <= i < n ->
  wok n (mkw (updz (bk w) i l) (fst (SetItem (bmp w) i (negb (isnil l))))).
Proof.
  intros n w i l [(h & R & E & B) O] Hi. split.
  - exists ((i, negb (isnil l)) :: h). split; [constructor; assumption|].
    split; [cbn [run bmp]; rewrite E; reflexivity|].
    intros j Hj. cbn [last_set bk]. unfold updz. rewrite (Z.eqb_sym j i).
    destruct (i =? j); [reflexivity|apply B; exact Hj].
  - intros j Hj. cbn [bk]. unfold updz. destruct (Z.eqb_spec j i); [lia|apply O; exact Hj].
Qed.

Lemma wok_push : forall n w i t, wok n w -> 0 <= i < n -> wok n (w_push w i t).
Proof.
  intros n w i t H Hi. unfold w_push.
  assert (E : true = negb (isnil (bk w i ++ [t]))) by (destruct (bk w i); reflexivity).
  rewrite E. apply wok_set; assumption.
Qed.

Lemma wok_clear : forall n w i, wok n w -> 0 <= i < n -> wok n (w_clear w i).
Proof. intros n w i H Hi. exact (wok_set n w i [] H Hi). Qed.

Lemma wok_find : forall n w i, wok n w -> 0 <= i ->
  let r := Find n (bmp w) i in
  (r = -1 /\ forall j, i <= j < n -> bk w j = [])
  \/ (i <= r < n /\ bk w r <> [] /\ forall j, i <= j < r -> bk w j = []).
Proof.
  intros n w i [(h & R & E & B) O] Hi r. unfold r. rewrite <- E.
  destruct (Find_ok n h i R Hi) as [[F1 F2]|(F1 & F2 & F3)].
  - left. split; [exact F1|]. intros j Hj. specialize (F2 j Hj). rewrite B in F2 by lia.
    destruct (bk w j); [reflexivity|discriminate].
  - right. split; [exact F1|]. split.
    + rewrite B in F2 by lia. intros C. rewrite C in F2. discriminate.
    + intros j Hj. specialize (F3 j Hj). rewrite B in F3 by lia.
      destruct (bk w j); [reflexivity|discriminate].
Qed.

Lemma wok_empty : forall n w, wok n w -> 0 <= n < W32 ->
  (IsEmpty (bmp w) = true <-> forall i, bk w i = []).
Proof.
  intros n w [(h & R & E & B) O] Hn. rewrite <- E.
  destruct (C11_GetSize n h R Hn) as [_ G]. rewrite G. split; intros H i.
  - destruct (Z_le_dec 0 i), (Z_lt_dec i n); try (apply O; lia).
    specialize (H i ltac:(lia)). rewrite B in H by lia. destruct (bk w i); [reflexivity|discriminate].
  - intros Hi. rewrite B by lia. rewrite H. reflexivity.
Qed.

(** ** Contents *)
Definition zseq (n : Z) : list Z := map Z.of_nat (seq 0 (Z.to_nat n)).
Lemma in_zseq : forall n i, In i (zseq n) <-> 0 <= i < n.
Proof.
  intros n i. unfold zseq. rewrite in_map_iff. split.
  - intros (k & <- & H). apply in_seq in H. lia.
  - intros H. exists (Z.to_nat i). split; [lia|]. apply in_seq. lia.
Qed.
Lemma nodup_zseq : forall n, NoDup (zseq n).
Proof.
  intros n. unfold zseq. apply FinFun.Injective_map_NoDup; [|apply seq_NoDup].
  intros a b H. lia.
Qed.

Definition content (n : Z) (w : wheel) : list timer := flat_map (bk w) (zseq n).

Lemma in_content : forall n w t, In t (content n w) <-> exists i, 0 <= i < n /\ In t (bk w i).
Proof.
  intros n w t. unfold content. rewrite in_flat_map. split; intros (i & H1 & H2); exists i.
  - apply in_zseq in H1. tauto.
  - split; [apply in_zseq; exact H1|exact H2].
Qed.

Lemma flat_map_ext_in : forall (f g : Z -> list timer) zs,
  (forall i, In i zs -> f i = g i) -> flat_map f zs = flat_map g zs.
Proof.
  intros f g zs H. induction zs as [|z zs IH]; [reflexivity|]. cbn [flat_map].
  rewrite (H z) by (left; reflexivity). rewrite IH; [reflexivity|]. intros i Hi. apply H. right. exact Hi.
Qed.

Lemma flat_map_upd : forall (f : Z -> list timer) k l zs, NoDup zs -> In k zs ->
  Permutation (f k ++ flat_map (updz f k l) zs) (l ++ flat_map f zs).
Proof.
  intros f k l zs ND Hk. induction zs as [|z zs IH]; [destruct Hk|].
  inversion ND as [|? ? N1 N2]; subst. cbn [flat_map].
  destruct (Z.eq_dec z k) as [->|NE].
  - unfold updz at 1. rewrite Z.eqb_refl.
    rewrite (flat_map_ext_in (updz f k l) f zs).
    + apply Permutation_app_swap_app.
    + intros i Hi. unfold updz. destruct (Z.eqb_spec i k); [subst; contradiction|reflexivity].
  - destruct Hk as [Hk|Hk]; [congruence|]. specialize (IH N2 Hk).
    unfold updz at 1. destruct (Z.eqb_spec z k); [congruence|].
    rewrite Permutation_app_swap_app. rewrite IH. apply Permutation_app_swap_app.
Qed.

Lemma content_push : forall n w i t, 0 <= i < n ->
  Permutation (content n (w_push w i t)) (t :: content n w).
Proof.
  intros n w i t Hi. unfold content, w_push. cbn [bk].
  assert (P := flat_map_upd (bk w) i (bk w i ++ [t]) (zseq n) (nodup_zseq n)
                 (proj2 (in_zseq n i) Hi)).
  rewrite <- app_assoc in P. apply Permutation_app_inv_l in P. exact P.
Qed.

Lemma content_clear : forall n w i, 0 <= i < n ->
  Permutation (content n w) (bk w i ++ content n (w_clear w i)).
Proof.
  intros n w i Hi. unfold content, w_clear. cbn [bk]. symmetry.
  exact (flat_map_upd (bk w) i [] (zseq n) (nodup_zseq n) (proj2 (in_zseq n i) Hi)).
Qed.

(** ** The scan loops *)
Lemma flush_spec : forall n inc limit fuel i w pend, wok n w -> 0 <= i -> limit <= n ->
  (inc = 0 \/ inc = 1) ->
  n - i + (if isnil (bk w i) then 0 else 1) < Z.of_nat fuel -> 0 < Z.of_nat fuel ->
  exists w' l, flush n inc limit fuel i w pend = Some (w', pend ++ l) /\ wok n w'
    /\ (forall j, bk w' j = if (i <=? j) && (j <? limit) then [] else bk w j)
    /\ (forall t, In t l -> exists j, i <= j < limit /\ In t (bk w j))
    /\ Permutation (content n w) (l ++ content n w').
Proof.
  intros n inc limit fuel. induction fuel as [|f IH]; intros i w pend W Hi Hl Hinc Hf Hf0; [lia|].
  cbn [flush]. destruct (wok_find n w i W Hi) as [[F1 F2]|(F1 & F2 & F3)].
  - rewrite F1. cbn [Z.ltb Z.compare]. exists w, []. rewrite app_nil_r.
    split; [reflexivity|]. split; [exact W|]. split; [|split; [intros t []|reflexivity]].
    intros j. destruct (_ && _) eqn:C; [apply F2; lia|reflexivity].
  - set (k := Find n (bmp w) i) in *.
    destruct (Z.ltb_spec k 0); [lia|].
    destruct (Z.leb_spec limit k) as [C|C].
    + exists w, []. rewrite app_nil_r.
      split; [reflexivity|]. split; [exact W|]. split; [|split; [intros t []|reflexivity]].
      intros j. destruct (_ && _) eqn:D; [apply F3; lia|reflexivity].
    + assert (Hk : 0 <= k < n) by lia.
      destruct (IH (k + inc) (w_clear w k) (pend ++ bk w k)) as (w' & l & E & W' & B & T & P).
      * apply wok_clear; assumption.
      * lia.
      * exact Hl.
      * exact Hinc.
      * assert (Hb : (if isnil (bk (w_clear w k) (k + inc)) then 0 else 1) <= inc).
        { cbn [w_clear bk]. unfold updz. destruct Hinc as [-> | ->].
          - rewrite Z.add_0_r, Z.eqb_refl. cbn. lia.
          - match goal with |- (if ?b then _ else _) <= _ => destruct b end; [discriminate|apply Z.le_refl]. }
        destruct (Z.eq_dec k i) as [->|NE].
        -- destruct (bk w i) eqn:Bi; [contradiction|]. cbn [isnil] in Hf. lia.
        -- destruct (isnil (bk w i)); lia.
      * destruct (Z.eq_dec k i) as [->|NE].
        -- destruct (bk w i) eqn:Bi; [contradiction|]. cbn [isnil] in Hf. lia.
        -- destruct (isnil (bk w i)); lia.
      * exists w', (bk w k ++ l). rewrite E, <- app_assoc. split; [reflexivity|]. split; [exact W'|].
        split; [|split].
        -- intros j. rewrite B. cbn [w_clear bk]. unfold updz.
           destruct (Z.eqb_spec j k) as [->|NE].
           ++ assert (Y : (i <=? k) && (k <? limit) = true) by lia. rewrite Y.
              match goal with |- (if ?b then _ else _) = _ => destruct b; reflexivity end.
           ++ destruct ((i <=? j) && (j <? limit)) eqn:Y.
              ** destruct ((k + inc <=? j) && (j <? limit)) eqn:Y2; [reflexivity|].
                 apply F3. lia.
              ** destruct ((k + inc <=? j) && (j <? limit)) eqn:Y2; [lia|reflexivity].
        -- intros t Ht. apply in_app_or in Ht. destruct Ht as [Ht|Ht].
           ++ exists k. split; [lia|exact Ht].
           ++ destruct (T t Ht) as (j & J1 & J2). cbn [w_clear bk] in J2. unfold updz in J2.
              destruct (Z.eqb_spec j k); [destruct J2|]. exists j. split; [lia|exact J2].
        -- rewrite (content_clear n w k Hk). rewrite P. rewrite app_assoc. reflexivity.
Qed.

Lemma flush_all_spec : forall n w pend, wok n w -> 0 <= n ->
  exists w' l, flush_all n w pend = Some (w', pend ++ l) /\ wok n w'
    /\ (forall j, bk w' j = [])
    /\ (forall t, In t l -> exists j, In t (bk w j))
    /\ Permutation (content n w) (l ++ content n w').
Proof.
  intros n w pend W Hn. unfold flush_all.
  destruct (flush_spec n 1 n (fuel_for n) 0 w pend W) as (w' & l & E & W' & B & T & P);
    [lia|lia|lia|unfold fuel_for; destruct (isnil _); lia|unfold fuel_for; lia|].
  exists w', l. split; [exact E|]. split; [exact W'|]. split; [|split].
  - intros j. rewrite B. destruct (_ && _) eqn:C; [reflexivity|]. destruct W as [_ O]. apply O. lia.
  - intros t Ht. destruct (T t Ht) as (j & _ & J). exists j. exact J.
  - exact P.
Qed.

(** [x] lies in the half-open cyclic range. *)
Definition cyc (si ei n x : Z) : bool :=
  if si <=? ei then (si <=? x) && (x <? ei) else ((si <=? x) && (x <? n)) || ((0 <=? x) && (x <? ei)).

Lemma flush_cyc_spec : forall n inc si ei w pend, wok n w -> 0 <= si < n -> 0 <= ei < n ->
  (inc = 0 \/ inc = 1) ->
  exists w' l, flush_cyc n inc si ei w pend = Some (w', pend ++ l) /\ wok n w'
    /\ (forall j, bk w' j = if cyc si ei n j then [] else bk w j)
    /\ (forall t, In t l -> exists j, cyc si ei n j = true /\ In t (bk w j))
    /\ Permutation (content n w) (l ++ content n w').
Proof.
  intros n inc si ei w pend W Hs He Hinc. unfold flush_cyc, cyc.
  destruct (flush_spec n inc (if si <=? ei then ei else n) (fuel_for n) si w pend W)
    as (w' & l & E & W' & B & T & P);
    [lia|destruct (si <=? ei); lia|exact Hinc|unfold fuel_for; destruct (isnil _); lia|unfold fuel_for; lia|].
  rewrite E. destruct (Z.leb_spec si ei) as [C|C].
  - destruct (Z.ltb_spec ei si); [lia|]. exists w', l. split; [reflexivity|]. split; [exact W'|].
    split; [exact B|]. split; [|exact P].
    intros t Ht. destruct (T t Ht) as (j & J1 & J2). exists j. split; [lia|exact J2].
  - destruct (Z.ltb_spec ei si); [|lia].
    destruct (flush_spec n 1 ei (fuel_for n) 0 w' (pend ++ l) W')
      as (w2 & l2 & E2 & W2 & B2 & T2 & P2);
      [lia|lia|lia|unfold fuel_for; destruct (isnil _); lia|unfold fuel_for; lia|].
    exists w2, (l ++ l2). rewrite E2, <- app_assoc. split; [reflexivity|]. split; [exact W2|].
    split; [|split].
    + intros j. rewrite B2, B.
      destruct ((0 <=? j) && (j <? ei)), ((si <=? j) && (j <? n)); reflexivity.
    + intros t Ht. apply in_app_or in Ht. destruct Ht as [Ht|Ht].
      * destruct (T t Ht) as (j & J1 & J2). exists j. split; [lia|exact J2].
      * destruct (T2 t Ht) as (j & J1 & J2). rewrite B in J2. exists j.
        destruct (_ && _) eqn:Y in J2; [destruct J2|]. split; [lia|exact J2].
    + rewrite P, P2, app_assoc. reflexivity.
Qed.
