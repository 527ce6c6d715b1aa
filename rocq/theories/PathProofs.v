(** Lemmas about the path model (PathModel.v). *)
From Coq Require Import ZArith Lia Bool List.
From Verif Require Import CompareModel PathModel.
Import ListNotations.
Local Open Scope nat_scope.

Lemma starts_length : forall ts p, starts ts p = true -> length ts <= length p.
Proof.
  induction ts as [|t ts IH]; intros [|c p] H; simpl in *; try lia; try discriminate.
  apply andb_true_iff in H as [_ H]. apply IH in H. lia.
Qed.

Lemma starts_firstn : forall ts p k, length ts <= k -> starts ts (firstn k p) = starts ts p.
Proof.
  induction ts as [|t ts IH]; intros [|c p] [|k] H; simpl in *; try lia; auto.
  rewrite IH by lia. reflexivity.
Qed.

Lemma starts_firstn_imp : forall ts p k, starts ts (firstn k p) = true -> starts ts p = true.
Proof.
  induction ts as [|t ts IH]; intros [|c p] [|k] H; simpl in *; try discriminate; auto.
  apply andb_true_iff in H as [H1 H]. rewrite H1, (IH _ _ H). reflexivity.
Qed.

Lemma starts_app : forall ts us p,
  starts (ts ++ us) p = true <->
  exists a b, p = a ++ b /\ length a = length ts /\ starts ts a = true /\ starts us b = true.
Proof.
  induction ts as [|t ts IH]; intros us p; simpl.
  - split.
    + intros H. exists [], p. auto.
    + intros (a & b & -> & L & _ & H). destruct a; [exact H|discriminate].
  - destruct p as [|c p].
    + split; [discriminate|]. intros (a & b & E & L & _ & _). destruct a; discriminate.
    + rewrite andb_true_iff, IH. split.
      * intros (T & a & b & -> & L & A & B). exists (c :: a), b. simpl. rewrite T, A. auto.
      * intros (a & b & E & L & A & B). destruct a as [|d a]; [discriminate|].
        simpl in *. injection E as <- ->. apply andb_true_iff in A as [A1 A].
        split; [exact A1|]. exists a, b. auto.
Qed.

Lemma starts_repeat : forall n t p, length p = n -> starts (repeat t n) p = true <-> Forall (fun c => t c = true) p.
Proof.
  induction n as [|n IH]; intros t [|c p] L; simpl in *; try discriminate.
  - split; auto.
  - rewrite andb_true_iff, IH by lia. split.
    + intros [A B]. constructor; auto.
    + intros A. inversion A; auto.
Qed.

Lemma last_from_spec : forall t p i,
  match last_from t p i with
  | Some k => exists a c b, p = a ++ c :: b /\ k = i + length a /\ t c = true /\ Forall (fun d => t d = false) b
  | None => Forall (fun d => t d = false) p
  end.
Proof.
  induction p as [|c p IH]; intros i; simpl; [constructor|].
  specialize (IH (S i)). destruct (last_from t p (S i)) as [k|].
  - destruct IH as (a & d & b & -> & -> & T & F). exists (c :: a), d, b. simpl. repeat split; auto; lia.
  - destruct (t c) eqn:T.
    + exists [], c, p. simpl. repeat split; auto; lia.
    + constructor; auto.
Qed.

Lemma LastIndex_spec : forall t p n, n <= length p ->
  match LastIndex t p n with
  | Some k => exists a c b, p = a ++ c :: b /\ k = length a /\ n <= k /\ t c = true /\ Forall (fun d => t d = false) b
  | None => Forall (fun d => t d = false) (skipn n p)
  end.
Proof.
  intros t p n L. unfold LastIndex. pose proof (last_from_spec t (skipn n p) n) as H.
  destruct (last_from t (skipn n p) n) as [k|]; [|exact H].
  destruct H as (a & c & b & E & -> & T & F).
  exists (firstn n p ++ a), c, b. split.
  - rewrite <- app_assoc, <- E. symmetry. apply firstn_skipn.
  - rewrite app_length, firstn_length, Nat.min_l by exact L. repeat split; auto; lia.
Qed.

Section Win.
  Variable win : bool.
  Notation sep := (sep win).

  Lemma skip_le : forall l n, skip_seps win n l <= length l.
  Proof.
    induction l as [|c l IH]; intros [|n]; simpl; try lia.
    specialize (IH (if sep c then n else S n)). lia.
  Qed.

  Lemma skip_firstn : forall l n k, skip_seps win n l <= k -> skip_seps win n (firstn k l) = skip_seps win n l.
  Proof.
    induction l as [|c l IH]; intros [|n] [|k] H; simpl in *; try lia; auto.
    rewrite IH by lia. reflexivity.
  Qed.

  Lemma skip_nosep : forall l n, Forall (fun c => sep c = false) l -> skip_seps win (S n) l = length l.
  Proof.
    induction l as [|c l IH]; intros n F; [reflexivity|].
    inversion F; subst. cbn [skip_seps length]. rewrite H1, IH by assumption. reflexivity.
  Qed.

  Lemma skip_sep : forall a s l n, Forall (fun c => sep c = false) a -> sep s = true ->
    skip_seps win (S n) (a ++ s :: l) = length a + 1 + skip_seps win n l.
  Proof.
    induction a as [|c a IH]; intros s l n F S1; cbn [skip_seps length app].
    - rewrite S1. lia.
    - inversion F; subst. rewrite H1, IH by assumption. lia.
  Qed.

  Lemma first_sep : forall l,
    Forall (fun c => sep c = false) l \/
    exists a s b, l = a ++ s :: b /\ Forall (fun c => sep c = false) a /\ sep s = true.
  Proof.
    induction l as [|c l IH]; [left; constructor|].
    destruct (sep c) eqn:S1.
    - right. exists [], c, l. auto.
    - destruct IH as [F|(a & s & b & -> & F & S2)].
      + left. constructor; auto.
      + right. exists (c :: a), s, b. auto.
  Qed.

  Lemma sep_at_true : forall k p, sep_at win k p = true <-> exists a c b, p = a ++ c :: b /\ length a = k /\ sep c = true.
  Proof.
    intros k p. unfold sep_at. split.
    - destruct (nth_error p k) as [c|] eqn:E; [|discriminate].
      intros H. apply nth_error_split in E as (a & b & -> & L). exists a, c, b. auto.
    - intros (a & c & b & -> & L & S1). rewrite nth_error_app2 by lia.
      replace (k - length a) with 0 by lia. exact S1.
  Qed.

  Lemma sep_at_firstn : forall k n p, k < n -> sep_at win k (firstn n p) = sep_at win k p.
  Proof.
    induction k as [|k IH]; intros [|n] [|c p] H; try lia; try reflexivity.
    unfold sep_at in *. cbn. apply (IH n p). lia.
  Qed.

  Lemma unc_le : forall p, TryParseUncPath win p <= length p.
  Proof.
    intros p. unfold TryParseUncPath.
    destruct (starts [sep; sep] p) eqn:A; [|lia].
    destruct (starts [any; any; qdot] p) eqn:B; [|apply starts_length in A; exact A].
    destruct (win && _) eqn:C; [|lia].
    apply andb_true_iff in C as [_ C]. apply starts_length in C. exact C.
  Qed.

  Lemma unc_values : forall p, TryParseUncPath win p = 0 \/ TryParseUncPath win p = 2 \/ TryParseUncPath win p = 8.
  Proof.
    intros p. unfold TryParseUncPath.
    destruct (starts [sep; sep] p); [|auto]. destruct (starts [any; any; qdot] p); [|auto].
    destruct (win && _); auto.
  Qed.

  Lemma guid_len : length (volume_guid win) = 48.
  Proof. reflexivity. Qed.

  Lemma vol_le : forall p, TryParseVolumePath win p <= length p.
  Proof.
    intros p. unfold TryParseVolumePath.
    destruct (starts [IsAlphaChar; is 58] p) eqn:A; [apply starts_length in A; exact A|].
    destruct (starts [sep; sep; qdot; sep; IsAlphaChar; is 58] p) eqn:B; [apply starts_length in B; exact B|].
    destruct (starts (volume_guid win) p && _) eqn:C; [|lia].
    apply andb_true_iff in C as [C _]. apply starts_length in C. rewrite guid_len in C. exact C.
  Qed.

  Lemma root_len_le : forall p, root_len win p <= length p.
  Proof.
    intros [|c r]; [simpl; lia|]. unfold root_len.
    destruct (sep c && _); [simpl; lia|].
    set (p := c :: r). cbv zeta.
    destruct (negb (TryParseUncPath win p =? 0)).
    - pose proof (unc_le p). pose proof (skip_le (skipn (TryParseUncPath win p) p) 2) as K.
      rewrite skipn_length in K. lia.
    - destruct win eqn:W; [|lia].
      destruct (negb (TryParseVolumePath true p =? 0)); [|lia].
      pose proof (vol_le p) as V. rewrite W in V.
      destruct (sep_at true _ p) eqn:S1; [|lia].
      unfold sep_at in S1. destruct (nth_error p (TryParseVolumePath true p)) eqn:N; [|discriminate].
      assert (TryParseVolumePath true p < length p) by (apply nth_error_Some; congruence). lia.
  Qed.

  Lemma GetPathRoot_length : forall p, length (GetPathRoot win p) = root_len win p.
  Proof. intros p. unfold GetPathRoot. apply firstn_length_le, root_len_le. Qed.

  (** The one-separator test sees at most two characters. *)
  Definition one_sep (p : list Z) : bool :=
    match p with [] => false | c :: r => sep c && (match r with [] => true | d :: _ => negb (sep d) end) end.

  Lemma one_sep_not_two : forall p, one_sep p = true -> starts [sep; sep] p = false.
  Proof.
    intros [|c [|d r]] H; simpl in *; try discriminate.
    - destruct (sep c); reflexivity.
    - apply andb_true_iff in H as [H1 H2]. destruct (sep d); [discriminate|]. rewrite andb_false_r. reflexivity.
  Qed.

  Lemma root_len_eq : forall p, root_len win p =
    if one_sep p then 1
    else if negb (TryParseUncPath win p =? 0) then TryParseUncPath win p + skip_seps win 2 (skipn (TryParseUncPath win p) p)
    else if win && negb (TryParseVolumePath win p =? 0) then
      (if sep_at win (TryParseVolumePath win p) p then TryParseVolumePath win p + 1 else TryParseVolumePath win p)
    else 0.
  Proof.
    intros [|c r]; unfold one_sep, root_len; cbv zeta; destruct win; reflexivity.
  Qed.

  Lemma one_sep_firstn : forall p k, starts [sep; sep] p = false -> 1 <= k -> one_sep (firstn k p) = one_sep p.
  Proof.
    intros [|c [|d r]] [|[|k]] H K; simpl in *; try lia; try reflexivity.
    destruct (sep c); [|reflexivity]. simpl in *. destruct (sep d); [discriminate|reflexivity].
  Qed.
  Lemma one_sep_firstn2 : forall p k, 2 <= k -> one_sep (firstn k p) = one_sep p.
  Proof. intros [|c [|d r]] [|[|k]] K; simpl in *; try lia; reflexivity. Qed.

  Lemma unc_firstn : forall p k, 2 <= k -> TryParseUncPath win p <= k -> TryParseUncPath win p <> 0 ->
    TryParseUncPath win (firstn k p) = TryParseUncPath win p.
  Proof.
    intros p k K L N. unfold TryParseUncPath in *.
    rewrite (starts_firstn [sep; sep]) by (simpl; lia).
    destruct (starts [sep; sep] p) eqn:A; [|lia].
    destruct (starts [any; any; qdot] p) eqn:B.
    - destruct (win && starts [any; any; any; sep; either 85 117; either 78 110; either 67 99; sep] p) eqn:C; [|lia].
      rewrite !starts_firstn by (simpl; lia). rewrite B, C. reflexivity.
    - destruct (starts [any; any; qdot] (firstn k p)) eqn:D; [|reflexivity].
      apply starts_firstn_imp in D. congruence.
  Qed.

  Lemma unc_dev_short : forall p k, starts [any; any; qdot] p = true -> 3 <= k -> TryParseUncPath win p = 0 ->
    TryParseUncPath win (firstn k p) = 0.
  Proof.
    intros p k D K. unfold TryParseUncPath. rewrite !(starts_firstn [sep; sep]), !(starts_firstn [any; any; qdot]) by (simpl; lia).
    rewrite D. destruct (starts [sep; sep] p) eqn:A; [|auto].
    destruct (win && starts [any; any; any; sep; either 85 117; either 78 110; either 67 99; sep] p) eqn:C; [lia|].
    intros _. destruct (win && starts _ (firstn k p)) eqn:E; [|reflexivity].
    apply andb_true_iff in E as [E1 E2]. apply starts_firstn_imp in E2. rewrite E2, andb_true_r in C. congruence.
  Qed.

  Lemma vol_firstn : forall p k, TryParseVolumePath win p <= k -> TryParseVolumePath win p <> 0 ->
    TryParseVolumePath win (firstn k p) = TryParseVolumePath win p.
  Proof.
    intros p k L N. unfold TryParseVolumePath in *.
    destruct (starts [IsAlphaChar; is 58] p) eqn:A.
    { rewrite starts_firstn, A by (simpl; lia). reflexivity. }
    destruct (starts [IsAlphaChar; is 58] (firstn k p)) eqn:A'.
    { apply starts_firstn_imp in A'. congruence. }
    destruct (starts [sep; sep; qdot; sep; IsAlphaChar; is 58] p) eqn:B.
    { rewrite starts_firstn, B by (simpl; lia). reflexivity. }
    destruct (starts [sep; sep; qdot; sep; IsAlphaChar; is 58] (firstn k p)) eqn:B'.
    { apply starts_firstn_imp in B'. congruence. }
    destruct (starts (volume_guid win) p && ((length p =? 48) || sep_at win 48 p)) eqn:C; [|lia].
    apply andb_true_iff in C as [C1 C2].
    rewrite starts_firstn, C1 by (rewrite guid_len; lia). cbn [andb].
    destruct (Nat.eq_dec k 48) as [->|K].
    - apply starts_length in C1. rewrite guid_len in C1.
      rewrite firstn_length_le by exact C1. reflexivity.
    - rewrite sep_at_firstn by lia. destruct (sep_at win 48 p); [rewrite orb_true_r; reflexivity|].
      rewrite orb_false_r in C2. apply Nat.eqb_eq in C2. rewrite firstn_all2 by lia. rewrite C2. reflexivity.
  Qed.

  Lemma vol_dev : forall p, TryParseVolumePath win p <> 0 ->
    (starts [IsAlphaChar; is 58] p = true /\ TryParseVolumePath win p = 2) \/
    (starts [sep; sep; qdot; sep] p = true /\ 6 <= TryParseVolumePath win p).
  Proof.
    intros p. unfold TryParseVolumePath.
    destruct (starts [IsAlphaChar; is 58] p); [auto|].
    destruct (starts [sep; sep; qdot; sep; IsAlphaChar; is 58] p) eqn:B.
    - intros _. right. split; [|lia].
      destruct p as [|? [|? [|? [|? [|? p]]]]]; simpl in *; rewrite ?andb_true_iff, ?andb_false_r in *; intuition congruence.
    - destruct (starts (volume_guid win) p && _) eqn:C; [|lia].
      intros _. right. split; [|lia]. apply andb_true_iff in C as [C _].
      destruct p as [|? [|? [|? [|? p]]]]; simpl in *; rewrite ?andb_true_iff, ?andb_false_r in *; intuition congruence.
  Qed.

  Lemma alpha_not_sep : forall c, IsAlphaChar c = true -> sep c = false.
  Proof.
    intros c. unfold IsAlphaChar, PathModel.sep.
    rewrite orb_true_iff, !andb_true_iff, !Z.leb_le. intros H.
    rewrite orb_false_iff, andb_false_iff, !Z.eqb_neq. split; [right|]; lia.
  Qed.

  Lemma dev_starts : forall p, starts [sep; sep; qdot; sep] p = true ->
    starts [sep; sep] p = true /\ starts [any; any; qdot] p = true.
  Proof.
    intros p H. destruct p as [|a [|b [|c [|d p]]]]; simpl in *; rewrite ?andb_true_iff, ?andb_false_r in *; intuition congruence.
  Qed.

  Lemma two_not_one : forall p, starts [sep; sep] p = true -> one_sep p = false.
  Proof.
    intros p H. destruct (one_sep p) eqn:E; [|reflexivity]. apply one_sep_not_two in E. congruence.
  Qed.

  Lemma root_len_firstn : forall p k, 0 < root_len win p <= k -> root_len win (firstn k p) = root_len win p.
  Proof.
    intros p k [P K]. rewrite root_len_eq in P, K. rewrite !root_len_eq.
    destruct (one_sep p) eqn:O.
    - rewrite one_sep_firstn; [rewrite O; reflexivity|apply one_sep_not_two, O|exact K].
    - destruct (negb (TryParseUncPath win p =? 0)) eqn:U.
      + apply negb_true_iff, Nat.eqb_neq in U.
        assert (2 <= TryParseUncPath win p) by (destruct (unc_values p) as [|[|]]; lia).
        rewrite one_sep_firstn2, O by lia.
        rewrite unc_firstn by lia.
        destruct (TryParseUncPath win p =? 0) eqn:Z; [apply Nat.eqb_eq in Z; lia|]. cbn [negb].
        rewrite skipn_firstn_comm. rewrite skip_firstn by lia. reflexivity.
      + destruct (win && negb (TryParseVolumePath win p =? 0)) eqn:V; [|lia].
        apply andb_true_iff in V as [W V]. apply negb_true_iff, Nat.eqb_neq in V.
        assert (VK : TryParseVolumePath win p <= k) by (destruct (sep_at win _ p); lia).
        apply negb_false_iff, Nat.eqb_eq in U.
        assert (U' : one_sep (firstn k p) = false /\ TryParseUncPath win (firstn k p) = 0 /\ 2 <= k).
        { destruct (vol_dev p V) as [[A V2]|[A V6]].
          - assert (2 <= k) by lia.
            rewrite one_sep_firstn2 by lia. split; [exact O|]. split; [|lia].
            destruct p as [|c [|d r]]; try (simpl in A; rewrite ?andb_false_r in A; discriminate).
            destruct k as [|[|k]]; try lia. cbn [starts] in A. cbn [firstn].
            apply andb_true_iff in A as [A _]. apply alpha_not_sep in A.
            unfold TryParseUncPath. cbn [starts]. rewrite A. reflexivity.
          - rewrite one_sep_firstn2 by lia. split; [exact O|]. split; [|lia].
            apply unc_dev_short; [apply dev_starts, A|lia|exact U]. }
        destruct U' as (-> & -> & K2). cbn [negb Nat.eqb].
        rewrite vol_firstn by assumption.
        replace (win && negb (TryParseVolumePath win p =? 0)) with true
          by (symmetry; apply andb_true_iff; split; [exact W|apply negb_true_iff, Nat.eqb_neq, V]).
        destruct (sep_at win (TryParseVolumePath win p) p) eqn:S1.
        * rewrite sep_at_firstn, S1 by lia. reflexivity.
        * destruct (sep_at win _ (firstn k p)) eqn:S2; [|reflexivity].
          destruct (Nat.eq_dec k (TryParseVolumePath win p)) as [E|E].
          -- rewrite <- E in S2. apply sep_at_true in S2 as (a & c & b & E1 & E2 & _).
             apply (f_equal (@length Z)) in E1. rewrite app_length in E1. simpl in E1.
             rewrite firstn_length in E1. lia.
          -- rewrite sep_at_firstn in S2 by lia. congruence.
  Qed.

  Lemma root_len_firstn0 : forall p k, root_len win p = 0 ->
    (match p with [] => true | c :: _ => negb (sep c) end) = true -> root_len win (firstn k p) = 0.
  Proof.
    intros [|c r] [|k] R H; try reflexivity. apply negb_true_iff in H.
    rewrite root_len_eq in *. cbn [firstn]. unfold one_sep in *. rewrite H in *. cbn [andb] in *.
    assert (T : forall l, TryParseUncPath win (c :: l) = 0) by (intros l; unfold TryParseUncPath; cbn [starts]; rewrite H; reflexivity).
    rewrite T in *. cbn [Nat.eqb negb] in *.
    destruct (win && negb (TryParseVolumePath win (c :: firstn k r) =? 0)) eqn:V; [|reflexivity].
    apply andb_true_iff in V as [W V]. apply negb_true_iff, Nat.eqb_neq in V. exfalso.
    destruct (vol_dev _ V) as [[A _]|[A _]].
    - change (c :: firstn k r) with (firstn (S k) (c :: r)) in A. apply starts_firstn_imp in A.
      unfold TryParseVolumePath in R. rewrite A in R. cbn [Nat.eqb negb] in R. rewrite andb_true_r in R.
      destruct (sep_at _ _ _) in R; rewrite W in R; discriminate R.
    - cbn [starts] in A. rewrite H in A. discriminate.
  Qed.
End Win.
