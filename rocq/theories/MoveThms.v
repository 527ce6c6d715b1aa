(** Property C06: moving elements inside one buffer. *)
From Coq Require Import Arith Lia Bool List.
From Verif Require Import MoveModel.
Import ListNotations.

Section Thms.
  Variable V : Type.
  Variable moved : V -> V.
  Notation buf := (buf V).
  Notation put := (put V).
  Notation mv1 := (mv1 V moved).
  Notation Move := (Move V moved).
  Notation move_up := (move_up V moved).
  Notation move_down := (move_down V moved).
  Notation InsertBody := (InsertBody V moved).
  Notation RemoveBody := (RemoveBody V moved).
  Notation elems := (elems V).

  Ltac bcase := repeat match goal with
    | |- context [?a =? ?b] => let H := fresh "B" in destruct (Nat.eqb_spec a b) as [H|H]
    | |- context [?a <=? ?b] => let H := fresh "B" in destruct (Nat.leb_spec a b) as [H|H]
    | |- context [?a <? ?b] => let H := fresh "B" in destruct (Nat.ltb_spec a b) as [H|H]
    end; cbn [andb].

  (** What a correct move of [n] elements does, said position by position: the destination
      receives the old source, the source outside the destination is left in a moved-from
      state, everything else is untouched. *)
  Definition MovedTo (a b : buf) (dst first n : nat) : Prop :=
    (forall k, k < n -> b (dst + k) = a (first + k)) /\
    (forall k, ~ (dst <= k < dst + n) -> ~ (first <= k < first + n) -> b k = a k) /\
    (forall k, first <= k < first + n -> ~ (dst <= k < dst + n) -> b k = a k \/ b k = moved (a k)).

  Definition disjoint (dst first n : nat) : Prop := dst + n <= first \/ first + n <= dst.

  Lemma move_up_disjoint : forall n m dst first, disjoint dst first n -> forall k,
    move_up m dst first n k =
      if (dst <=? k) && (k <? dst + n) then m (first + (k - dst))
      else if (first <=? k) && (k <? first + n) then moved (m k) else m k.
  Proof.
    induction n as [|n IH]; intros m dst first D k; cbn [MoveModel.move_up].
    - bcase; try lia; reflexivity.
    - rewrite IH by (unfold disjoint in *; lia). unfold disjoint, MoveModel.mv1, MoveModel.put in *.
      bcase; try lia; try reflexivity; try (f_equal; lia); try (do 2 f_equal; lia).
  Qed.

  Lemma move_down_disjoint : forall n m dst first, disjoint dst first n -> forall k,
    move_down m dst first n k =
      if (dst <=? k) && (k <? dst + n) then m (first + (k - dst))
      else if (first <=? k) && (k <? first + n) then moved (m k) else m k.
  Proof.
    induction n as [|n IH]; intros m dst first D k; cbn [MoveModel.move_down].
    - bcase; try lia; reflexivity.
    - rewrite IH by (unfold disjoint in *; lia). unfold disjoint, MoveModel.mv1, MoveModel.put in *.
      bcase; try lia; try reflexivity; try (f_equal; lia); try (do 2 f_equal; lia).
  Qed.

  (** Trivially copyable elements: every move, overlapping or not, is correct. *)
  Theorem C06_Move_trivial : forall m dst first last, first <= last ->
    MovedTo m (Move true m dst first last) dst first (last - first).
  Proof.
    intros m dst first last L. unfold MovedTo, MoveModel.Move, MoveModel.memmove. repeat split; intros k H; bcase; try lia; auto.
    f_equal; lia.
  Qed.

  (** Elements with their own move: correct when the ranges do not overlap. *)
  Theorem C06_Move_disjoint_partial : forall trivial m dst first last,
    first <= last -> disjoint dst first (last - first) ->
    MovedTo m (Move trivial m dst first last) dst first (last - first).
  Proof.
    intros [|] m dst first last L D; [apply C06_Move_trivial; assumption|].
    unfold MoveModel.Move. bcase; unfold MovedTo; repeat split; intros k H;
      rewrite ?move_down_disjoint, ?move_up_disjoint by assumption;
      try (unfold disjoint in D); bcase; try lia; auto; try (f_equal; lia).
  Qed.

  (** Overlapping ranges: what the loops really do when a move is a copy.  The forward loop
      repeats the first [d] elements, the backward loop the last [d]. *)
  Lemma move_up_overlap : (forall v, moved v = v) -> forall n j m0 m dst first,
    first < dst ->
    (forall k, k < j -> m (dst + k) = m0 (first + k mod (dst - first))) ->
    (forall k, ~ (dst <= k < dst + j) -> m k = m0 k) ->
    forall k, k < j + n ->
      move_up m (dst + j) (first + j) n (dst + k) = m0 (first + k mod (dst - first)).
  Proof.
    intros ID. induction n as [|n IH]; intros j m0 m dst first D H1 H2 k Hk; cbn [MoveModel.move_up].
    - apply H1. lia.
    - replace (S (dst + j)) with (dst + S j) by lia. replace (S (first + j)) with (first + S j) by lia.
      apply (IH (S j) m0 _ dst first D); [| |lia]; clear k Hk; intros k Hk;
        unfold MoveModel.mv1, MoveModel.put; rewrite ID.
      + bcase.
        * assert (k = j) by lia. subst k. destruct (Nat.lt_ge_cases j (dst - first)) as [Lj|Lj].
          -- rewrite Nat.mod_small by lia. apply H2. lia.
          -- replace (first + j) with (dst + (j - (dst - first))) by lia. rewrite H1 by lia. do 2 f_equal.
             replace j with ((j - (dst - first)) + 1 * (dst - first)) at 2 by lia.
             rewrite Nat.mod_add by lia. reflexivity.
        * replace (first + j) with (dst + k) by lia. apply H1; lia.
        * apply H1; lia.
      + bcase; try lia; subst; apply H2; lia.
  Qed.

  Lemma move_down_overlap : (forall v, moved v = v) -> forall n j m0 m dst first,
    dst < first ->
    (forall k, k < j -> m (dst + n + k) = m0 (first + (n + j - 1) - (j - 1 - k) mod (first - dst))) ->
    (forall k, ~ (dst + n <= k < dst + n + j) -> m k = m0 k) ->
    forall k, k < n + j ->
      move_down m dst first n (dst + k) = m0 (first + (n + j - 1) - (n + j - 1 - k) mod (first - dst)).
  Proof.
    intros ID. induction n as [|n IH]; intros j m0 m dst first D H1 H2 k Hk; cbn [MoveModel.move_down].
    - rewrite Nat.add_0_r in H1. rewrite H1 by lia. f_equal. 
    - replace (S n + j) with (n + S j) by lia.
      apply (IH (S j) m0 _ dst first D); [| |lia]; clear k Hk; intros k Hk;
        unfold MoveModel.mv1, MoveModel.put; rewrite ID.
      + replace (S j - 1 - k) with (j - k) by lia. replace (n + S j - 1) with (n + j) by lia. bcase.
        * assert (k = 0) by lia. subst k. replace (j - 0) with j by lia.
          destruct (Nat.lt_ge_cases j (first - dst)) as [Lj|Lj].
          -- rewrite Nat.mod_small by lia. rewrite H2 by lia. f_equal; lia.
          -- pose proof (Nat.mod_le j (first - dst)). pose proof (Nat.mod_upper_bound j (first - dst)).
             replace (first + n) with (dst + S n + (first - dst - 1)) by lia. rewrite H1 by lia. f_equal.
             replace (j - 1 - (first - dst - 1)) with (j - (first - dst)) by lia.
             assert (E : j mod (first - dst) = (j - (first - dst)) mod (first - dst)).
             { replace j with ((j - (first - dst)) + 1 * (first - dst)) at 1 by lia.
               rewrite Nat.mod_add by lia. reflexivity. }
             rewrite E in *. lia.
        * replace (first + n) with (dst + S n + (k - 1)) by lia. rewrite H1 by lia. f_equal.
          replace (j - 1 - (k - 1)) with (j - k) by lia. lia.
        * replace (dst + n + k) with (dst + S n + (k - 1)) by lia. rewrite H1 by lia.
          replace (j - 1 - (k - 1)) with (j - k) by lia. f_equal. lia.
      + bcase; try lia; subst; apply H2; lia.
  Qed.

  (** For elements with their own move every overlapping move by [d] between 1 and the
      count less one goes wrong: with distinct elements whose move is a copy, some
      destination does not receive its source. *)
  Theorem C06_Move_overlap_refuted : (forall v, moved v = v) -> forall m dst first last,
    dst <> first -> first <= last -> ~ disjoint dst first (last - first) ->
    (forall i j, m i = m j -> i = j) ->
    ~ MovedTo m (Move false m dst first last) dst first (last - first).
  Proof.
    intros ID m dst first last NE L ND INJ [H _]. unfold disjoint in ND. unfold MoveModel.Move in H.
    assert (C : (dst <? first) && (dst <? last) = (dst <? first)) by (bcase; lia || reflexivity).
    rewrite C in H. revert H. bcase; try contradiction; intros H.
    - (* backward *)
      set (n := last - first) in *. set (d := first - dst).
      specialize (H (n - 1 - d)).
      pose proof (move_down_overlap ID n 0 m m dst first ltac:(lia) ltac:(intros; lia) ltac:(auto) (n - 1 - d) ltac:(lia)) as E.
      fold d in E. rewrite H in E by lia. apply INJ in E.
      replace (n + 0 - 1 - (n - 1 - d)) with d in E by lia. rewrite Nat.mod_same in E by lia. lia.
    - set (n := last - first) in *. set (d := dst - first).
      specialize (H d).
      pose proof (move_up_overlap ID n 0 m m dst first ltac:(lia) ltac:(intros; lia) ltac:(auto) d ltac:(lia)) as E.
      rewrite !Nat.add_0_r in E. fold d in E. rewrite H in E by lia. apply INJ in E.
      rewrite Nat.mod_same in E by lia. lia.
  Qed.

  (** Lists: the specification of insertion and removal. *)
  Definition insert_spec (l : list V) (i : nat) (x : V) : list V := firstn i l ++ x :: skipn i l.
  Definition remove_spec (l : list V) (i cnt : nat) : list V := firstn i l ++ skipn (i + cnt) l.

  Lemma elems_ext : forall (m1 m2 : buf) n, (forall k, k < n -> m1 k = m2 k) -> elems m1 n = elems m2 n.
  Proof. intros. unfold MoveModel.elems. apply map_ext_in. intros k K. apply in_seq in K. apply H. lia. Qed.
  Lemma elems_length : forall m n, length (elems m n) = n.
  Proof. intros. unfold MoveModel.elems. rewrite map_length, seq_length. reflexivity. Qed.
  Lemma elems_nth : forall m n k, nth_error (elems m n) k = if k <? n then Some (m k) else None.
  Proof.
    intros. destruct (Nat.ltb_spec k n).
    - unfold MoveModel.elems. rewrite nth_error_map.
      replace (nth_error (seq 0 n) k) with (Some k); [reflexivity|]. symmetry.
      rewrite (nth_error_nth' (seq 0 n) 0) by (rewrite seq_length; lia). rewrite seq_nth by lia. reflexivity.
    - apply nth_error_None. rewrite elems_length. lia.
  Qed.
  Lemma list_eq_nth : forall (a b : list V), (forall k, nth_error a k = nth_error b k) -> a = b.
  Proof.
    induction a as [|x a IH]; intros [|y b] H; try reflexivity; try (specialize (H 0); discriminate).
    f_equal; [specialize (H 0); injection H; auto|]. apply IH. intros k. apply (H (S k)).
  Qed.
  Lemma nth_firstn : forall (l : list V) i k, nth_error (firstn i l) k = if k <? i then nth_error l k else None.
  Proof.
    induction l as [|x l IH]; intros [|i] [|k]; cbn; try reflexivity.
    - match goal with |- _ = (if ?b then _ else _) => destruct b end; reflexivity.
    - rewrite IH. reflexivity.
  Qed.
  Lemma nth_skipn : forall (l : list V) i k, nth_error (skipn i l) k = nth_error l (i + k).
  Proof. induction l as [|x l IH]; intros [|i] k; cbn; try reflexivity; [destruct k; reflexivity|apply IH]. Qed.
  Lemma nth_app : forall (a b : list V) k, nth_error (a ++ b) k = if k <? length a then nth_error a k else nth_error b (k - length a).
  Proof.
    intros. destruct (Nat.ltb_spec k (length a)); [apply nth_error_app1|apply nth_error_app2]; assumption.
  Qed.

  Lemma nth_insert : forall l i x k, i <= length l -> nth_error (insert_spec l i x) k =
    if k <? i then nth_error l k else if k =? i then Some x else nth_error l (k - 1).
  Proof.
    intros. unfold insert_spec. rewrite nth_app, firstn_length_le by assumption. rewrite nth_firstn.
    destruct (Nat.ltb_spec k i); [reflexivity|]. destruct (Nat.eqb_spec k i) as [->|].
    - rewrite Nat.sub_diag. reflexivity.
    - destruct (k - i) as [|j] eqn:E; [lia|]. cbn. rewrite nth_skipn. f_equal. lia.
  Qed.
  Lemma nth_remove : forall l i c k, i <= length l -> nth_error (remove_spec l i c) k =
    if k <? i then nth_error l k else nth_error l (k + c).
  Proof.
    intros. unfold remove_spec. rewrite nth_app, firstn_length_le by assumption. rewrite nth_firstn, nth_skipn.
    destruct (Nat.ltb_spec k i); [reflexivity|]. f_equal. lia.
  Qed.

  (** Insert in a list of trivially copyable elements. *)
  Theorem C06_Insert_trivial : forall m size i x, i <= size ->
    elems (InsertBody true m size i x) (S size) = insert_spec (elems m size) i x.
  Proof.
    intros m size i x L. apply list_eq_nth. intros k.
    rewrite nth_insert by (rewrite elems_length; lia). rewrite !elems_nth.
    unfold MoveModel.InsertBody, MoveModel.Move, MoveModel.memmove, MoveModel.mv1, MoveModel.put.
    bcase; try lia; try reflexivity; try (f_equal; f_equal; lia); subst; try lia.
  Qed.

  (** Remove from a list of trivially copyable elements. *)
  Theorem C06_Remove_trivial : forall m size i cnt, i + cnt <= size ->
    elems (RemoveBody true m size i cnt) (size - cnt) = remove_spec (elems m size) i cnt.
  Proof.
    intros m size i cnt L. apply list_eq_nth. intros k.
    rewrite nth_remove by (rewrite elems_length; lia). rewrite !elems_nth.
    unfold MoveModel.RemoveBody, MoveModel.Move, MoveModel.memmove.
    bcase; try lia; try reflexivity; try (f_equal; f_equal; lia).
  Qed.

  (** For elements with their own move: Insert is right at the end and at the last
      two positions, Remove when at least as many elements leave as follow them. *)
  Theorem C06_Insert_nontrivial_partial : forall m size i x, i <= size -> size <= i + 2 ->
    elems (InsertBody false m size i x) (S size) = insert_spec (elems m size) i x.
  Proof.
    intros m size i x L L2. apply list_eq_nth. intros k.
    rewrite nth_insert by (rewrite elems_length; lia). rewrite !elems_nth.
    assert (C : size = i \/ size = S i \/ size = S (S i)) by lia.
    destruct C as [-> | [-> | ->]]; unfold MoveModel.InsertBody, MoveModel.Move;
      repeat match goal with |- context [S ?n - 1] => replace (S n - 1) with n by lia end;
      repeat match goal with |- context [S ?n - ?n] => replace (S n - n) with 1 by lia
                        | |- context [?n - ?n] => replace (n - n) with 0 by lia end;
      cbn [MoveModel.move_up MoveModel.move_down]; unfold MoveModel.mv1, MoveModel.put;
      bcase; try lia; cbn [MoveModel.move_up MoveModel.move_down]; unfold MoveModel.mv1, MoveModel.put;
      bcase; try lia; try reflexivity; try (f_equal; f_equal; lia).
  Qed.

  Theorem C06_Remove_nontrivial_partial : forall m size i cnt, i + cnt <= size -> size <= i + cnt + cnt ->
    elems (RemoveBody false m size i cnt) (size - cnt) = remove_spec (elems m size) i cnt.
  Proof.
    intros m size i cnt L L2. apply list_eq_nth. intros k.
    rewrite nth_remove by (rewrite elems_length; lia). rewrite !elems_nth.
    unfold MoveModel.RemoveBody, MoveModel.Move.
    destruct (Nat.eqb_spec i (i + cnt)).
    - assert (cnt = 0) by lia. assert (size = i) by lia. subst. bcase; try lia; try reflexivity; f_equal; f_equal; lia.
    - destruct (Nat.ltb_spec i (i + cnt)); [|lia]. destruct (Nat.ltb_spec i size); [cbn [andb]|lia].
      rewrite move_down_disjoint by (unfold disjoint; lia).
      bcase; try lia; try reflexivity; f_equal; f_equal; lia.
  Qed.
End Thms.

(** Inserting into, and removing from, the middle of an array of elements with their own
    move loses elements: for elements whose move is a copy (like a plain struct with a
    user-written copy constructor) and for elements whose source is emptied. *)
Theorem C06_Insert_refuted : forall moved : nat -> nat, exists m size i x, i <= size /\
  elems nat (InsertBody nat moved false m size i x) (S size)
  <> insert_spec nat (elems nat m size) i x.
Proof.
  intros moved. exists (fun k => k), 4, 0, 9. split; [lia|].
  vm_compute. intros H. injection H. discriminate.
Qed.

Theorem C06_Remove_refuted : forall moved : nat -> nat, exists m size i cnt, i + cnt <= size /\
  elems nat (RemoveBody nat moved false m size i cnt) (size - cnt)
  <> remove_spec nat (elems nat m size) i cnt.
Proof.
  intros moved. exists (fun k => k), 4, 0, 1. split; [lia|].
  vm_compute. intros H. injection H. intros. congruence.
Qed.

Print Assumptions C06_Move_trivial.
Print Assumptions C06_Move_disjoint_partial.
Print Assumptions C06_Move_overlap_refuted.
Print Assumptions C06_Insert_trivial.
Print Assumptions C06_Remove_trivial.
Print Assumptions C06_Insert_nontrivial_partial.
Print Assumptions C06_Remove_nontrivial_partial.
Print Assumptions C06_Insert_refuted.
Print Assumptions C06_Remove_refuted.

(** Concrete cases. *)
Example ex_insert_trivial :
  elems nat (InsertBody nat (fun _ => 0) true (fun k => 10 * k) 4 1 7) 5 = [0; 7; 10; 20; 30].
Proof. reflexivity. Qed.
(** The same insertion with emptied sources, and with copies, through the element loop. *)
Example ex_insert_nontrivial :
  elems nat (InsertBody nat (fun _ => 0) false (fun k => 10 * k) 4 1 7) 5 = [0; 7; 0; 10; 30]
  /\ elems nat (InsertBody nat (fun v => v) false (fun k => 10 * k) 4 1 7) 5 = [0; 7; 10; 10; 30].
Proof. split; reflexivity. Qed.
Example ex_remove_nontrivial :
  elems nat (RemoveBody nat (fun v => v) false (fun k => 10 * k) 4 0 1) 3 = [30; 30; 30].
Proof. reflexivity. Qed.
Example ex_disjoint : disjoint 5 1 3 /\
  elems nat (Move nat (fun _ => 0) false (fun k => 10 * k) 5 1 4) 8 = [0; 0; 0; 0; 40; 10; 20; 30].
Proof. split; [unfold disjoint; lia|reflexivity]. Qed.
