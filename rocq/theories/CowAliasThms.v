(** Property C72: arguments that refer to elements of the array itself. *)
From Coq Require Import Arith Lia Bool List.
From Verif Require Import MoveModel MoveThms CowModel CowAliasModel.
Import ListNotations.

Section Thms.
  Variable V : Type.
  Variable dflt : V.
  Notation Done := (Done V).
  Notation Dangling := (Dangling V).

  Lemma elems_of : forall l, elems V (buf_of V dflt l) (length l) = l.
  Proof.
    intros l. apply (list_eq_nth V). intros k. rewrite elems_nth. unfold buf_of. destruct (Nat.ltb_spec k (length l)) as [H|H].
    - symmetry. apply nth_error_nth'. assumption.
    - symmetry. apply nth_error_None. assumption.
  Qed.
  Lemma lock0 : forall shared cap (l : list V), length l <= cap -> LockIncrement shared cap (length l) 0 <> Moved.
  Proof.
    intros shared cap l L. unfold LockIncrement, GetNewCapacity. destruct shared; [discriminate|].
    destruct (Nat.leb_spec (length l + 0) cap); [|lia]. rewrite Nat.ltb_irrefl. discriminate.
  Qed.
  Lemma lock_moves : forall cap size k, LockIncrement false cap size k = if size + k <=? cap then Same else Moved.
  Proof.
    intros cap size k. unfold LockIncrement, GetNewCapacity. destruct (Nat.leb_spec (size + k) cap) as [L|L]; [rewrite Nat.ltb_irrefl; reflexivity|].
    destruct (Nat.leb_spec (size + k) (cap + cap / 2)) as [L2|L2]; match goal with |- context [cap <? ?x] => destruct (Nat.ltb_spec cap x) end; try reflexivity; lia.
  Qed.

  (** Setting an element to another one of the array works in every state. *)
  Theorem C72_SetItem_self : forall shared cap l i p, length l <= cap -> i < length l -> p < length l ->
    SetItemSelf V dflt shared cap l i p = Done (firstn i l ++ [nth p l dflt] ++ skipn (i + 1) l).
  Proof.
    intros shared cap l i p L I P. unfold SetItemSelf. pose proof (lock0 shared cap l L). unfold setnth. rewrite Nat.add_1_r.
    destruct (LockIncrement shared cap (length l) 0); [reflexivity|reflexivity|contradiction].
  Qed.

  (** Full statement for the next two: they work in every state.  Missing: blocks without room
      (freed memory is read), and for Insert elements behind the place of insertion. *)
  Theorem C72_AddMany_self_partial : forall shared cap l p c, 0 < c -> p + c <= length l ->
    (AddManySelf V shared cap l p c = Done (l ++ firstn c (skipn p l)) /\ (shared = true \/ length l + c <= cap)) \/
    (AddManySelf V shared cap l p c = Dangling /\ shared = false /\ cap < length l + c).
  Proof.
    intros shared cap l p c C P. unfold AddManySelf. destruct (Nat.eqb_spec c 0); [lia|]. destruct shared; [left; auto|].
    rewrite lock_moves. destruct (Nat.leb_spec (length l + c) cap); [left|right]; auto.
  Qed.
  Lemma insert_same : forall cap l i p, i <= length l -> p < length l -> length l < cap ->
    InsertSelf V dflt false cap l i p = Done (insert_spec V l i (nth (if i <? p then p - 1 else p) l dflt)).
  Proof.
    intros cap l i p I P C. unfold InsertSelf. rewrite lock_moves. destruct (Nat.leb_spec (length l + 1) cap); [|lia]. f_equal.
    assert (E : forall x, elems V (InsertBody V (fun v => v) true (buf_of V dflt l) (length l) i x) (S (length l)) = insert_spec V l i x).
    { intros x. rewrite C06_Insert_trivial by assumption. rewrite elems_of. reflexivity. }
    unfold InsertBody in E. cbv zeta. destruct (Nat.eqb_spec i (length l)) as [->|NE].
    - destruct (Nat.ltb_spec (length l) p); [lia|]. rewrite E. reflexivity.
    - rewrite E. f_equal. unfold Move, memmove, mv1, put, buf_of.
      destruct (Nat.leb_spec (i + 1) p); cbn [andb].
      + destruct (Nat.ltb_spec i p); [|lia].
        destruct (Nat.ltb_spec p (i + 1 + (length l - 1 - i))); [|lia].
        replace (i + (p - (i + 1))) with (p - 1) by lia.
        destruct (Nat.eqb_spec (p - 1) (length l)); [lia|]. destruct (Nat.eqb_spec (p - 1) (length l - 1)); [lia|reflexivity].
      + destruct (Nat.ltb_spec i p); [lia|]. destruct (Nat.eqb_spec p (length l)); [lia|].
        destruct (Nat.eqb_spec p (length l - 1)) as [->|]; reflexivity.
  Qed.
  (** Exactly when Insert(i, a[p]) does what it says. *)
  Theorem C72_Insert_self_exact : forall shared cap l i p, i <= length l -> p < length l ->
    (InsertSelf V dflt shared cap l i p = Done (insert_spec V l i (nth p l dflt)) <->
     shared = true \/ (length l < cap /\ (p <= i \/ nth (p - 1) l dflt = nth p l dflt))).
  Proof.
    intros shared cap l i p I P. destruct shared.
    - split; [auto|]. intros _. unfold InsertSelf, LockIncrement. f_equal.
      assert (E : elems V (InsertBody V (fun v => v) true (buf_of V dflt l) (length l) i (nth p l dflt)) (S (length l)) = insert_spec V l i (nth p l dflt)).
      { rewrite C06_Insert_trivial by assumption. rewrite elems_of. reflexivity. }
      exact E.
    - destruct (Nat.lt_ge_cases (length l) cap) as [C|C].
      + rewrite insert_same by assumption. destruct (Nat.ltb_spec i p) as [L|L].
        * split.
          -- intros H. right. split; [assumption|]. right. injection H as H. unfold insert_spec in H. apply app_inv_head in H. congruence.
          -- intros [H|[_ [H|H]]]; [discriminate|lia|]. rewrite H. reflexivity.
        * split; [auto|reflexivity].
      + unfold InsertSelf. rewrite lock_moves. destruct (Nat.leb_spec (length l + 1) cap); [lia|].
        split; [discriminate|]. intros [?|[? _]]; [discriminate|lia].
  Qed.
End Thms.

(** a.Insert(0, a[1]) on [10; 20] with room inserts 10; without room it reads freed memory. *)
Theorem C72_Insert_self_refuted :
  InsertSelf nat 0 false 16 [10; 20] 0 1 = Done nat [10; 10; 20] /\ insert_spec nat [10; 20] 0 20 = [20; 10; 20] /\
  InsertSelf nat 0 false 2 [10; 20] 0 1 = Dangling nat.
Proof. vm_compute. auto. Qed.
Theorem C72_AddMany_self_refuted : AddManySelf nat false 16 (repeat 7 16) 0 1 = Dangling nat.
Proof. reflexivity. Qed.

Example ex_insert_self : InsertSelf nat 0 true 2 [10; 20] 0 1 = Done nat [20; 10; 20] /\ InsertSelf nat 0 false 16 [10; 20; 30] 1 1 = Done nat [10; 20; 20; 30].
Proof. vm_compute. auto. Qed.
Example ex_set_self : SetItemSelf nat 0 false 16 [10; 20; 30] 0 2 = Done nat [30; 20; 30].
Proof. vm_compute. auto. Qed.
Example ex_addmany_self : AddManySelf nat false 16 [10; 20; 30] 1 2 = Done nat [10; 20; 30; 20; 30].
Proof. vm_compute. auto. Qed.

Print Assumptions C72_SetItem_self.
Print Assumptions C72_AddMany_self_partial.
Print Assumptions C72_Insert_self_exact.
Print Assumptions C72_Insert_self_refuted.
Print Assumptions C72_AddMany_self_refuted.
