(** Sums over a list of threads, used by the models of concurrent code. *)
From Coq Require Import Lia List Arith.
From Verif Require Import Slots SlotsProofs.
Import ListNotations.

Fixpoint suml {A} (f : A -> nat) (l : list A) : nat := match l with [] => 0 | x :: r => f x + suml f r end.
Lemma suml_set : forall A (f : A -> nat) l i x y, nth_error l i = Some x -> suml f (set l i y) + f x = suml f l + f y.
Proof. intros A f l. induction l as [|z l IH]; intros [|i] x y H; cbn in *; try discriminate; [injection H as ->; lia|]. specialize (IH i x y H). lia. Qed.
Lemma suml_ge : forall A (f : A -> nat) l i x, nth_error l i = Some x -> f x <= suml f l.
Proof. intros A f l. induction l as [|z l IH]; intros [|i] x H; cbn in *; try discriminate; [injection H as ->; lia|]. specialize (IH i x H). lia. Qed.
Lemma suml_two : forall A (f : A -> nat) l i j x y, i <> j -> nth_error l i = Some x -> nth_error l j = Some y -> f x + f y <= suml f l.
Proof.
  intros A f l. induction l as [|z l IH]; intros [|i] [|j] x y N H K; cbn in *; try discriminate; try congruence.
  - injection H as ->. pose proof (suml_ge _ f l j y K). lia.
  - injection K as ->. pose proof (suml_ge _ f l i x H). lia.
  - specialize (IH i j x y ltac:(congruence) H K). lia.
Qed.
Lemma suml_repeat : forall A (f : A -> nat) x n, f x = 0 -> suml f (repeat x n) = 0.
Proof. intros A f x n H. induction n; cbn; lia. Qed.
Lemma suml_0 : forall A (f : A -> nat) l, suml f l = 0 -> forall i x, nth_error l i = Some x -> f x = 0.
Proof. intros A f l H i x N. pose proof (suml_ge _ f l i x N). lia. Qed.
Lemma suml_ext : forall A (f g : A -> nat) l, (forall x, f x = g x) -> suml f l = suml g l.
Proof. intros A f g l H. induction l; cbn; rewrite ?H; auto. Qed.
Lemma suml_pos : forall A (f : A -> nat) l, 0 < suml f l -> exists i x, nth_error l i = Some x /\ 0 < f x.
Proof.
  intros A f l. induction l as [|z l IH]; cbn; intros H; [lia|]. destruct (f z) eqn:E.
  - destruct (IH H) as (i & x & N & P). exists (S i), x. auto.
  - exists 0, z. cbn. split; [reflexivity|lia].
Qed.
Lemma nth_set : forall A (l : list A) i j y z, nth_error (set l i y) j = Some z -> (i = j /\ z = y) \/ (i <> j /\ nth_error l j = Some z).
Proof.
  intros A l i j y z H. destruct (Nat.eq_dec i j) as [->|N].
  - assert (j < length l).
    { assert (j < length (set l j y)) by (apply nth_error_Some; congruence). rewrite set_length in *. assumption. }
    rewrite nth_set_eq in H by assumption. injection H as <-. auto.
  - rewrite nth_set_neq in H by assumption. auto.
Qed.
