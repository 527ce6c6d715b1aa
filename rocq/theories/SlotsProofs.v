(** Lemmas about lists of slots and the number of slots that hold a given pointer. *)
From Coq Require Import Lia Bool List Arith.
From Verif Require Import Slots.
Import ListNotations.

Lemma set_length : forall A (l : list A) i x, length (set l i x) = length l.
Proof. induction l as [|y l IH]; intros [|i] x; cbn; auto. Qed.
Lemma nth_set_eq : forall A (l : list A) i x, i < length l -> nth_error (set l i x) i = Some x.
Proof. induction l as [|y l IH]; intros [|i] x H; cbn in *; try lia; auto. apply IH. lia. Qed.
Lemma nth_set_neq : forall A (l : list A) i j x, i <> j -> nth_error (set l i x) j = nth_error l j.
Proof. induction l as [|y l IH]; intros [|i] [|j] x H; cbn; auto; try lia. Qed.
Lemma set_set : forall A (l : list A) i x y, set (set l i x) i y = set l i y.
Proof. induction l as [|z l IH]; intros [|i] x y; cbn; auto. rewrite IH. reflexivity. Qed.
Lemma set_swap : forall A (l : list A) i j x y, i <> j -> set (set l i x) j y = set (set l j y) i x.
Proof. induction l as [|z l IH]; intros [|i] [|j] x y N; cbn; try congruence. rewrite IH by congruence. reflexivity. Qed.
Lemma get_set_eq : forall l i p, i < length l -> get (set l i p) i = p.
Proof. intros l i p H. unfold get. rewrite nth_set_eq by exact H. reflexivity. Qed.
Lemma get_set_neq : forall l i j p, i <> j -> get (set l i p) j = get l j.
Proof. intros l i j p H. unfold get. rewrite nth_set_neq by exact H. reflexivity. Qed.
Lemma set_get : forall l i, set l i (get l i) = l.
Proof.
  induction l as [|y l IH]; intros [|i]; cbn; try reflexivity.
  change (get (y :: l) (S i)) with (get l i). rewrite IH. reflexivity.
Qed.

(** 1 if the pointer is [o]. *)
Definition pt (p : option nat) (o : nat) : nat := match p with Some x => if Nat.eqb x o then 1 else 0 | None => 0 end.
Fixpoint slots (l : list (option nat)) (o : nat) : nat := match l with [] => 0 | p :: r => pt p o + slots r o end.
Fixpoint occ (l : list nat) (o : nat) : nat := match l with [] => 0 | x :: r => (if Nat.eqb x o then 1 else 0) + occ r o end.

Lemma slots_set : forall l i p o, i < length l -> slots (set l i p) o + pt (get l i) o = slots l o + pt p o.
Proof.
  induction l as [|y l IH]; intros [|i] p o H; cbn [length] in H; try lia.
  - cbn. lia.
  - change (get (y :: l) (S i)) with (get l i). specialize (IH i p o). cbn. lia.
Qed.
Lemma slots_get : forall l i o, get l i = Some o -> 0 < slots l o.
Proof.
  induction l as [|y l IH]; intros [|i] o H; try discriminate H.
  - cbn in H. subst y. cbn. rewrite Nat.eqb_refl. lia.
  - change (get (y :: l) (S i)) with (get l i) in H. apply IH in H. cbn. lia.
Qed.
Lemma slots_repeat : forall n o, slots (repeat None n) o = 0.
Proof. induction n; intros; cbn; auto. Qed.
Lemma slots_In : forall l o, 0 < slots l o <-> In (Some o) l.
Proof.
  induction l as [|p l IH]; intros o; cbn; [lia|]. specialize (IH o). split.
  - intros H. destruct p as [x|]; cbn in *; [destruct (Nat.eqb_spec x o); [left; congruence|right; apply IH; lia]|right; apply IH; lia].
  - intros [->|H]; [cbn; rewrite Nat.eqb_refl; lia|]. apply IH in H. lia.
Qed.
Lemma occ_del : forall l k x o, nth_error l k = Some x -> occ l o = occ (del l k) o + pt (Some x) o.
Proof.
  induction l as [|y l IH]; intros [|k] x o H; cbn in *; try discriminate.
  - injection H as ->. lia.
  - rewrite (IH k x o H). cbn. lia.
Qed.
Lemma occ_In : forall l o, 0 < occ l o <-> In o l.
Proof.
  induction l as [|x l IH]; intros o; cbn; [lia|]. specialize (IH o). destruct (Nat.eqb_spec x o); [intuition lia|].
  split; [intros H; right; apply IH; lia|]. intros [|H]; [congruence|]. apply IH in H. lia.
Qed.
Lemma occ_NoDup : forall l, (forall o, occ l o <= 1) -> NoDup l.
Proof.
  induction l as [|x l IH]; intros H; constructor.
  - intros I. apply occ_In in I. specialize (H x). cbn in H. rewrite Nat.eqb_refl in H. lia.
  - apply IH. intros o. specialize (H o). cbn in H. lia.
Qed.
Lemma occ_notin : forall l o, ~ In o l -> occ l o = 0.
Proof. intros l o H. destruct (occ l o) eqn:E; [reflexivity|]. exfalso. apply H, occ_In. lia. Qed.
Lemma NoDup_occ : forall l o, NoDup l -> In o l -> occ l o = 1.
Proof.
  induction l as [|x l IH]; intros o N I; [destruct I|]. inversion N; subst. cbn. destruct I as [->|I].
  - rewrite Nat.eqb_refl, occ_notin by assumption. reflexivity.
  - destruct (Nat.eqb_spec x o) as [->|]; [contradiction|]. apply IH; assumption.
Qed.

Lemma eqp_iff : forall p q, eqp p q = true <-> p = q.
Proof.
  intros [x|] [y|]; cbn; split; intros H; try discriminate; try reflexivity.
  - apply Nat.eqb_eq in H. congruence.
  - injection H as ->. apply Nat.eqb_refl.
Qed.
Lemma pt_none : forall o, pt None o = 0. Proof. reflexivity. Qed.
Lemma occ_app : forall a b o, occ (a ++ b) o = occ a o + occ b o.
Proof. induction a as [|x a IH]; intros b o; cbn; auto. rewrite IH. lia. Qed.
Definition tok (p : option nat) : list nat := match p with Some o => [o] | None => [] end.
Lemma occ_tok : forall p o, occ (tok p) o = pt p o.
Proof. intros [x|] o; cbn; lia. Qed.
