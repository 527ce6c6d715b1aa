(** C151: two pointers are compared and exchanged together. *)
From Coq Require Import ZArith Lia Bool List Arith.
From Verif Require Import Slots TwoModel.
Import ListNotations.
Local Open Scope Z_scope.

Definition words (bits : Z) (p : Z * Z) : Prop := 0 <= fst p < 2 ^ bits /\ 0 <= snd p < 2 ^ bits.

(** What a comparison and exchange of two words is. *)
Definition exchanges (Two : Z * Z -> Z * Z -> Z * Z -> answer) (bits : Z) : Prop :=
  forall d e c, words bits d -> words bits e -> words bits c ->
  exists ok d', Two d e c = (ok, d', d) /\ (ok = true <-> d = c) /\
    (ok = true -> d' = e) /\ (ok = false -> d' = d).

Lemma store_load p : words 32 p -> store64 (load64 p) = p.
Proof.
  destruct p as [a b]; unfold words, store64, load64; cbn [fst snd].
  change (2 ^ 32) with 4294967296. change (2 ^ 63) with 9223372036854775808.
  change (2 ^ 64) with 18446744073709551616. intros [Ha Hb].
  assert (forall k, (a + b * 4294967296 - k * 18446744073709551616) mod 4294967296 = a) as M.
  { intros k. replace (a + b * 4294967296 - k * 18446744073709551616)
      with (a + (b - k * 4294967296) * 4294967296) by lia.
    rewrite Z.mod_add by lia. apply Z.mod_small; lia. }
  assert (forall k, ((a + b * 4294967296 - k * 18446744073709551616) / 4294967296) mod 4294967296 = b) as D.
  { intros k. replace (a + b * 4294967296 - k * 18446744073709551616)
      with (a + (b - k * 4294967296) * 4294967296) by lia.
    rewrite Z.div_add by lia. rewrite (Z.div_small a) by lia.
    replace (0 + (b - k * 4294967296)) with (b + (- k) * 4294967296) by lia.
    rewrite Z.mod_add by lia. apply Z.mod_small; lia. }
  destruct (_ <? _).
  - specialize (M 0); specialize (D 0). rewrite Z.mul_0_l, Z.sub_0_r in M, D. now rewrite M, D.
  - specialize (M 1); specialize (D 1). rewrite Z.mul_1_l in M, D. now rewrite M, D.
Qed.

Theorem C151_32 : exchanges Two32 32.
Proof.
  intros d e c Hd He Hc. unfold Two32, CompareExchange64.
  destruct (Z.eqb_spec (load64 d) (load64 c)) as [E | E].
  - exists true, e. rewrite !store_load by assumption. repeat split; try easy.
    intros _. rewrite <- (store_load d), <- (store_load c) by assumption. now rewrite E.
  - exists false, d. rewrite !store_load by assumption. repeat split; try easy.
    intros ->. now elim E.
Qed.
Print Assumptions C151_32.

Lemma pair_eqb_spec a b : reflect (a = b) (pair_eqb a b).
Proof.
  destruct a as [a1 a2], b as [b1 b2]; unfold pair_eqb; cbn.
  destruct (Z.eqb_spec a1 b1), (Z.eqb_spec a2 b2); cbn; constructor; congruence.
Qed.

Theorem C151_64 : exchanges Two64 64.
Proof.
  intros d [e1 e2] c Hd He Hc. unfold Two64, CompareExchange128; cbn.
  destruct (pair_eqb_spec d c) as [E | E].
  - exists true, (e1, e2). now repeat split.
  - exists false, d. repeat split; easy.
Qed.
Print Assumptions C151_64.

(** A success of 32-bit words whose 64-bit value is negative, and a failure in the upper word. *)
Example ex_success : Two32 (7, 4294967295) (8, 1) (7, 4294967295) = (true, (8, 1), (7, 4294967295)).
Proof. reflexivity. Qed.
Example ex_failure : Two32 (7, 4294967295) (8, 1) (7, 4294967294) = (false, (7, 4294967295), (7, 4294967295)).
Proof. reflexivity. Qed.
Example ex_success_64 : Two64 (7, 9) (8, 1) (7, 9) = (true, (8, 1), (7, 9)).
Proof. reflexivity. Qed.

(** * Competing updates *)
Definition updates (bits : Z) (f : Z * Z -> Z * Z) : Prop := forall p, words bits p -> words bits (f p).
(** The updates of thread [i], in the order in which they took effect. *)
Definition of_thread (i : nat) (l : list (nat * (Z * Z -> Z * Z))) : list (Z * Z -> Z * Z) :=
  map snd (filter (fun x => Nat.eqb (fst x) i) l).
Arguments of_thread : simpl never.
Definition applied (l : list (nat * (Z * Z -> Z * Z))) (p : Z * Z) : Z * Z :=
  fold_left (fun p x => snd x p) l p.

Lemma set_same {A} (l : list A) i x y : nth_error l i = Some y -> nth_error (set l i x) i = Some x.
Proof. revert i; induction l; intros [|i]; cbn; try easy. apply IHl. Qed.
Lemma set_other {A} (l : list A) i j x : i <> j -> nth_error (set l i x) j = nth_error l j.
Proof. revert i j; induction l; intros [|i] [|j]; cbn; try easy. intros H. apply IHl. lia. Qed.

Section Compete.
Variable Two : Z * Z -> Z * Z -> Z * Z -> answer.
Variable bits : Z.
Hypothesis X : exchanges Two bits.
Variable p0 : Z * Z.
Variable progs : list (list (Z * Z -> Z * Z)).

Definition thr_ok (s : st) (i : nat) (t : thr) : Prop :=
  nth_error progs i = Some (of_thread i (log s) ++ todo t) /\ Forall (updates bits) (todo t) /\
  match comparand t with
  | None => (missed t <= length (log s))%nat
  | Some c => words bits c /\ (missed t <= S (length (log s)))%nat /\ (c <> dst s -> (missed t <= length (log s))%nat)
  end.
Definition inv (s : st) : Prop :=
  words bits (dst s) /\ dst s = applied (log s) p0 /\
  forall i t, nth_error (thrs s) i = Some t -> thr_ok s i t.

Lemma of_thread_app i l x : of_thread i (l ++ [x]) = of_thread i l ++ (if Nat.eqb (fst x) i then [snd x] else []).
Proof.
  unfold of_thread. rewrite filter_app, map_app. cbn. now destruct (Nat.eqb (fst x) i).
Qed.

Lemma inv_step i torn s : words bits torn -> inv s -> inv (step Two i torn s).
Proof.
  intros Ht I. pose proof I as (Wd & Ed & Hs). unfold step.
  destruct (nth_error (thrs s) i) as [[[|f rest] [c|] n]|] eqn:Ei; try exact I.
  - destruct (Hs _ _ Ei) as (Hp & Hf & Hw & Hm & Hm'). cbn in *.
    inversion Hf as [|? ? Uf Urest]; subst.
    destruct (X (dst s) (f c) c Wd (Uf c Hw) Hw) as (ok & d' & -> & Hok & Hd & Hd').
    destruct ok.
    + rewrite (Hd eq_refl). destruct Hok as [Hok _]. specialize (Hok eq_refl). subst c.
      split; [now apply Uf|split].
      * cbn. unfold applied in *. rewrite fold_left_app. cbn. now rewrite <- Ed.
      * cbn. intros j t Hj. destruct (Nat.eq_dec i j) as [<-|N].
        -- rewrite (set_same _ _ _ _ Ei) in Hj. injection Hj as <-.
           unfold thr_ok; cbn. rewrite of_thread_app, app_length; cbn. rewrite Nat.eqb_refl, <- app_assoc; cbn.
           repeat split; auto. lia.
        -- rewrite set_other in Hj by assumption. destruct (Hs _ _ Hj) as (A & B & C).
           unfold thr_ok; cbn. rewrite of_thread_app, app_length; cbn.
           destruct (Nat.eqb_spec i j); [easy|]. rewrite app_nil_r. repeat split; auto.
           destruct (comparand t); intuition lia.
    + rewrite (Hd' eq_refl). destruct Hok as [_ Hok].
      split; [exact Wd|split; [exact Ed|]]. cbn. intros j t Hj.
      destruct (Nat.eq_dec i j) as [<-|N].
      * rewrite (set_same _ _ _ _ Ei) in Hj. injection Hj as <-.
        assert (c <> dst s) as Nc. { intros ->. now specialize (Hok eq_refl). }
        specialize (Hm' Nc). unfold thr_ok; cbn. repeat split; auto; try (apply Wd); try lia. congruence.
      * rewrite set_other in Hj by assumption. exact (Hs _ _ Hj).
  - destruct (Hs _ _ Ei) as (Hp & Hf & Hm). cbn in *.
    split; [exact Wd|split; [exact Ed|]]. cbn. intros j t Hj.
    destruct (Nat.eq_dec i j) as [<-|N].
    + rewrite (set_same _ _ _ _ Ei) in Hj. injection Hj as <-.
      unfold thr_ok; cbn. repeat split; auto; try (apply Ht); lia.
    + rewrite set_other in Hj by assumption. exact (Hs _ _ Hj).
Qed.

Lemma inv_run l : Forall (fun x => words bits (snd x)) l -> forall s, inv s -> inv (run Two l s).
Proof.
  unfold run. induction 1 as [|[i t] l Hx Hl IH]; cbn; auto. intros s I. apply IH. now apply inv_step.
Qed.

Lemma inv_init : words bits p0 -> Forall (Forall (updates bits)) progs -> inv (init p0 progs).
Proof.
  intros W F. split; [exact W|split; [reflexivity|]]. cbn. intros i t Hi.
  rewrite nth_error_map in Hi. destruct (nth_error progs i) as [q|] eqn:E; [|easy].
  injection Hi as <-. unfold thr_ok; cbn. repeat split; auto.
  rewrite Forall_forall in F. apply F. now apply nth_error_In in E.
Qed.
End Compete.

(** Both forms. *)
Definition form (Two : Z * Z -> Z * Z -> Z * Z -> answer) (bits : Z) : Prop :=
  Two = Two32 /\ bits = 32 \/ Two = Two64 /\ bits = 64.
Lemma form_exchanges Two bits : form Two bits -> exchanges Two bits.
Proof. intros [[-> ->]|[-> ->]]; [apply C151_32|apply C151_64]. Qed.

(** No update is lost or made on half of another, even if the first comparand is torn: the pair is
    the outcome of the updates that took effect, one after the other, and each thread has made a
    prefix of its own, each once and in order. *)
Theorem C151_no_lost_update : forall Two bits p progs l, form Two bits -> words bits p ->
  Forall (Forall (updates bits)) progs -> Forall (fun x => words bits (snd x)) l ->
  let s := run Two l (init p progs) in
  dst s = applied (log s) p /\
  forall i t, nth_error (thrs s) i = Some t -> nth_error progs i = Some (of_thread i (log s) ++ todo t).
Proof.
  intros Two bits p progs l HF W F L s.
  destruct (inv_run Two bits (form_exchanges _ _ HF) p progs l L _ (inv_init bits p progs W F)) as (_ & E & H).
  split; [exact E|]. intros i t Hi. apply (H i t Hi).
Qed.
Print Assumptions C151_no_lost_update.

(** An exchange fails at most once more often than updates have taken effect: whoever fails again
    was overtaken by an update. *)
Theorem C151_lock_free : forall Two bits p progs l, form Two bits -> words bits p ->
  Forall (Forall (updates bits)) progs -> Forall (fun x => words bits (snd x)) l ->
  let s := run Two l (init p progs) in
  forall i t, nth_error (thrs s) i = Some t -> (missed t <= S (length (log s)))%nat.
Proof.
  intros Two bits p progs l HF W F L s i t Hi.
  destruct (inv_run Two bits (form_exchanges _ _ HF) p progs l L _ (inv_init bits p progs W F)) as (_ & _ & H).
  destruct (H i t Hi) as (_ & _ & M). fold s in M.
  destruct (comparand t); [apply M|apply le_S, M].
Qed.
Print Assumptions C151_lock_free.

(** Two threads push the pointers 16 and 32 and count; the first starts from a torn pair. *)
Definition push (v : Z) (p : Z * Z) : Z * Z := (v, (snd p + 1) mod 2 ^ 32).
Example ex_push :
  let s := run Two32 [(0%nat, (16, 5)); (1%nat, (0, 0)); (1%nat, (0, 0)); (0%nat, (0, 0)); (0%nat, (0, 0))]
                     (init (0, 0) [[push 16]; [push 32]]) in
  dst s = (16, 2) /\ map fst (log s) = [1%nat; 0%nat] /\ map missed (thrs s) = [1%nat; 0%nat].
Proof. repeat split. Qed.
Example ex_updates : updates 32 (push 16).
Proof.
  intros p _. unfold words, push; cbn [fst snd]. split; [lia|]. apply Z.mod_pos_bound. lia.
Qed.
