(** Invariant of the tasks made on a runner (property C120). *)
From Coq Require Import List Bool Arith Lia.
From Verif Require Import MakeTaskModel.
Import ListNotations.

(** * Invariant *)
(** What is known of a thread at [p]; [v0]: the value it would report without a callback. *)
Definition at_pc (k : kind) (v0 : nat) (s : st) (p : pc) : Prop :=
  match p with
  | Chk | Can | Call => k <> Sleep /\ calls s = 0
  | RChk v | RCas v => if match k with Sleep => true | _ => false end then v = v0 else said s = Some (Returns v)
  | RCan => True
  | Exn e => k <> Sleep /\ said s = Some (Throws e)
  | Err => k <> Sleep /\ sts s <> Started
  | End => sts s <> Started
  end.
(** The creator found no runner. *)
Definition called_off (m : mpc) : Prop := match m with MRes _ | MEnd => True | _ => False end.
Record Inv (k : kind) (s : st) : Prop := {
  ient : match ent s with
         | ERun p => at_pc k S_OK s p /\ (k <> Plain -> due s = true) /\ calls s <= 1
         | _ => calls s = 0 end;
  ifresh : maker s <> MEnd -> ent s = ENone;
  imaker : match maker s with MRes p => k = Sleep /\ at_pc k E_UNEXPECTED s p | MCur => k = Sleep | _ => True end;
  inoent : maker s = MEnd -> ent s = ENone -> sts s <> Started;
  isleep : k = Sleep -> calls s = 0;
  isaid : calls s = 0 -> said s = None;
  itrue : match sts s with
          | Completed v => (k <> Sleep /\ said s = Some (Returns v)) \/ (k = Sleep /\ ((v = S_OK /\ due s = true) \/ (v = E_UNEXPECTED /\ ent s = ENone /\ called_off (maker s))))
          | Failed e => said s = Some (Throws e)
          | _ => True end
}.
Lemma init_Inv : forall k, Inv k init.
Proof. intros k. constructor; cbn; auto; discriminate. Qed.
Ltac fin := constructor; cbn in *; intuition (try congruence; try lia; eauto).
Lemma step_Inv : forall k tok s a s', Inv k s -> step k tok s a = Some s' -> Inv k s'.
Proof.
  intros k tok s a s' [I1 I2 I3 I4 I5 I7 I6] E. destruct s as [x f m e d c o]. cbn in *.
  destruct a as [|b|b| | | | | | |w]; cbn in E.
  - destruct m as [| | | |p|]; try discriminate E.
    + assert (EN : e = ENone) by (apply I2; discriminate). subst e. injection E as <-. destruct x; destruct (tok && f); destruct k; fin.
    + assert (EN : e = ENone) by (apply I2; discriminate). subst e. injection E as <-. unfold settle; cbn. destruct x; fin.
    + assert (EN : e = ENone) by (apply I2; discriminate). subst e. destruct I3 as (-> & I3).
      destruct p; cbn in *; unfold settle, canceled in *; cbn in *; try discriminate E; destruct x; cbn in *; try destruct (tok && f); injection E as <-; fin.
  - destruct m; try discriminate E. assert (EN : e = ENone) by (apply I2; discriminate). subst e. injection E as <-. subst k. destruct b, x; fin.
  - destruct m; try discriminate E. assert (EN : e = ENone) by (apply I2; discriminate). subst e. injection E as <-. destruct b, x; fin.
  - injection E as <-. destruct e as [| |p|]; [| |destruct p|]; destruct m as [| | | |q|]; try destruct q; fin.
  - injection E as <-. unfold settle; cbn. destruct x; [|fin..]. destruct e as [| |p|]; try destruct p; destruct m as [| | | |q|]; try destruct q; fin.
  - injection E as <-. destruct x; destruct e as [| |p|]; try destruct p; fin.
  - destruct e; try discriminate E. destruct k; [|destruct d; [|discriminate E]..]; injection E as <-; destruct x; fin.
  - destruct e; try discriminate E. injection E as <-. destruct x; fin.
  - destruct e as [| |p|]; try discriminate E. assert (M : m = MEnd) by (destruct m; try reflexivity; discriminate (I2 ltac:(discriminate))). subst m.
    destruct p; cbn in E; unfold settle, canceled in E; cbn in E; try discriminate E; destruct k; cbn in *; destruct x; cbn in *; try destruct (tok && f); injection E as <-; fin.
  - destruct e as [| |p|]; try discriminate E. destruct p; try discriminate E. injection E as <-.
    assert (M : m = MEnd) by (destruct m; try reflexivity; discriminate (I2 ltac:(discriminate))). subst m. destruct w, x, k; fin.
Qed.

Lemma run_Inv : forall k tok l s s', Inv k s -> run k tok s l = Some s' -> Inv k s'.
Proof.
  induction l as [|a l IH]; intros s s' I R; cbn in R; [injection R as <-; exact I|].
  destruct (step k tok s a) as [s1|] eqn:E; [|discriminate]. exact (IH s1 s' (step_Inv k tok s a s1 I E) R).
Qed.
Lemma inside_sts : forall k tok s p s' q, inside k tok s p = Some (s', q) -> sts s <> Started -> sts s' = sts s.
Proof. intros k tok s p s' q E N. destruct p; cbn in E; try discriminate E; injection E as <- _; unfold settle; destruct (sts s) eqn:X; cbn; congruence. Qed.
Lemma step_sts : forall k tok s a s', step k tok s a = Some s' -> sts s <> Started -> sts s' = sts s.
Proof.
  intros k tok s a s' E N. destruct a; cbn in E.
  - destruct (maker s) as [| | | |p|]; try discriminate E; try (injection E as <-; cbn; try reflexivity; unfold settle; destruct (sts s) eqn:X; cbn; congruence).
    destruct (inside k tok s p) as [[s1 q]|] eqn:Q; [apply inside_sts in Q; [|exact N]|]; destruct p; try discriminate E; injection E as <-; cbn; auto.
  - destruct (maker s); try discriminate E; injection E as <-; reflexivity.
  - destruct (maker s); try discriminate E; injection E as <-; reflexivity.
  - injection E as <-; reflexivity.
  - injection E as <-. unfold settle. destruct (sts s) eqn:X; cbn; congruence.
  - injection E as <-; reflexivity.
  - destruct (ent s); try discriminate E. destruct k; [|destruct (due s); [|discriminate E]..]; injection E as <-; reflexivity.
  - destruct (ent s); try discriminate E; injection E as <-; reflexivity.
  - destruct (ent s) as [| |p|]; try discriminate E. destruct (inside k tok s p) as [[s1 q]|] eqn:Q; [|discriminate E]. apply inside_sts in Q; [|exact N]. injection E as <-. exact Q.
  - destruct (ent s) as [| |p|]; try discriminate E. destruct p; try discriminate E. injection E as <-. reflexivity.
Qed.

