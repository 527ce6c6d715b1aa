(** AsyncFile objects and their handles. *)
From Coq Require Import List Bool Arith Lia.
From Verif Require Import Slots SlotsProofs Threads FileModel FileProofs.
Import ListNotations.

(** Does the object hold the handle? *)
Definition own (h : nat) (f : option file) : nat := match f with Some (mkf (Some x) _) => b2n (x =? h) | _ => 0 end.
Definition occ (h : nat) (c : list nat) : nat := count_occ Nat.eq_dec c h.
Record FI (s : fst_) : Prop := mkFI {
  f_one : forall h, suml (own h) (snd (fst s)) + occ h (snd s) = b2n (h <? length (fst (fst s)));
  f_open : forall h, nth_error (fst (fst s)) h = Some None <-> 1 <= occ h (snd s);
  f_flag : forall i h b m, nth_error (snd (fst s)) i = Some (Some (mkf (Some h) b)) -> nth_error (fst (fst s)) h = Some (Some m) -> b = true -> m = true
}.
Lemma occ_cons : forall h x c, occ h (x :: c) = b2n (x =? h) + occ h c.
Proof. intros h x c. unfold occ. cbn [count_occ]. destruct (Nat.eq_dec x h) as [->|N]; [rewrite Nat.eqb_refl; reflexivity|]. rewrite (proj2 (Nat.eqb_neq x h) N). reflexivity. Qed.
Lemma closed_occ : forall h c x, occ h (closed c x) = occ h c + own h (Some (mkf x false)).
Proof. intros h c [x|]; cbn [closed own]; [rewrite occ_cons|]; lia. Qed.
Lemma close_len : forall hs x, length (close hs x) = length hs.
Proof. intros hs [x|]; cbn [close]; [apply set_length|reflexivity]. Qed.
Lemma feq_spec : forall a b, feq a b = true <-> a = b.
Proof. intros [a|] [b|]; cbn [feq]; split; intros K; try discriminate K; try reflexivity; [apply Nat.eqb_eq in K; congruence|injection K as ->; apply Nat.eqb_refl]. Qed.
Lemma close_nth : forall hs x h y, nth_error (close hs x) h = Some y -> (x = Some h /\ y = None) \/ (x <> Some h /\ nth_error hs h = Some y).
Proof.
  intros hs [x|] h y K; cbn [close] in K; [|right; split; [discriminate|exact K]]. apply nth_set in K. destruct K as [(-> & ->)|(N & K)]; [left; auto|right; split; [congruence|exact K]].
Qed.
Lemma close_open : forall hs c x h, (x = Some h -> h < length hs) -> (nth_error hs h = Some None <-> 1 <= occ h c) -> (nth_error (close hs x) h = Some None <-> 1 <= occ h (closed c x)).
Proof.
  intros hs c x h L K. destruct x as [x|]; cbn [close closed]; [|exact K]. rewrite occ_cons. destruct (Nat.eq_dec x h) as [->|N].
  - rewrite Nat.eqb_refl. cbn [b2n]. rewrite nth_set_eq by (apply L; reflexivity). split; intros; [lia|reflexivity].
  - rewrite nth_set_neq by assumption. rewrite (proj2 (Nat.eqb_neq x h) N). exact K.
Qed.
Lemma fget_nth : forall hs fs c i f, fget (hs, fs, c) i = Some f -> nth_error fs i = Some (Some f).
Proof. intros hs fs c i f. unfold fget. cbn [fst snd]. destruct (nth_error fs i) as [[g|]|]; congruence. Qed.
Lemma own_pos : forall fs i h b, nth_error fs i = Some (Some (mkf (Some h) b)) -> 1 <= suml (own h) fs.
Proof. intros fs i h b N. pose proof (suml_ge _ (own h) _ _ _ N) as K. cbn [own] in K. rewrite Nat.eqb_refl in K. exact K. Qed.
Lemma held : forall hs fs c i h b, FI (hs, fs, c) -> nth_error fs i = Some (Some (mkf (Some h) b)) -> h < length hs /\ occ h c = 0.
Proof.
  intros hs fs c i h b I N. pose proof (own_pos _ _ _ _ N) as P. pose proof (f_one _ I h) as F. cbn [fst snd] in F. destruct (h <? length hs) eqn:L; cbn [b2n] in F; [|lia]. apply Nat.ltb_lt in L. split; [exact L|lia].
Qed.
Lemma set_other : forall A (l : list A) i j x y, i <> j -> nth_error l j = Some y -> nth_error (set l i x) j = Some y.
Proof. intros A l i j x y N K. rewrite nth_set_neq; assumption. Qed.
Lemma ltb_S : forall h n, b2n (h <? n + 1) = b2n (h <? n) + b2n (n =? h).
Proof. intros h n. destruct (Nat.ltb_spec h (n + 1)), (Nat.ltb_spec h n), (Nat.eqb_spec n h); cbn; lia. Qed.
Lemma fexec_FI : forall s o s', FI s -> fexec s o = Some s' -> FI s'.
Proof.
  intros [[hs fs] c] o s' I E. pose proof (held hs fs c) as HL. destruct o as [i ok mode|i|i j|i j|i ok|i]; cbn [fexec] in E.
  - destruct (nth_error fs i) as [[f|]|] eqn:N; try discriminate E. destruct ok; injection E as <-.
    + constructor; cbn [fst snd].
      * intros h. pose proof (f_one _ I h) as F. cbn [fst snd] in F. pose proof (suml_set _ (own h) _ _ _ (Some (mkf (Some (length hs)) mode)) N) as K. cbn [own] in K. rewrite app_length. cbn [length]. rewrite ltb_S. lia.
      * intros h. pose proof (f_one _ I h) as F. pose proof (f_open _ I h) as O. cbn [fst snd] in F, O. destruct (Nat.lt_ge_cases h (length hs)) as [L|L]; [rewrite nth_error_app1 by exact L; exact O|]. rewrite (proj2 (Nat.ltb_ge _ _) L) in F. cbn [b2n] in F. rewrite nth_error_app2 by exact L.
        split; intros K; [|lia]. destruct (h - length hs) as [|[|d]]; discriminate K.
      * intros k h b m K M B. apply nth_set in K. destruct K as [(_ & K)|(_ & K)].
        -- injection K as -> ->. rewrite nth_error_app2, Nat.sub_diag in M by lia. cbn in M. injection M as <-. exact B.
        -- destruct (HL _ _ _ I K) as (L & _). rewrite nth_error_app1 in M by exact L. exact (f_flag _ I _ _ _ _ K M B).
    + constructor; cbn [fst snd]; [|exact (f_open _ I)|].
      * intros h. pose proof (f_one _ I h) as F. cbn [fst snd] in F. pose proof (suml_set _ (own h) _ _ _ (Some (mkf None false)) N) as K. cbn [own] in K. lia.
      * intros k h b m K M B. apply nth_set in K. destruct K as [(_ & K)|(_ & K)]; [discriminate K|]. exact (f_flag _ I _ _ _ _ K M B).
  - destruct (nth_error fs i) as [[f|]|] eqn:N; try discriminate E. injection E as <-. constructor; cbn [fst snd]; [|exact (f_open _ I)|].
      * intros h. pose proof (f_one _ I h) as F. cbn [fst snd] in F. pose proof (suml_set _ (own h) _ _ _ (Some (mkf None false)) N) as K. cbn [own] in K. lia.
      * intros k h b m K M B. apply nth_set in K. destruct K as [(_ & K)|(_ & K)]; [discriminate K|]. exact (f_flag _ I _ _ _ _ K M B).
  - destruct (nth_error fs i) as [[f|]|] eqn:N; try discriminate E. destruct (fget (hs, fs, c) j) as [f|] eqn:J; [|discriminate E]. injection E as <-. apply fget_nth in J. assert (D : i <> j) by (intros ->; congruence).
    pose proof (set_other _ _ _ _ (Some (mkf (hnd f) false)) _ D J) as J'. destruct f as [x b0]. cbn [hnd flg] in *.
    constructor; cbn [fst snd]; [|exact (f_open _ I)|].
    + intros h. pose proof (f_one _ I h) as F. cbn [fst snd] in F. pose proof (suml_set _ (own h) _ _ _ (Some (mkf x false)) N) as K. pose proof (suml_set _ (own h) _ _ _ (Some (mkf None b0)) J') as K'. destruct x; cbn [own] in K, K'; lia.
    + intros k h b m K M B. apply nth_set in K. destruct K as [(_ & K)|(_ & K)]; [discriminate K|]. apply nth_set in K. destruct K as [(_ & K)|(_ & K)]; [congruence|]. exact (f_flag _ I _ _ _ _ K M B).
  - destruct (fget (hs, fs, c) i) as [f|] eqn:N; [|discriminate E]. destruct (fget (hs, fs, c) j) as [g|] eqn:J; [|discriminate E]. apply fget_nth in N, J. destruct (feq (hnd f) (hnd g)) eqn:Q; injection E as <-; [exact I|].
    assert (D : i <> j). { intros ->. assert (f = g) by congruence. subst g. rewrite (proj2 (feq_spec _ _) eq_refl) in Q. discriminate Q. }
    destruct f as [x b0], g as [y b1]. cbn [hnd flg] in *. assert (XY : x <> y) by (intros ->; rewrite (proj2 (feq_spec _ _) eq_refl) in Q; discriminate Q).
    pose proof (set_other _ _ _ _ (Some (mkf y b1)) _ D J) as J'.
    constructor; cbn [fst snd].
    + intros h. rewrite close_len. pose proof (f_one _ I h) as F. cbn [fst snd] in F. rewrite closed_occ. pose proof (suml_set _ (own h) _ _ _ (Some (mkf y b1)) N) as K. pose proof (suml_set _ (own h) _ _ _ (Some (mkf None b1)) J') as K'. destruct x, y; cbn [own] in K, K' |- *; lia.
    + intros h. apply close_open; [|exact (f_open _ I h)]. intros Z. subst x. exact (proj1 (HL _ _ _ I N)).
    + intros k h b m K M B. apply close_nth in M. destruct M as [(_ & M)|(_ & M)]; [discriminate M|]. apply nth_set in K. destruct K as [(_ & K)|(_ & K)]; [discriminate K|]. apply nth_set in K. destruct K as [(_ & K)|(_ & K)]; [|exact (f_flag _ I _ _ _ _ K M B)]. injection K as Z1 Z2. subst y b1. exact (f_flag _ I _ _ _ _ J M B).
  - destruct (fget (hs, fs, c) i) as [f|] eqn:N; [|discriminate E]. apply fget_nth in N. destruct ok; injection E as <-; [|exact I]. destruct f as [x b0]. cbn [hnd flg] in *. constructor; cbn [fst snd].
    + intros h. rewrite close_len. pose proof (f_one _ I h) as F. cbn [fst snd] in F. rewrite closed_occ. pose proof (suml_set _ (own h) _ _ _ (Some (mkf None b0)) N) as K. destruct x; cbn [own] in K |- *; lia.
    + intros h. apply close_open; [|exact (f_open _ I h)]. intros Z. subst x. exact (proj1 (HL _ _ _ I N)).
    + intros k h b m K M B. apply close_nth in M. destruct M as [(_ & M)|(_ & M)]; [discriminate M|]. apply nth_set in K. destruct K as [(_ & K)|(_ & K)]; [discriminate K|]. exact (f_flag _ I _ _ _ _ K M B).
  - destruct (fget (hs, fs, c) i) as [f|] eqn:N; [|discriminate E]. apply fget_nth in N. injection E as <-. destruct f as [x b0]. cbn [hnd flg] in *. constructor; cbn [fst snd].
    + intros h. rewrite close_len. pose proof (f_one _ I h) as F. cbn [fst snd] in F. rewrite closed_occ. pose proof (suml_set _ (own h) _ _ _ None N) as K. destruct x; cbn [own] in K |- *; lia.
    + intros h. apply close_open; [|exact (f_open _ I h)]. intros Z. subst x. exact (proj1 (HL _ _ _ I N)).
    + intros k h b m K M B. apply close_nth in M. destruct M as [(_ & M)|(_ & M)]; [discriminate M|]. apply nth_set in K. destruct K as [(_ & K)|(_ & K)]; [discriminate K|]. exact (f_flag _ I _ _ _ _ K M B).
Qed.
Lemma frun_FI : forall l s, FI s -> FI (frun s l).
Proof. induction l as [|o l IH]; intros s I; cbn [frun]; [exact I|]. destruct (fexec s o) eqn:E; [|auto]. apply IH. exact (fexec_FI _ _ _ I E). Qed.
Lemma finit_FI : forall n, FI ([], repeat None n, []).
Proof.
  intros n. constructor; cbn [fst snd length].
  - intros h. rewrite suml_repeat by reflexivity. reflexivity.
  - intros h. split; [destruct h; discriminate|cbn; lia].
  - intros i h b m K. apply nth_error_In, repeat_spec in K. discriminate K.
Qed.
(** Objects say exactly the mode as long as nobody uses the move constructor. *)
Definition exact (s : fst_) : Prop := forall i h b m, nth_error (snd (fst s)) i = Some (Some (mkf (Some h) b)) -> nth_error (fst (fst s)) h = Some (Some m) -> b = m.
Definition moves (o : fop) : bool := match o with FMove _ _ => true | _ => false end.
Lemma fexec_exact : forall s o s', FI s -> exact s -> moves o = false -> fexec s o = Some s' -> exact s'.
Proof.
  intros [[hs fs] c] o s' I X MV E. pose proof (held hs fs c) as HL. unfold exact in *. cbn [fst snd] in X. destruct o as [i ok mode|i|i j|i j|i ok|i]; cbn [fexec moves] in *; try discriminate MV.
  - destruct (nth_error fs i) as [[f|]|] eqn:N; try discriminate E. destruct ok; injection E as <-; cbn [fst snd]; intros k h b m K M; apply nth_set in K; destruct K as [(_ & K)|(_ & K)].
    + injection K as -> ->. rewrite nth_error_app2, Nat.sub_diag in M by lia. cbn in M. congruence.
    + destruct (HL _ _ _ I K) as (L & _). rewrite nth_error_app1 in M by exact L. eauto.
    + discriminate K.
    + eauto.
  - destruct (nth_error fs i) as [[f|]|] eqn:N; try discriminate E. injection E as <-. cbn [fst snd]; intros k h b m K M; apply nth_set in K; destruct K as [(_ & K)|(_ & K)]; [discriminate K|eauto].
  - destruct (fget (hs, fs, c) i) as [f|] eqn:N; [|discriminate E]. destruct (fget (hs, fs, c) j) as [g|] eqn:J; [|discriminate E]. apply fget_nth in N, J. destruct (feq (hnd f) (hnd g)) eqn:Q; injection E as <-; [exact X|]. destruct f as [x b0], g as [y b1]. cbn [hnd flg fst snd] in *.
    intros k h b m K M. apply close_nth in M. destruct M as [(_ & M)|(_ & M)]; [discriminate M|]. apply nth_set in K. destruct K as [(_ & K)|(_ & K)]; [discriminate K|]. apply nth_set in K. destruct K as [(_ & K)|(_ & K)]; [|eauto]. injection K as Z1 Z2. subst y b1. eauto.
  - destruct (fget (hs, fs, c) i) as [f|] eqn:N; [|discriminate E]. apply fget_nth in N. destruct ok; injection E as <-; [|exact X]. cbn [fst snd]. intros k h b m K M. apply close_nth in M. destruct M as [(_ & M)|(_ & M)]; [discriminate M|]. apply nth_set in K. destruct K as [(_ & K)|(_ & K)]; [discriminate K|eauto].
  - destruct (fget (hs, fs, c) i) as [f|] eqn:N; [|discriminate E]. apply fget_nth in N. injection E as <-. cbn [fst snd]. intros k h b m K M. apply close_nth in M. destruct M as [(_ & M)|(_ & M)]; [discriminate M|]. apply nth_set in K. destruct K as [(_ & K)|(_ & K)]; [discriminate K|eauto].
Qed.
Lemma frun_exact : forall l s, FI s -> exact s -> forallb (fun o => negb (moves o)) l = true -> exact (frun s l).
Proof.
  induction l as [|o l IH]; intros s I X M; cbn [frun]; [exact X|]. cbn [forallb] in M. apply andb_true_iff in M. destruct M as (M1 & M2). apply negb_true_iff in M1.
  destruct (fexec s o) eqn:E; [|auto]. apply IH; [exact (fexec_FI _ _ _ I E)|exact (fexec_exact _ _ _ I X M1 E)|exact M2].
Qed.
