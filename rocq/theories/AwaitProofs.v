(** Invariant of a coroutine that awaits (properties C124 and C125). *)
From Coq Require Import List Bool Arith Lia.
From Verif Require Import Slots SlotsProofs Threads RecoverModel RecoverProofs AwaitModel.
Import ListNotations.

Section Config.
Variable tok run_ : bool.

Definition cactive (p : cpc) : nat := match p with CIdle => 0 | _ => 1 end.
Definition cqueued (e : centry) : nat := match e with QWait => 1 | _ => 0 end.
(** How many threads, handlers and entries stand for the coroutine. *)
Definition clive (s : cst) : nat := suml cactive (cths s) + b2n (reg (aw s)) + cqueued (cent s).

Definition stopped (s : cst) : Prop := tok && cflag s = true.
Definition spot_ok (l : spot) : Prop := match l with Same => True | Runner => run_ = true | Completer => run_ = false end.
Definition truth (s : cst) (r : result) : Prop :=
  match r with
  | RVal v => dec (aw s) = Some (EVal v)
  | RExn x => (exists d, dec (aw s) = Some d /\ bad d /\ x = exn_of d) \/ (stopped s /\ (x = OpCanceled \/ x = Code E_FAIL))
  end.
(** Not yet gone on; gone on. *)
Definition before (s : cst) : Prop := resumed s = 0 /\ got s = None /\ at_ s = None /\ fin s = None /\ freed s = 0 /\ (own s = Started \/ own s = Canceled).
Definition after_ (s : cst) : Prop := resumed s = 1 /\ susp s = false /\ freed s = 0 /\ exists l, at_ s = Some l /\ spot_ok l.
Definition awake (s : cst) : Prop := after_ s /\ got s = None /\ fin s = None /\ (own s = Started \/ own s = Canceled).
Definition knows (s : cst) : Prop := after_ s /\ exists r, got s = Some r /\ truth s r.
Definition at_cpc (s : cst) (p : cpc) : Prop :=
  match p with
  | CIdle => True
  | C0 | C1 => before s /\ susp s = false
  | C2 | C3 => before s /\ susp s = true
  | C4 => before s /\ susp s = true /\ hset s = true
  | K0 => before s /\ susp s = true /\ hset s = true /\ dec (aw s) <> None
  | G0 _ => awake s /\ (dec (aw s) <> None \/ stopped s)
  | G1 _ => awake s /\ dec (aw s) <> None /\ dec (aw s) <> Some ECan
  | G2 _ => awake s /\ dec (aw s) <> None
  | G3 _ => awake s /\ hrw (aw s) = true
  | Body r => knows s /\ got s = Some r /\ fin s = None /\ (own s = Started \/ own s = Canceled)
  | V0 v | V1 v | V2 v => knows s /\ fin s = Some (FReturn v) /\ (own s = Started \/ own s = Canceled)
  | X0 x => knows s /\ fin s <> None /\ (own s = Started \/ own s = Canceled) /\ (fin s = Some (FThrow x) \/ own s = Canceled)
  | End_ => knows s /\ fin s <> None /\ own s <> Started
  end.
(** The ends: lost by the runner; destroyed because the runner is gone; run to its end. *)
Definition lost (s : cst) : Prop := before s /\ susp s = true /\ cent s = QGone /\ run_ = true.
Definition killed (s : cst) : Prop :=
  run_ = true /\ cgone s = true /\ resumed s = 0 /\ got s = None /\ at_ s = None /\ fin s = None /\ freed s = 1 /\ (own s = Started \/ own s = Canceled).
Definition done_ (s : cst) : Prop :=
  resumed s = 1 /\ freed s = 1 /\ own s <> Started /\ fin s <> None /\ (exists l, at_ s = Some l /\ spot_ok l) /\ exists r, got s = Some r /\ truth s r.
Definition own_ok (s : cst) : Prop :=
  match own s with
  | Completed v => fin s = Some (FReturn v)
  | Failed p c => exists x, fin s = Some (FThrow x) /\ p = Some x /\ c = norm (code_of x)
  | _ => True end.

Record CInv (s : cst) : Prop := {
  j_len : length (cths s) = 3;
  j_live : clive s <= 1;
  j_ub : ub s = false;
  j_op : (fill (aw s) = true -> dec (aw s) <> None) /\ (hrw (aw s) = true -> fill (aw s) = true);
  j_pc : forall i p, nth_error (cths s) i = Some p -> at_cpc s p;
  j_wait : reg (aw s) = true \/ cent s = QWait -> before s /\ susp s = true /\ hset s = true;
  j_q : cent s = QWait -> run_ = true /\ dec (aw s) <> None;
  j_end : clive s = 0 -> lost s \/ killed s \/ done_ s;
  j_own : own_ok s
}.
Lemma init_CInv : CInv cinit.
Proof.
  constructor; cbn; try discriminate; auto; try lia.
  - intros [|[|[|i]]] p E; cbn in E; try (injection E as <-; cbn; unfold before; cbn; auto 10). destruct i; discriminate.
  - intros [|]; discriminate.
Qed.

(** The moving thread is alone. *)
Lemma calone s i p : CInv s -> nth_error (cths s) i = Some p -> cactive p = 1 ->
  reg (aw s) = false /\ cqueued (cent s) = 0 /\ forall q, suml cactive (set (cths s) i q) = cactive q.
Proof.
  intros I E A. pose proof (j_live s I) as L. unfold clive in L.
  assert (LT : i < length (cths s)) by (apply nth_error_Some; congruence).
  assert (X : forall q, suml cactive (set (cths s) i q) + cactive p = suml cactive (cths s) + cactive q)
    by (intros q; apply suml_set; exact E).
  pose proof (X CIdle) as X0. cbn [cactive] in X0. destruct (reg (aw s)); cbn [b2n] in L; [lia|].
  destruct (cqueued (cent s)) as [|n] eqn:Q; [|lia]. split; [reflexivity|]. split; [reflexivity|]. intros q. specialize (X q). lia.
Qed.
Lemma cothers s i p : CInv s -> nth_error (cths s) i = Some p -> cactive p = 1 -> forall q j r, nth_error (set (cths s) i q) j = Some r -> (j = i /\ r = q) \/ r = CIdle.
Proof.
  intros I E A q j r N. assert (LT : i < length (cths s)) by (apply nth_error_Some; congruence).
  destruct (Nat.eq_dec j i) as [->|NE]; [left; split; [reflexivity|]; rewrite nth_set_eq in N by exact LT; congruence|right].
  destruct (calone s i p I E A) as (_ & _ & S). specialize (S CIdle). cbn [cactive] in S.
  assert (N' : nth_error (set (cths s) i CIdle) j = Some r) by (rewrite nth_set_neq in N |- * by congruence; exact N).
  destruct r; try reflexivity; pose proof (suml_ge _ cactive _ _ _ N') as G; cbn [cactive] in G; lia.
Qed.

Lemma move_CInv s s' i p q : CInv s -> nth_error (cths s) i = Some p -> cactive p = 1 -> cths s' = cths s ->
  cactive q + b2n (reg (aw s')) + cqueued (cent s') <= 1 -> ub s' = false ->
  ((fill (aw s') = true -> dec (aw s') <> None) /\ (hrw (aw s') = true -> fill (aw s') = true)) ->
  at_cpc s' q ->
  (reg (aw s') = true \/ cent s' = QWait -> before s' /\ susp s' = true /\ hset s' = true) ->
  (cent s' = QWait -> run_ = true /\ dec (aw s') <> None) ->
  (cactive q + b2n (reg (aw s')) + cqueued (cent s') = 0 -> lost s' \/ killed s' \/ done_ s') ->
  own_ok s' -> CInv (w_th s' i q).
Proof.
  intros I E A T L U O P W Q D X. destruct (calone s i p I E A) as (_ & _ & SS).
  assert (LV : clive (w_th s' i q) = cactive q + b2n (reg (aw s')) + cqueued (cent s')) by (unfold clive; cbn; rewrite T, SS; reflexivity).
  constructor; try assumption.
  - cbn. rewrite T, set_length. exact (j_len s I).
  - rewrite LV. exact L.
  - intros j r N. cbn in N. rewrite T in N. destruct (cothers s i p I E A q j r N) as [(_ & ->)| ->]; [|exact Logic.I]. destruct q; exact P.
  - rewrite LV. exact D.
Qed.

(** What the environment may change. *)
Record cext (s s' : cst) : Prop := {
  x_dec : dec (aw s) <> None -> dec (aw s') = dec (aw s);
  x_hr : hrw (aw s) = true -> hrw (aw s') = true;
  x_flag : cflag s = true -> cflag s' = true;
  x_gone : cgone s = true -> cgone s' = true;
  x_own : own s' = own s \/ (own s = Started /\ own s' = Canceled);
  x_rest : susp s' = susp s /\ hset s' = hset s /\ freed s' = freed s /\ ub s' = ub s /\ resumed s' = resumed s /\ got s' = got s /\ at_ s' = at_ s /\ fin s' = fin s }.
Lemma xopen s s' : cext s s' -> (own s = Started \/ own s = Canceled) -> own s' = Started \/ own s' = Canceled.
Proof. intros X O. destruct (x_own _ _ X) as [E|(_ & E)]; rewrite E; auto. Qed.
Lemma xnstarted s s' : cext s s' -> own s <> Started -> own s' <> Started.
Proof. intros X O. destruct (x_own _ _ X) as [E|(_ & E)]; rewrite E; congruence. Qed.
Lemma xstop s s' : cext s s' -> stopped s -> stopped s'.
Proof. intros X O. unfold stopped in *. apply andb_true_iff in O as (O1 & O2). rewrite O1, (x_flag _ _ X O2). reflexivity. Qed.
Lemma xtruth s s' r : cext s s' -> truth s r -> truth s' r.
Proof.
  intros X. destruct r as [v|x]; cbn.
  - intros D. rewrite (x_dec _ _ X); congruence.
  - intros [(d & D & B & E)|(O & E)]; [left; exists d; rewrite (x_dec _ _ X); [auto|congruence]|right; split; [exact (xstop _ _ X O)|exact E]].
Qed.
Lemma xbefore s s' : cext s s' -> before s -> before s'.
Proof.
  intros X (B1 & B2 & B3 & B4 & B5 & B6). destruct (x_rest _ _ X) as (E1 & E2 & E3 & E4 & E5 & E6 & E7 & E8).
  unfold before. rewrite E3, E5, E6, E7, E8. sp; auto. exact (xopen _ _ X B6).
Qed.
Lemma xafter s s' : cext s s' -> after_ s -> after_ s'.
Proof.
  intros X (B1 & B2 & B3 & B4). destruct (x_rest _ _ X) as (E1 & E2 & E3 & E4 & E5 & E6 & E7 & E8).
  unfold after_. rewrite E1, E3, E5, E7. sp; auto.
Qed.
Lemma xawake s s' : cext s s' -> awake s -> awake s'.
Proof.
  intros X (B1 & B2 & B3 & B4). destruct (x_rest _ _ X) as (E1 & E2 & E3 & E4 & E5 & E6 & E7 & E8).
  unfold awake. rewrite E6, E8. sp; auto; [exact (xafter _ _ X B1)|exact (xopen _ _ X B4)].
Qed.
Lemma xknows s s' : cext s s' -> knows s -> knows s'.
Proof.
  intros X (B1 & r & B2 & B3). destruct (x_rest _ _ X) as (E1 & E2 & E3 & E4 & E5 & E6 & E7 & E8).
  split; [exact (xafter _ _ X B1)|]. exists r. rewrite E6. split; [exact B2|exact (xtruth _ _ _ X B3)].
Qed.
Lemma xdec s s' : cext s s' -> dec (aw s) <> None -> dec (aw s') <> None.
Proof. intros X D. rewrite (x_dec _ _ X D). exact D. Qed.
Lemma xpc s s' p : cext s s' -> at_cpc s p -> at_cpc s' p.
Proof.
  intros X. destruct (x_rest _ _ X) as (E1 & E2 & E3 & E4 & E5 & E6 & E7 & E8).
  destruct p; cbn; rewrite ?E1, ?E2, ?E6, ?E8; intros H; auto; repeat match goal with H : _ /\ _ |- _ => destruct H end; sp; auto;
    try (eapply xbefore; eassumption); try (eapply xawake; eassumption); try (eapply xknows; eassumption); try (eapply xopen; eassumption);
    try (eapply xdec; eassumption); try (eapply xnstarted; eassumption); try (eapply x_hr; eassumption).
  - match goal with H : _ \/ _ |- _ => destruct H as [H|H]; [left; exact (xdec _ _ X H)|right; exact (xstop _ _ X H)] end.
  - rewrite (x_dec _ _ X); assumption.
  - match goal with H : fin _ = _ \/ _ |- _ => destruct H as [H|H]; [left; exact H|right] end. destruct (x_own _ _ X) as [E|(_ & E)]; congruence.
Qed.
Lemma env_CInv s s' : CInv s -> cext s s' -> cths s' = cths s -> (cent s' = cent s \/ (cent s = QWait /\ cent s' = QGone)) -> reg (aw s') = reg (aw s) ->
  ((fill (aw s') = true -> dec (aw s') <> None) /\ (hrw (aw s') = true -> fill (aw s') = true)) -> CInv s'.
Proof.
  intros I X T C R O. destruct (x_rest _ _ X) as (E1 & E2 & E3 & E4 & E5 & E6 & E7 & E8).
  assert (LV : clive s' = clive s \/ (clive s' = 0 /\ cent s = QWait /\ cent s' = QGone)).
  { destruct C as [C|(C1 & C2)]; [left; unfold clive; rewrite T, R, C; reflexivity|right]. pose proof (j_live s I) as L. unfold clive in *. rewrite T, R, C2. rewrite C1 in L. cbn [cqueued] in *. sp; auto; lia. }
  constructor; auto.
  - rewrite T. exact (j_len s I).
  - pose proof (j_live s I). lia.
  - rewrite E4. exact (j_ub s I).
  - rewrite T. intros i p N. apply (xpc s); [exact X|exact (j_pc s I i p N)].
  - rewrite R, E1, E2. intros H. assert (H' : reg (aw s) = true \/ cent s = QWait) by (destruct H as [H|H]; [auto|destruct C as [C|(C & _)]; [right; congruence|auto]]).
    destruct (j_wait s I H') as (B & B2). split; [exact (xbefore _ _ X B)|exact B2].
  - intros Q. assert (Q' : cent s = QWait) by (destruct C as [C|(_ & C)]; congruence). destruct (j_q s I Q') as (Q1 & Q2). split; [exact Q1|exact (xdec _ _ X Q2)].
  - intros Z. destruct LV as [LV|(_ & C1 & C2)].
    + rewrite LV in Z. destruct (j_end s I Z) as [(A & B & D & D')|[K|K]].
      * left. unfold lost. rewrite E1. sp; auto; [exact (xbefore _ _ X A)|]. destruct C as [C|(C & _)]; congruence.
      * right; left. destruct K as (K1 & K2 & K3 & K4 & K5 & K6 & K7 & K8). unfold killed. rewrite E3, E5, E6, E7, E8. sp; auto; [exact (x_gone _ _ X K2)|exact (xopen _ _ X K8)].
      * right; right. destruct K as (K1 & K2 & K3 & K4 & K5 & r & K6 & K7). unfold done_. rewrite E3, E5, E6, E7, E8. sp; auto; [exact (xnstarted _ _ X K3)|]. exists r. split; [exact K6|exact (xtruth _ _ _ X K7)].
    + left. destruct (j_wait s I (or_intror C1)) as (A & B & D). destruct (j_q s I C1) as (RR & _). unfold lost. rewrite E1. sp; auto. exact (xbefore _ _ X A).
  - pose proof (j_own s I) as W. unfold own_ok in *. rewrite E8. destruct (x_own _ _ X) as [E|(_ & E)]; rewrite E; [exact W|exact Logic.I].
Qed.

Lemma cinside_CInv s i p s' q : CInv s -> nth_error (cths s) i = Some p -> cinside tok s p = Some (s', q) -> CInv (w_th s' i q).
Proof.
  intros I N E. pose proof (j_pc s I i p N) as P. pose proof (j_op s I) as O. pose proof (j_own s I) as W. pose proof (j_ub s I) as U.
  assert (AC : cactive p = 1) by (destruct p; cbn in E; try discriminate; reflexivity).
  destruct (calone s i p I N AC) as (RG & QZ & _).
  assert (QN : cent s <> QWait) by (intros Q; rewrite Q in QZ; discriminate).
  assert (M : forall s', cths s' = cths s -> reg (aw s') = false -> cqueued (cent s') = 0 -> ub s' = false -> ((fill (aw s') = true -> dec (aw s') <> None) /\ (hrw (aw s') = true -> fill (aw s') = true)) ->
     at_cpc s' q -> cactive q = 1 -> own_ok s' -> CInv (w_th s' i q)).
  { intros s1 T1 R1 Q1 U1 O1 P1 A1 W1. apply (move_CInv s s1 i p q); auto; rewrite ?R1, ?Q1, ?A1; cbn [b2n]; try lia.
    - intros [H|H]; [congruence|rewrite H in Q1; discriminate].
    - intros H; rewrite H in Q1; discriminate. }
  destruct p; cbn in E, P; try discriminate.
  - (* C0 *) destruct P as ((B1 & B2 & B3 & B4 & B5 & B6) & B7). destruct (aw_canceled tok s) eqn:CN; injection E as <- <-; apply M; auto; cbn; rewrite ?U, ?B5; cbn; auto.
    + unfold awake, after_; cbn. rewrite B1. sp; auto; [exists Same; cbn; auto|]. unfold aw_canceled, o_canceled in CN. unfold stopped; cbn. destruct (dec (aw s)) as [[]|]; try discriminate; auto; left; discriminate.
    + unfold before; cbn; auto 10.
  - (* C1 *) destruct P as ((B1 & B2 & B3 & B4 & B5 & B6) & B7). destruct (dec (aw s)) eqn:CN; injection E as <- <-; apply M; auto; cbn; rewrite ?U, ?B5, ?CN; cbn; auto; try (rewrite CN in O; exact O).
    + unfold awake, after_; cbn. rewrite B1. sp; auto; [exists Same; cbn; auto|left; discriminate].
    + unfold before; cbn; auto 10.
  - (* C2 *) destruct P as ((B1 & B2 & B3 & B4 & B5 & B6) & B7). destruct (aw_canceled tok s) eqn:CN; injection E as <- <-; apply M; auto; cbn; rewrite ?U, ?B5, ?B7; cbn; auto.
    + unfold awake, after_; cbn. rewrite B1. sp; auto; [exists Same; cbn; auto|]. unfold aw_canceled, o_canceled in CN. unfold stopped; cbn. destruct (dec (aw s)) as [[]|]; try discriminate; auto; left; discriminate.
    + unfold before; cbn; auto 10.
  - (* C3 *) destruct P as ((B1 & B2 & B3 & B4 & B5 & B6) & B7). injection E as <- <-; apply M; auto; cbn; rewrite ?U, ?B5; cbn; auto. unfold before; cbn; auto 10.
  - (* C4 *) destruct P as ((B1 & B2 & B3 & B4 & B5 & B6) & B7 & B8). destruct (dec (aw s)) eqn:CN; injection E as <- <-.
    + apply M; auto; cbn; rewrite ?U, ?B5, ?B7, ?CN; cbn; auto; try (rewrite CN in O; exact O).
      unfold awake, after_; cbn. rewrite B1. sp; auto; [exists Same; cbn; auto|left; discriminate].
    + apply (move_CInv s _ i C4 CIdle); auto; cbn; rewrite ?U, ?B5, ?QZ; cbn; auto; try discriminate.
      * unfold before; cbn; auto 10.
  - (* G0 *) destruct P as (P1 & P2). destruct (aw_canceled tok s) eqn:CN; injection E as <- <-; destruct P1 as ((A1 & A2 & A3 & A4) & A5 & A6 & A7); apply M; auto; cbn; rewrite ?U, ?A3; cbn; auto.
    + unfold knows, after_; cbn. sp; auto. exists (RExn OpCanceled). split; [reflexivity|]. cbn. unfold aw_canceled, o_canceled in CN. unfold stopped; cbn.
      destruct (dec (aw s)) as [[]|]; try discriminate; auto. left. exists ECan. cbn; auto.
    + unfold awake, after_; cbn. sp; auto.
      * destruct P2 as [P2|P2]; [exact P2|]. unfold aw_canceled, o_canceled, stopped in *. intros D. rewrite D in CN. congruence.
      * intros D. unfold aw_canceled, o_canceled in CN. rewrite D in CN. discriminate.
  - (* G1 *) destruct P as (P1 & P2 & P3). destruct (aw_canceled tok s) eqn:CN; injection E as <- <-; destruct P1 as ((A1 & A2 & A3 & A4) & A5 & A6 & A7); apply M; auto; cbn; rewrite ?U, ?A3; cbn; auto.
    + unfold knows, after_; cbn. sp; auto. exists (RExn (Code E_FAIL)). split; [reflexivity|]. cbn. unfold aw_canceled, o_canceled in CN. unfold stopped; cbn.
      destruct (dec (aw s)) as [[]|]; try discriminate; auto.
    + unfold awake, after_; cbn. sp; auto.
  - (* G2 *) destruct P as (P1 & P2). destruct (hrw (aw s)) eqn:HR; [|discriminate]. injection E as <- <-; destruct P1 as ((A1 & A2 & A3 & A4) & A5 & A6 & A7); apply M; auto; cbn; rewrite ?U, ?A3; cbn; auto.
    + rewrite HR. exact O.
    + unfold awake, after_; cbn. sp; auto.
  - (* G3 *) destruct P as (P1 & P2). injection E as <- <-; destruct P1 as ((A1 & A2 & A3 & A4) & A5 & A6 & A7); apply M; auto; cbn; rewrite ?U, ?A3; cbn; auto.
    destruct O as (O1 & O2). pose proof (O2 P2) as F. pose proof (O1 F) as D. unfold knows, after_; cbn. sp; auto.
    eexists. split; [reflexivity|]. unfold eptr, hr. rewrite F, P2. destruct (dec (aw s)) as [[v| |x|c]|] eqn:DD; cbn; rewrite ?DD; auto; try congruence.
    + left. exists ECan. cbn; auto.
    + left. exists (EExn x). cbn; auto.
    + left. exists (ECode c). cbn; auto.
  - (* V0 *) destruct P as (((A1 & A2 & A3 & A4) & r & A5 & A6) & P2 & P3). injection E as <- <-. apply M; auto; cbn; rewrite ?U, ?A3; cbn; auto; try (destruct (own_canceled s); reflexivity).
    unfold own_canceled. assert (KN : knows (touch s)) by (unfold knows, after_; cbn; sp; auto; exists r; auto).
    destruct (own s) eqn:OW; cbn; rewrite ?OW, ?P2; sp; auto; discriminate.
  - (* V1 *) destruct P as (((A1 & A2 & A3 & A4) & r & A5 & A6) & P2 & P3). injection E as <- <-. apply M; auto; cbn; rewrite ?U, ?A3; cbn; auto; try (destruct (own_canceled s); reflexivity).
    unfold own_canceled. assert (KN : knows (touch s)) by (unfold knows, after_; cbn; sp; auto; exists r; auto).
    destruct (own s) eqn:OW; cbn; rewrite ?OW, ?P2; sp; auto; discriminate.
  - (* V2 *) destruct P as (((A1 & A2 & A3 & A4) & r & A5 & A6) & P2 & P3). injection E as <- <-. assert (KN : knows (touch s)) by (unfold knows, after_; cbn; sp; auto; exists r; auto).
    unfold w_own; cbn. destruct P3 as [P3|P3]; rewrite P3; apply M; auto; cbn; rewrite ?U, ?A3; cbn; auto; rewrite ?P2, ?P3; sp; auto; try discriminate; try (unfold own_ok; cbn; rewrite ?P3; auto; fail); try (unfold knows, after_; cbn; sp; auto; exists r; auto; fail).
  - (* X0 *) destruct P as (((A1 & A2 & A3 & A4) & r & A5 & A6) & P2 & P3 & P4). injection E as <- <-. assert (KN : knows (touch s)) by (unfold knows, after_; cbn; sp; auto; exists r; auto).
    unfold w_own; cbn. destruct P3 as [P3|P3]; rewrite P3; apply M; auto; cbn; rewrite ?U, ?A3; cbn; auto; rewrite ?P3; sp; auto; try discriminate; try (unfold own_ok; cbn; rewrite ?P3; auto; fail); try (unfold knows, after_; cbn; sp; auto; exists r; auto; fail).
    destruct P4 as [P4|P4]; [eauto|congruence].
  - (* End_ *) destruct P as (((A1 & A2 & A3 & A4) & r & A5 & A6) & P2 & P3). injection E as <- <-.
    apply (move_CInv s _ i End_ CIdle); auto; cbn; rewrite ?U, ?A3, ?QZ, ?RG; cbn; auto; try discriminate.
    all: try (intros [H|H]; [discriminate|contradiction]); try (intros H; contradiction).
    intros _. right; right. unfold done_; cbn. rewrite A3. sp; auto. exists r; auto.
Qed.

Lemma cstep_CInv s a s' : CInv s -> cstep tok run_ s a = Some s' -> CInv s'.
Proof.
  intros I E. pose proof (j_op s I) as (O1 & O2). pose proof (j_ub s I) as U. pose proof (j_own s I) as W. destruct a; cbn in E.
  - (* ADecide *) destruct (dec (aw s)) eqn:D; [discriminate|]. injection E as <-. apply (env_CInv s); auto; cbn; [|split; discriminate].
    constructor; cbn; auto 10; [congruence|]. intros H. exfalso. exact (O1 (O2 H) eq_refl).
  - (* AFill *) destruct (dec (aw s)) eqn:D; [|discriminate]. destruct (fill (aw s)) eqn:F; [discriminate|]. injection E as <-. apply (env_CInv s); auto; cbn; [|split; [discriminate|reflexivity]].
    constructor; cbn; auto 10.
  - (* AHr *) destruct (fill (aw s)) eqn:F; [|discriminate]. destruct (hrw (aw s)) eqn:H; [discriminate|]. injection E as <-. apply (env_CInv s); auto. constructor; cbn; auto 10.
  - (* ATake *) destruct (hrw (aw s)) eqn:H; [|discriminate]. destruct (reg (aw s)) eqn:R; [|discriminate]. injection E as <-.
    destruct (j_wait s I (or_introl R)) as (B & SU & HS). pose proof (O1 (O2 eq_refl)) as D.
    pose proof (j_live s I) as L. unfold clive in L. rewrite R in L. cbn [b2n] in L.
    assert (Z : suml cactive (cths s) = 0 /\ cqueued (cent s) = 0) by lia. destruct Z as (Z & QZ).
    assert (LN : 1 < length (cths s)) by (rewrite (j_len s I); lia).
    destruct (nth_error (cths s) 1) as [p1|] eqn:N1; [|apply nth_error_None in N1; lia].
    assert (ID : forall j r, nth_error (cths s) j = Some r -> r = CIdle) by (intros j r X; pose proof (suml_ge _ cactive _ _ _ X) as G; destruct r; cbn [cactive] in G; auto; lia).
    pose proof (ID _ _ N1); subst p1. pose proof (suml_set _ cactive _ _ _ K0 N1) as SS. cbn [cactive] in SS.
    assert (QN : cent s <> QWait) by (intros Q; rewrite Q in QZ; discriminate).
    constructor; cbn; auto; try (intros [X|X]; [discriminate|contradiction]); try (intros X; contradiction); try (unfold clive; cbn; intros X; lia).
    + rewrite set_length. exact (j_len s I).
    + unfold clive; cbn. lia.
    + intros j r X. destruct (Nat.eq_dec j 1) as [->|NE].
      * rewrite nth_set_eq in X by exact LN. injection X as <-. cbn. sp; auto.
      * rewrite nth_set_neq in X by congruence. rewrite (ID _ _ X). exact Logic.I.
  - (* AGo *) destruct (nth_error (cths s) i) as [p|] eqn:N; [|discriminate]. destruct (cinside tok s p) as [[s1 q]|] eqn:C; [|discriminate]. injection E as <-. exact (cinside_CInv s i p s1 q I N C).
  - (* AWhere *) destruct (nth_error (cths s) i) as [p|] eqn:N; [|discriminate]. destruct p; try discriminate.
    pose proof (j_pc s I i _ N) as ((B1 & B2 & B3 & B4 & B5 & B6) & B7 & B8 & B9). destruct (calone s i _ I N eq_refl) as (RG & QZ & _).
    assert (QN : cent s <> QWait) by (intros Q; rewrite Q in QZ; discriminate).
    assert (RES : forall l, spot_ok l -> CInv (w_th (resume_ (touch s) l) i (G0 l))).
    { intros l SO. apply (move_CInv s _ i K0 _ I N); auto; cbn; rewrite ?U, ?B5, ?B7, ?RG, ?QZ; cbn; auto; try (intros; lia).
      - unfold awake, after_; cbn. rewrite B1. sp; auto. exists l; auto.
      - intros [X|X]; [congruence|contradiction]. }
    destruct (negb run_) eqn:RN.
    + rewrite B8 in E. injection E as <-. apply RES. cbn. destruct run_; [discriminate|reflexivity].
    + assert (RR : run_ = true) by (destruct run_; [reflexivity|discriminate]). destruct (cgone s) eqn:CG.
      * injection E as <-. apply (move_CInv s _ i K0 _ I N); auto; cbn; rewrite ?U, ?B5, ?RG, ?QZ; cbn; auto.
        -- intros [X|X]; [congruence|contradiction].
        -- intros _. right; left. unfold killed; cbn. rewrite B5. sp; auto.
      * assert (PO : CInv (w_th (w_ent (touch s) (if ok then QWait else QGone)) i CIdle)).
        { apply (move_CInv s _ i K0 _ I N); auto; cbn; rewrite ?U, ?B5, ?RG, ?QZ; cbn; auto.
          - destruct ok; cbn; lia.
          - intros _. unfold before; cbn. sp; auto.
          - intros X. left. unfold lost, before; cbn. destruct ok; [discriminate|]. sp; auto. }
        destruct c; try (injection E as <-; exact PO). rewrite B8 in E. injection E as <-. apply RES. exact RR.
  - (* AEnd *) destruct (nth_error (cths s) i) as [p|] eqn:N; [|discriminate]. destruct p; try discriminate. injection E as <-.
    pose proof (j_pc s I i _ N) as (((A1 & A2 & A3 & A4) & r' & A5 & A6) & P2 & P3 & P4). destruct (calone s i _ I N eq_refl) as (RG & QZ & _).
    assert (QN : cent s <> QWait) by (intros Q; rewrite Q in QZ; discriminate).
    assert (KN : knows (w_fin (touch s) f)) by (unfold knows, after_; cbn; sp; auto; exists r'; auto).
    apply (move_CInv s _ i (Body r) _ I N); auto; cbn; rewrite ?U, ?A3, ?RG, ?QZ; cbn; auto.
    + destruct f; cbn; lia.
    + destruct f; cbn; sp; auto; discriminate.
    + intros [X|X]; [congruence|contradiction].
    + destruct f; cbn; intros; lia.
    + unfold own_ok in *; cbn. destruct P4 as [P4|P4]; rewrite P4; exact Logic.I.
  - (* ABegin *) destruct (cent s) eqn:CE; try discriminate. injection E as <-.
    destruct (j_wait s I (or_intror CE)) as ((B1 & B2 & B3 & B4 & B5 & B6) & B7 & B8). destruct (j_q s I CE) as (RR & D).
    pose proof (j_live s I) as L. unfold clive in L. rewrite CE in L. cbn [cqueued] in L.
    assert (Z : suml cactive (cths s) = 0 /\ reg (aw s) = false) by (destruct (reg (aw s)); cbn [b2n] in L; [lia|split; [lia|reflexivity]]). destruct Z as (Z & RG).
    assert (LN : 2 < length (cths s)) by (rewrite (j_len s I); lia).
    destruct (nth_error (cths s) 2) as [p1|] eqn:N1; [|apply nth_error_None in N1; lia].
    assert (ID : forall j r, nth_error (cths s) j = Some r -> r = CIdle) by (intros j r X; pose proof (suml_ge _ cactive _ _ _ X) as G; destruct r; cbn [cactive] in G; auto; lia).
    pose proof (ID _ _ N1); subst p1. pose proof (suml_set _ cactive _ _ _ (G0 Runner) N1) as SS. cbn [cactive] in SS.
    constructor; cbn; auto; rewrite ?U, ?B5, ?B7, ?RG; auto.
    + rewrite set_length. exact (j_len s I).
    + unfold clive; cbn. rewrite ?RG; cbn; lia.
    + intros j r X. destruct (Nat.eq_dec j 2) as [->|NE].
      * rewrite nth_set_eq in X by exact LN. injection X as <-. cbn. unfold awake, after_; cbn. rewrite B1. sp; auto. exists Runner; auto.
      * rewrite nth_set_neq in X by congruence. rewrite (ID _ _ X). exact Logic.I.
    + intros [X|X]; discriminate.
    + unfold clive; cbn. intros X; lia.
  - (* ADiscard *) destruct (cent s) eqn:CE; try discriminate. injection E as <-. apply (env_CInv s); auto. constructor; cbn; auto 10.
  - (* AToken *) injection E as <-. apply (env_CInv s); auto. constructor; cbn; auto 10.
  - (* ACancel *) injection E as <-. unfold w_own. destruct (own s) eqn:OW; try exact I. apply (env_CInv s); auto. constructor; cbn; auto 10.
  - (* AExpire *) injection E as <-. apply (env_CInv s); auto. constructor; cbn; auto 10.
Qed.
Lemma crun_CInv l : forall s s', CInv s -> crun tok run_ s l = Some s' -> CInv s'.
Proof.
  induction l as [|a l IH]; intros s s' I R; cbn in R; [injection R as <-; exact I|].
  destruct (cstep tok run_ s a) as [s1|] eqn:E; [|discriminate]. exact (IH s1 s' (cstep_CInv s a s1 I E) R).
Qed.
End Config.
