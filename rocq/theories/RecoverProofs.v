(** Invariant of the continuations on a runner (properties C122 and C123). *)
From Coq Require Import List Bool Arith Lia.
From Verif Require Import Slots SlotsProofs Threads RecoverModel.
Import ListNotations.

Ltac sp := repeat match goal with |- _ /\ _ => split end.

(** * What the specification says *)
(** The exception that stands for the ending of an operation without a result. *)
Definition exn_of (d : ending) : exn := match d with EVal _ => Code E_FAIL | ECan => OpCanceled | EExn x => x | ECode c => Code (norm c) end.
Definition bad (d : ending) : Prop := match d with EVal _ => False | _ => True end.
(** What an observer of a failed operation may read: exception and code, each as it is or not yet written. *)
Definition half (d : ending) (p : option exn) (c : nat) : Prop :=
  bad d /\ (p = None \/ exists x, d = EExn x /\ p = Some x) /\ (c = hr_of d \/ c = E_PENDING).

Section Config.
Variable k : kind.
Variable tok run_ nc : bool.    (* [nc]: nobody cancels the continuation itself *)

Definition active (p : pc) : nat := match p with Idle => 0 | _ => 1 end.
Definition b2n (b : bool) : nat := if b then 1 else 0.
Definition queued (e : entry) : nat := match e with EQueued _ => 1 | _ => 0 end.
(** How many threads, handlers and entries stand for the rest of the work. *)
Definition live (s : st) : nat := suml active (ths s) + b2n (reg (src s)) + b2n (reg (inn s)) + queued (ent s).

Definition open (s : st) : Prop := sts s = Started \/ sts s = Canceled.
Definition src_bad (s : st) : Prop := exists d, dec (src s) = Some d /\ bad d.
Definition src_val (s : st) : Prop := exists v, dec (src s) = Some (EVal v).
(** Before the callback. *)
Definition pre (s : st) : Prop := calls s = 0 /\ open s.
Definition good (s : st) (e : exn) : Prop := exists d, dec (src s) = Some d /\ bad d /\ (e = exn_of d \/ tok && flag s = true).
Definition at_w (s : st) (x : option exn) : Prop :=
  pre s /\ match x with None => k = KThen /\ src_val s | Some e => k <> KThen /\ good s e end.
Definition arg_ok (s : st) (a : argument) : Prop :=
  match a with
  | AVal v => k = KThen /\ dec (src s) = Some (EVal v)
  | AExn e => k <> KThen /\ exists d, dec (src s) = Some d /\ bad d /\ e = exn_of d end.
Definition arg_pre (s : st) (a : argument) : Prop :=
  match a with AVal v => k = KThen /\ dec (src s) = Some (EVal v) | AExn e => k <> KThen /\ good s e end.
Definition pl_ok (s : st) (l : place) : Prop :=
  match l with Free => run_ = false | OnRunner => run_ = true | Elsewhere => run_ = true /\ gone s = true end.
(** What justifies a result, a failure, an error code. *)
Definition val_ok (s : st) (v : nat) : Prop :=
  (k <> KThen /\ calls s = 0 /\ dec (src s) = Some (EVal v)) \/ said s = Some (Returns v) \/
  (said s = Some (Task true) /\ dec (inn s) = Some (EVal v)).
Definition fail_ok (s : st) (p : option exn) (c : nat) : Prop :=
  (k = KThen /\ calls s = 0 /\ exists d, dec (src s) = Some d /\ half d p c) \/
  (exists x, said s = Some (Throws x) /\ p = Some x /\ c = code_of x) \/
  (said s = Some (Task true) /\ exists d, dec (inn s) = Some d /\ half d p c).
Definition code_ok (s : st) (c : nat) : Prop :=
  (c = E_FAIL /\ said s = Some (Task false)) \/ (c = CANCELLED /\ k = KThen /\ run_ = true /\ gone s = true /\ calls s = 0 /\ src_val s).
Definition stop_ok (s : st) : Prop := nc = true -> tok && flag s = true.
Definition at_pc (s : st) (p : pc) : Prop :=
  match p with
  | Idle => True
  | Att => pre s
  | O0 => pre s /\ dec (src s) <> None
  | XP => k = KThen /\ calls s = 0 /\ src_bad s
  | XC p => k = KThen /\ calls s = 0 /\ exists d, dec (src s) = Some d /\ bad d /\ (p = None \/ exists x, d = EExn x /\ p = Some x)
  | XS p c => fail_ok s p c
  | SG => pre s /\ k <> KThen /\ src_val s
  | E0 | E1 => pre s /\ k <> KThen /\ src_bad s
  | E2 | E3 => pre s /\ k <> KThen /\ src_bad s /\ dec (src s) <> Some ECan
  | E4 => pre s /\ k <> KThen /\ src_bad s /\ dec (src s) <> Some ECan /\ hrw (src s) = true
  | W x => at_w s x
  | AG l => pre s /\ k = KThen /\ src_val s /\ pl_ok s l
  | Chk a l => pre s /\ arg_pre s a /\ pl_ok s l
  | Can | RCan => stop_ok s
  | Call a l => pre s /\ arg_ok s a /\ pl_ok s l
  | T0 b => k = KTask /\ said s = Some (Task b)
  | T1 => k = KTask /\ said s = Some (Task true)
  | B0 => k = KTask /\ said s = Some (Task true) /\ dec (inn s) <> None
  | BG => k = KTask /\ said s = Some (Task true) /\ exists v, dec (inn s) = Some (EVal v)
  | BP => k = KTask /\ said s = Some (Task true) /\ exists d, dec (inn s) = Some d /\ bad d
  | BC p => k = KTask /\ said s = Some (Task true) /\ exists d, dec (inn s) = Some d /\ bad d /\ (p = None \/ exists x, d = EExn x /\ p = Some x)
  | RChk v | RCas v => val_ok s v
  | Err c => sts s <> Started \/ code_ok s c
  end.
Definition wf (o : op) : Prop := (hrw o = true -> fill o = true) /\ (fill o = true -> dec o <> None).
Definition truth (s : st) : Prop :=
  match sts s with
  | Started => True
  | Completed v => val_ok s v
  | Canceled => stop_ok s
  | Failed p c => exists c0, c = norm c0 /\ (fail_ok s p c0 \/ (p = None /\ code_ok s c0))
  end.
(** What is remembered of the call. *)
Definition memo (s : st) : Prop :=
  (calls s = 0 /\ said s = None /\ given s = None /\ where_ s = None) \/
  (calls s = 1 /\ exists a o l, said s = Some o /\ given s = Some a /\ where_ s = Some l /\ arg_ok s a /\ pl_ok s l).
Record Inv (s : st) : Prop := {
  i_len : length (ths s) = 4;
  i_live : live s <= 1;
  i_src : wf (src s);
  i_inn : wf (inn s);
  i_pc : forall i p, nth_error (ths s) i = Some p -> at_pc s p;
  i_reg : reg (src s) = true -> pre s;
  i_rin : reg (inn s) = true -> k = KTask /\ said s = Some (Task true);
  i_ent : forall x, ent s = EQueued x -> at_w s x /\ run_ = true;
  i_memo : memo s;
  i_end : live s = 0 -> ent s = EGone \/ sts s <> Started;
  i_true : truth s
}.
Lemma init_Inv : Inv init.
Proof.
  constructor; try solve [cbn; unfold wf, memo, truth, pre, open; cbn; auto; try (split; discriminate); try discriminate; try lia].
  - intros [|[|[|[|i]]]] p H; cbn in H; try discriminate H; try (injection H as <-; cbn; unfold pre, open; cbn; auto).
    destruct i; discriminate H.
Qed.

(** Steps of the environment keep what a thread knows. *)
Definition ext (s s' : st) : Prop :=
  (forall d, dec (src s) = Some d -> dec (src s') = Some d) /\ (forall d, dec (inn s) = Some d -> dec (inn s') = Some d) /\
  (hrw (src s) = true -> hrw (src s') = true) /\ (flag s = true -> flag s' = true) /\ (gone s = true -> gone s' = true) /\
  calls s' = calls s /\ said s' = said s /\ given s' = given s /\ where_ s' = where_ s /\
  (open s -> open s') /\ (sts s <> Started -> sts s' = sts s).
Lemma ext_tf : forall s s', ext s s' -> tok && flag s = true -> tok && flag s' = true.
Proof. intros s s' (_ & _ & _ & F & _) H. apply andb_true_iff in H. destruct H as (-> & H). rewrite (F H). reflexivity. Qed.
Lemma ext_pre : forall s s', ext s s' -> pre s -> pre s'.
Proof. unfold ext, pre. intuition congruence. Qed.
Lemma ext_val : forall s s', ext s s' -> src_val s -> src_val s'.
Proof. intros s s' (A & _) (v & H). exists v. auto. Qed.
Lemma ext_bad : forall s s', ext s s' -> src_bad s -> src_bad s'.
Proof. intros s s' (A & _) (v & H & B). exists v. auto. Qed.
Lemma ext_pl : forall s s' l, ext s s' -> pl_ok s l -> pl_ok s' l.
Proof. unfold ext. intros s s' [] E H; cbn in *; intuition. Qed.
Lemma ext_good : forall s s' e, ext s s' -> good s e -> good s' e.
Proof. intros s s' e E (d & H & B & C). exists d. split; [apply E; exact H|]. split; [exact B|]. destruct C as [C|C]; [auto|]. right. exact (ext_tf s s' E C). Qed.
Lemma ext_w : forall s s' x, ext s s' -> at_w s x -> at_w s' x.
Proof.
  intros s s' x E (P & H). split; [exact (ext_pre s s' E P)|]. destruct x as [e|]; destruct H as (H1 & H2); (split; [exact H1|]).
  - exact (ext_good s s' e E H2).
  - exact (ext_val s s' E H2).
Qed.
Lemma ext_arg : forall s s' a, ext s s' -> arg_ok s a -> arg_ok s' a.
Proof. intros s s' [v|e] E; cbn; intros (H & K); (split; [exact H|]); [apply E; exact K|]. destruct K as (d & K1 & K2). exists d. split; [apply E; exact K1|exact K2]. Qed.
Lemma ext_argp : forall s s' a, ext s s' -> arg_pre s a -> arg_pre s' a.
Proof. intros s s' [v|e] E; cbn; intros (H & K); (split; [exact H|]); [apply E; exact K|]. exact (ext_good s s' e E K). Qed.
Lemma ext_vok : forall s s' v, ext s s' -> val_ok s v -> val_ok s' v.
Proof. unfold ext, val_ok. intros s s' v (A & B & _ & _ & _ & C & D & _). rewrite C, D. intuition. Qed.
Lemma ext_fok : forall s s' p c, ext s s' -> fail_ok s p c -> fail_ok s' p c.
Proof.
  unfold ext, fail_ok. intros s s' p c (A & B & _ & _ & _ & C & D & _). rewrite C, D. intros [(H1 & H2 & d & H3 & H4)|[H|(H1 & d & H3 & H4)]]; [left|auto|right; right].
  - sp; auto. exists d. auto.
  - split; [exact H1|]. exists d. auto.
Qed.
Lemma ext_cok : forall s s' c, ext s s' -> code_ok s c -> code_ok s' c.
Proof.
  intros s s' c E [(H1 & H2)|(H1 & H2 & H3 & H4 & H5 & H6)]; pose proof (ext_val s s' E) as V; destruct E as (A & B & _ & _ & G & C & D & _); unfold code_ok; rewrite C, D; [auto|].
  right. sp; auto.
Qed.
Lemma ext_stop : forall s s', ext s s' -> stop_ok s -> stop_ok s'.
Proof. intros s s' E H N. exact (ext_tf s s' E (H N)). Qed.
Lemma ext_pc : forall s s' p, ext s s' -> at_pc s p -> at_pc s' p.
Proof.
  intros s s' p E. pose proof (ext_pre s s' E) as P. pose proof (ext_val s s' E) as V. pose proof (ext_bad s s' E) as B.
  pose proof E as (DS & DI & HS & _ & _ & CC & SS & _ & _ & _ & ST).
  assert (NN : dec (src s) <> None -> dec (src s') <> None) by (intros N; destruct (dec (src s)) as [d|] eqn:Q; [rewrite (DS d eq_refl); discriminate|congruence]).
  assert (NI : dec (inn s) <> None -> dec (inn s') <> None) by (intros N; destruct (dec (inn s)) as [d|] eqn:Q; [rewrite (DI d eq_refl); discriminate|congruence]).
  assert (NC : src_bad s -> dec (src s) <> Some ECan -> dec (src s') <> Some ECan) by (intros (d & Q & _) N; rewrite Q in N; rewrite (DS d Q); exact N).
  destruct p; cbn; rewrite ?CC, ?SS; try tauto; try solve [intuition].
  - intros (A1 & A2 & d & A3 & A4). sp; auto. exists d. auto.
  - exact (ext_fok s s' p c E).
  - exact (ext_w s s' x E).
  - intros (A1 & A2 & A3 & A4). sp; auto. exact (ext_pl s s' l E A4).
  - intros (A1 & A2 & A4). sp; auto; [exact (ext_argp s s' a E A2)|exact (ext_pl s s' l E A4)].
  - exact (ext_stop s s' E).
  - intros (A1 & A2 & A4). sp; auto; [exact (ext_arg s s' a E A2)|exact (ext_pl s s' l E A4)].
  - intros (A1 & A2 & v & A3). sp; auto. exists v. auto.
  - intros (A1 & A2 & v & A3 & A4). sp; auto. exists v. auto.
  - intros (A1 & A2 & v & A3 & A4). sp; auto. exists v. auto.
  - exact (ext_vok s s' v E).
  - exact (ext_stop s s' E).
  - exact (ext_vok s s' v E).
  - intros [H|H]; [left; rewrite (ST H); exact H|right; exact (ext_cok s s' c E H)].
Qed.
Lemma ext_memo : forall s s', ext s s' -> memo s -> memo s'.
Proof.
  intros s s' E M. pose proof E as (_ & _ & _ & _ & _ & CC & SS & GG & WW & _). unfold memo. rewrite CC, SS, GG, WW.
  destruct M as [M|(M0 & a & o & l & M1 & M2 & M3 & M4 & M5)]; [left; exact M|right]. split; [exact M0|]. exists a, o, l.
  sp; auto; [exact (ext_arg s s' a E M4)|exact (ext_pl s s' l E M5)].
Qed.
Lemma ext_truth : forall s s', ext s s' -> (sts s <> Started \/ sts s' = Started) -> truth s -> truth s'.
Proof.
  intros s s' E [N|N] T; [|unfold truth; rewrite N; exact I]. pose proof E as (_ & _ & _ & _ & _ & _ & _ & _ & _ & _ & ST).
  unfold truth in *. rewrite (ST N). destruct (sts s); auto.
  - exact (ext_vok s s' v E T).
  - exact (ext_stop s s' E T).
  - destruct T as (c0 & T1 & [T2|(T2 & T3)]); exists c0; (split; [exact T1|]); [left; exact (ext_fok s s' p c0 E T2)|right; split; [exact T2|exact (ext_cok s s' c0 E T3)]].
Qed.
(** A step of the environment: threads and entry stay, so do the registrations. *)
Lemma env_Inv : forall s s', Inv s -> ext s s' -> ths s' = ths s -> ent s' = ent s -> reg (src s') = reg (src s) -> reg (inn s') = reg (inn s) ->
  wf (src s') -> wf (inn s') -> truth s' -> Inv s'.
Proof.
  intros s s' [] E TH EN R1 R2 W1 W2 T.
  assert (L : live s' = live s) by (unfold live; rewrite TH, EN, R1, R2; reflexivity).
  constructor; rewrite ?TH, ?EN, ?L, ?R1, ?R2; auto.
  - intros i p H. exact (ext_pc s s' p E (i_pc0 i p H)).
  - intros H. exact (ext_pre s s' E (i_reg0 H)).
  - intros H. destruct E as (_ & _ & _ & _ & _ & _ & SS & _). rewrite SS. auto.
  - intros x H. destruct (i_ent0 x H) as (A & B). split; [exact (ext_w s s' x E A)|exact B].
  - exact (ext_memo s s' E i_memo0).
  - intros H. destruct (i_end0 H) as [A|A]; [auto|right]. destruct E as (_ & _ & _ & _ & _ & _ & _ & _ & _ & _ & ST). rewrite (ST A). exact A.
Qed.
(** The working thread is alone. *)
Lemma alone : forall s i p, live s <= 1 -> nth_error (ths s) i = Some p -> p <> Idle ->
  reg (src s) = false /\ reg (inn s) = false /\ queued (ent s) = 0 /\ suml active (ths s) = 1 /\ (forall j q, j <> i -> nth_error (ths s) j = Some q -> q = Idle).
Proof.
  intros s i p L N A. unfold live in L. pose proof (suml_ge _ active _ i p N) as G. assert (AP : active p = 1) by (destruct p; auto; congruence).
  assert (forall b, b2n b = 0 -> b = false) by (intros []; auto; discriminate).
  sp; try lia; try (apply H; lia). intros j q D NJ. pose proof (suml_two _ active (ths s) j i q p D NJ N) as T. destruct q; auto; cbn in T; lia.
Qed.
(** Thread [i] moves to [q], the rest of the state to [s']. *)
Lemma move_Inv : forall s s' i p q, Inv s -> nth_error (ths s) i = Some p -> p <> Idle -> ths s' = ths s ->
  active q + b2n (reg (src s')) + b2n (reg (inn s')) + queued (ent s') <= 1 ->
  (active q + b2n (reg (src s')) + b2n (reg (inn s')) + queued (ent s') = 0 -> ent s' = EGone \/ sts s' <> Started) ->
  wf (src s') -> wf (inn s') -> at_pc s' q ->
  (reg (src s') = true -> pre s') -> (reg (inn s') = true -> k = KTask /\ said s' = Some (Task true)) ->
  (forall x, ent s' = EQueued x -> at_w s' x /\ run_ = true) -> memo s' -> truth s' -> Inv (put s' i q).
Proof.
  intros s s' i p q I N A TH L1 L2 W1 W2 Q R1 R2 EQ M T. destruct (alone s i p (i_live s I) N A) as (_ & _ & _ & S1 & O).
  pose proof (suml_set _ active (ths s) i p q N) as S2. assert (AP : active p = 1) by (destruct p; auto; congruence).
  assert (LV : live (put s' i q) = active q + b2n (reg (src s')) + b2n (reg (inn s')) + queued (ent s')) by (unfold live; cbn; rewrite TH; lia).
  constructor; rewrite ?LV; cbn; auto.
  - rewrite set_length, TH. exact (i_len s I).
  - intros j r H. rewrite TH in H. apply nth_set in H. destruct H as [(-> & ->)|(D & H)].
    + destruct q; exact Q.
    + rewrite (O j r ltac:(congruence) H). exact Logic.I.
Qed.

Lemma stay_Inv : forall s i p q, Inv s -> nth_error (ths s) i = Some p -> p <> Idle -> q <> Idle -> at_pc s q -> Inv (put s i q).
Proof.
  intros s i p q I N A B Q. destruct (alone s i p (i_live s I) N A) as (R1 & R2 & E & _ & _). pose proof I as [].
  assert (AQ : active q = 1) by (destruct q; auto; congruence).
  apply (move_Inv s s i p q); auto; rewrite ?R1, ?R2, ?AQ, ?E; cbn; try lia; auto.
Qed.
Lemma settle_ext : forall x s, open s -> (forall v, x <> Completed v) -> (forall c d, x <> Failed c d) -> x <> Started -> ext s (settle x s).
Proof. intros x s O A B C. unfold ext, settle. destruct (sts s) eqn:E; cbn; sp; auto; try congruence. intros _. unfold open. cbn. destruct x; auto; congruence. Qed.
Definition just (s : st) (x : status) : Prop :=
  match x with
  | Started => False
  | Completed v => val_ok s v
  | Canceled => stop_ok s
  | Failed p c => exists c0, c = norm c0 /\ (fail_ok s p c0 \/ (p = None /\ code_ok s c0)) end.
Lemma settle_sts : forall x s, x <> Started -> sts (settle x s) <> Started.
Proof. intros x s N. unfold settle. destruct (sts s) eqn:E; cbn; congruence. Qed.
Lemma settle_truth : forall x s, truth s -> just s x -> truth (settle x s).
Proof. intros x s T J. unfold settle. destruct (sts s) eqn:E; auto. unfold truth. cbn. destruct x; cbn in *; auto. Qed.
Lemma settle_Inv : forall s i p q x, Inv s -> nth_error (ths s) i = Some p -> p <> Idle -> (sts s = Started -> just s x) -> x <> Started ->
  q = Idle \/ (exists c, q = Err c) -> Inv (put (settle x s) i q).
Proof.
  intros s i p q x I N A J X Q. destruct (alone s i p (i_live s I) N A) as (R1 & R2 & E & _ & _). pose proof I as [].
  assert (S1 : src (settle x s) = src s) by (unfold settle; destruct (sts s); reflexivity).
  assert (S2 : inn (settle x s) = inn s) by (unfold settle; destruct (sts s); reflexivity).
  assert (S3 : ths (settle x s) = ths s) by (unfold settle; destruct (sts s); reflexivity).
  assert (S4 : ent (settle x s) = ent s) by (unfold settle; destruct (sts s); reflexivity).
  pose proof (settle_sts x s X) as NS.
  apply (move_Inv s (settle x s) i p q); rewrite ?S1, ?S2, ?S4, ?R1, ?R2, ?E; cbn; auto; try discriminate.
  - destruct q; cbn; lia.
  - destruct Q as [->|(c & ->)]; cbn; auto.
  - intros y H. rewrite H in E. discriminate E.
  - unfold memo, settle in *. destruct (sts s); auto.
  - destruct (sts s) eqn:Y; [apply settle_truth; auto|..]; unfold settle; rewrite Y; exact i_true0.
Qed.
Lemma val_eptr : forall o, wf o -> match eptr o with Some x => dec o = Some (EExn x) | None => True end.
Proof. intros o W. unfold eptr. destruct (dec o) as [[]|]; auto. destruct (fill o); auto. Qed.
Lemma inside_Inv : forall s i p s' q, Inv s -> nth_error (ths s) i = Some p -> inside k tok s p = Some (s', q) -> Inv (put s' i q).
Proof.
  intros s i p s' q I N E. pose proof (i_pc s I i p N) as P. pose proof (i_src s I) as WS. pose proof (i_inn s I) as WI.
  assert (NE : p <> Idle) by (intros ->; discriminate E). destruct (alone s i p (i_live s I) N NE) as (R1 & R2 & EQ & _ & _). pose proof I as [].
  destruct p; cbn in E; cbn in P; try discriminate E.
  - (* Att *) destruct (dec (src s)) as [d|] eqn:D.
    + injection E as <- <-. apply (stay_Inv s i Att O0 I N NE ltac:(discriminate)). cbn. split; [exact P|congruence].
    + injection E as <- <-. apply (move_Inv s _ i Att Idle I N NE); cbn; auto; try (rewrite ?R2, ?EQ; cbn; auto; try lia; try discriminate; fail).
      * destruct WS as (W1 & W2). split; cbn; [exact W1|]. rewrite D in W2. exact W2.
      * intros x H. rewrite H in EQ. discriminate EQ.
      * unfold memo in *. cbn. destruct i_memo0 as [M|(M & _)]; [left; exact M|destruct P; congruence].
      * unfold truth in *. cbn. destruct P as (P1 & [P2|P2]); rewrite P2 in *; auto.
  - (* O0 *) destruct P as (P & ND). destruct (dec (src s)) as [[v| | |]|] eqn:D; [| | | |congruence]; injection E as <- <-;
      (apply (stay_Inv s i O0 _ I N NE); [destruct k; discriminate|]); destruct k eqn:KK; cbn; unfold at_w, src_val, src_bad; rewrite ?D;
      sp; auto; try discriminate; try congruence; try (destruct P; tauto); try (eexists; split; [reflexivity|exact Logic.I]); try (eexists; reflexivity).
  - (* XP *) injection E as <- <-. apply (stay_Inv s i XP _ I N NE); [discriminate|]. destruct P as (P1 & P2 & d & P3 & P4). cbn. sp; auto. exists d. sp; auto.
    pose proof (val_eptr _ WS) as V. destruct (eptr (src s)) as [x|]; [right|left; reflexivity]. exists x. split; congruence.
  - (* XC *) injection E as <- <-. apply (stay_Inv s i (XC p) _ I N NE); [discriminate|]. destruct P as (P1 & P2 & d & P3 & P4 & P5). cbn. left. sp; auto. exists d. split; [exact P3|]. unfold half. sp; auto.
    unfold hr. rewrite P3. destruct (hrw (src s)); auto.
  - (* XS *) injection E as <- <-. apply (settle_Inv s i _ Idle _ I N NE); [|discriminate|auto]. intros _. cbn. exists c. auto.
  - (* SG *) destruct (hrw (src s)); [|discriminate E]. destruct P as (P1 & P2 & v & D). rewrite D in E. injection E as <- <-.
    apply (stay_Inv s i SG _ I N NE); [discriminate|]. cbn. left. destruct P1. auto.
  - (* E0 *) destruct P as (P1 & P2 & P3). pose proof (val_eptr _ WS) as V. destruct (eptr (src s)) as [x|]; injection E as <- <-;
      (apply (stay_Inv s i E0 _ I N NE); [discriminate|]); cbn; unfold at_w; sp; auto. exists (EExn x). cbn. auto.
  - (* E1 *) destruct P as (P1 & P2 & d & P3 & P4). destruct (o_canceled (tok && flag s) (src s)) eqn:O; injection E as <- <-;
      (apply (stay_Inv s i E1 _ I N NE); [discriminate|]); cbn; unfold at_w; sp; auto.
    + exists d. sp; auto. unfold o_canceled in O. rewrite P3 in O. destruct d; cbn in *; auto; contradiction.
    + exists d. auto.
    + intros Q. unfold o_canceled in O. rewrite Q in O. discriminate O.
  - (* E2 *) destruct P as (P1 & P2 & (d & P3 & P4) & P5). destruct (o_canceled (tok && flag s) (src s)) eqn:O; injection E as <- <-;
      (apply (stay_Inv s i E2 _ I N NE); [discriminate|]); cbn; unfold at_w; sp; auto.
    + exists d. sp; auto. unfold o_canceled in O. rewrite P3 in O. destruct d; cbn in *; auto; try contradiction; congruence.
    + exists d. auto.
  - (* E3 *) destruct (hrw (src s)) eqn:H; [|discriminate E]. injection E as <- <-. apply (stay_Inv s i E3 _ I N NE); [discriminate|]. cbn. tauto.
  - (* E4 *) destruct P as (P1 & P2 & (d & P3 & P4) & P5 & P6). rewrite P3 in *. destruct d as [v| |x|c]; [contradiction|congruence|..]; injection E as <- <-;
      (apply (stay_Inv s i E4 _ I N NE); [discriminate|]); cbn; unfold at_w; sp; auto; eexists; (split; [exact P3|]); cbn; (split; [exact Logic.I|left]).
    + unfold eptr. rewrite P3, (proj1 WS P6). reflexivity.
    + unfold eptr, hr. rewrite P3, P6. reflexivity.
  - (* AG *) destruct (hrw (src s)); [|discriminate E]. destruct P as (P1 & P2 & (v & D) & P4). rewrite D in E. injection E as <- <-.
    apply (stay_Inv s i (AG l) _ I N NE); [discriminate|]. cbn. auto.
  - (* Chk *) destruct P as (P1 & P2 & P3). destruct (canceled tok s) eqn:C; injection E as <- <-; (apply (stay_Inv s i (Chk a l) _ I N NE); [discriminate|]); cbn.
    + unfold canceled in C. unfold stop_ok. intros NC. destruct P1 as (_ & [Y|Y]); rewrite Y in C; [exact C|]. unfold truth in i_true0. rewrite Y in i_true0. exact (i_true0 NC).
    + sp; auto. unfold canceled in C. destruct P1 as (_ & [Y|Y]); rewrite Y in C; [|discriminate C]. destruct a as [v|e]; cbn in *; [exact P2|]. destruct P2 as (P2 & d & Q1 & Q2 & [Q3|Q3]); [|congruence]. split; [exact P2|]. exists d. auto.
  - (* Can *) injection E as <- <-. apply (settle_Inv s i _ Idle _ I N NE); [|discriminate|auto]. intros _. exact P.
  - (* T0 *) destruct P as (P1 & P2). destruct (canceled tok s) eqn:C; [|destruct b]; injection E as <- <-; (apply (stay_Inv s i _ _ I N NE); [discriminate|]); cbn.
    + unfold stop_ok. intros NC. unfold canceled in C. unfold truth in i_true0. destruct (sts s) eqn:Y; auto; try discriminate C.
    + auto.
    + right. left. auto.
  - (* T1 *) destruct P as (P1 & P2). destruct (dec (inn s)) as [d|] eqn:D.
    + injection E as <- <-. apply (stay_Inv s i T1 B0 I N NE ltac:(discriminate)). cbn. sp; auto. congruence.
    + injection E as <- <-. apply (move_Inv s _ i T1 Idle I N NE); cbn; auto; try (rewrite ?R1, ?EQ; cbn; auto; try lia; try discriminate; fail).
      * destruct WI as (W1 & W2). split; cbn; [exact W1|]. rewrite D in W2. exact W2.
      * unfold truth in *. cbn. destruct (sts s); auto.
        { unfold val_ok in *; cbn. rewrite D in i_true0. intuition congruence. }
        { destruct i_true0 as (c0 & T1 & T2). exists c0. split; [exact T1|]. unfold fail_ok, code_ok, src_val in *. cbn. rewrite D in T2.
          destruct T2 as [[T|[T|(T & d & T3 & _)]]|T]; [left; left; exact T|left; right; left; exact T|discriminate T3|right; exact T]. }
  - (* B0 *) destruct P as (P1 & P2 & P3). destruct (dec (inn s)) as [d|] eqn:D; [|congruence]. destruct d; injection E as <- <-;
      (apply (stay_Inv s i B0 _ I N NE); [discriminate|]); cbn; sp; auto; eexists; try (split; [exact D|exact Logic.I]); exact D.
  - (* BG *) destruct (hrw (inn s)); [|discriminate E]. destruct P as (P1 & P2 & v & D). rewrite D in E. injection E as <- <-.
    apply (stay_Inv s i BG _ I N NE); [discriminate|]. cbn. right. right. auto.
  - (* BP *) injection E as <- <-. apply (stay_Inv s i BP _ I N NE); [discriminate|]. destruct P as (P1 & P2 & d & P3 & P4). cbn. sp; auto. exists d. sp; auto.
    pose proof (val_eptr _ WI) as V. destruct (eptr (inn s)) as [x|]; [right|left; reflexivity]. exists x. split; congruence.
  - (* BC *) injection E as <- <-. apply (stay_Inv s i (BC p) _ I N NE); [discriminate|]. destruct P as (P1 & P2 & d & P3 & P4 & P5). cbn. right. right. split; [exact P2|]. exists d. split; [exact P3|]. unfold half. sp; auto.
    unfold hr. rewrite P3. destruct (hrw (inn s)); auto.
  - (* RChk *) destruct (canceled tok s) eqn:C; injection E as <- <-; (apply (stay_Inv s i (RChk v) _ I N NE); [discriminate|]); cbn; auto.
    unfold stop_ok. intros NC. unfold canceled in C. unfold truth in i_true0. destruct (sts s) eqn:Y; auto; try discriminate C.
  - (* RCan *) injection E as <- <-. apply (settle_Inv s i _ _ _ I N NE); [|discriminate|right; eexists; reflexivity]. intros _. exact P.
  - (* RCas *) injection E as <- <-. apply (settle_Inv s i _ _ _ I N NE); [|discriminate|destruct (sts s); eauto]. intros _. exact P.
  - (* Err *) injection E as <- <-. apply (settle_Inv s i _ _ _ I N NE); [|discriminate|auto]. intros Y. destruct P as [P|P]; [congruence|]. cbn. exists c. auto.
Qed.
Lemma resume_at : forall s x l, at_w s x -> pl_ok s l -> at_pc s (resume x l).
Proof. intros s [e|] l (P & H) L; cbn; destruct H; sp; auto. Qed.
Lemma step_Inv : forall s a s', Inv s -> (nc = true -> a <> Cancel) -> step k tok run_ s a = Some s' -> Inv s'.
Proof.
  intros s a s' I NCa E. pose proof I as []. destruct a; cbn in E.
  - (* Decide *) destruct (dec (src s)) eqn:D; [discriminate E|]. injection E as <-. destruct i_src0 as (W1 & W2).
    assert (F : fill (src s) = false) by (destruct (fill (src s)); auto; exfalso; exact (W2 eq_refl D)).
    assert (H : hrw (src s) = false) by (destruct (hrw (src s)); auto; specialize (W1 eq_refl); congruence).
    assert (X : ext s (set_src s (Op (Some e) false false (reg (src s))))) by (unfold ext, set_src, open; cbn; sp; auto; congruence).
    apply (env_Inv s _ I X); cbn; auto; try solve [split; discriminate]; try (apply (ext_truth s _ X); auto; cbn; destruct (sts s); auto; left; discriminate).
  - (* Fill *) destruct (dec (src s)) as [e|] eqn:D; [|discriminate E]. destruct (fill (src s)); [discriminate E|]. injection E as <-.
    assert (X : ext s (set_src s (Op (Some e) true (hrw (src s)) (reg (src s))))) by (unfold ext, set_src, open; cbn; sp; auto; congruence).
    apply (env_Inv s _ I X); cbn; auto; try solve [split; cbn; [auto|discriminate]]; try (apply (ext_truth s _ X); auto; cbn; destruct (sts s); auto; left; discriminate).
  - (* WriteHr *) destruct (fill (src s)) eqn:F; [|discriminate E]. destruct (hrw (src s)); [discriminate E|]. injection E as <-.
    assert (X : ext s (set_src s (Op (dec (src s)) true true (reg (src s))))) by (unfold ext, set_src, open; cbn; sp; auto; congruence).
    apply (env_Inv s _ I X); cbn; auto; try solve [split; cbn; [auto|]; intros _; exact (proj2 i_src0 F)]; try (apply (ext_truth s _ X); auto; cbn; destruct (sts s); auto; left; discriminate).
  - (* Take *) destruct (hrw (src s)) eqn:H; [|discriminate E]. destruct (reg (src s)) eqn:R; [|discriminate E]. injection E as <-.
    assert (ND : dec (src s) <> None) by (apply (proj2 i_src0), (proj1 i_src0), H). specialize (i_reg0 eq_refl).
    unfold live in i_live0. rewrite R in i_live0. cbn in i_live0. assert (S0 : suml active (ths s) = 0) by lia. assert (EQ : queued (ent s) = 0) by lia. assert (RI : b2n (reg (inn s)) = 0) by lia.
    assert (X : ext s (set_src s (Op (dec (src s)) true true false))) by (unfold ext, set_src, open; cbn; sp; auto).
    destruct (nth_error (ths s) 1) as [p|] eqn:N1; [|apply nth_error_None in N1; lia]. pose proof (suml_0 _ active (ths s) S0 1 p N1) as A1.
    pose proof (suml_set _ active (ths s) 1 p O0 N1) as S1. cbn in S1.
    constructor; cbn; auto; try solve [rewrite set_length; exact i_len0 | unfold live; cbn; lia | split; cbn; auto | discriminate | intros x Q; rewrite Q in EQ; discriminate EQ
      | exact (ext_memo s _ X i_memo0) | apply (ext_truth s _ X); auto; cbn; destruct (sts s); auto; left; discriminate].
    intros j q HJ. apply nth_set in HJ. destruct HJ as [(-> & ->)|(D & HJ)].
    + cbn. split; [exact i_reg0|exact ND].
    + pose proof (suml_0 _ active (ths s) S0 j q HJ) as A. destruct q; try discriminate A. exact Logic.I.
  - (* IDecide *) destruct (dec (inn s)) eqn:D; [discriminate E|]. injection E as <-. destruct i_inn0 as (W1 & W2).
    assert (X : ext s (set_inn s (Op (Some e) false false (reg (inn s))))) by (unfold ext, set_inn, open; cbn; sp; auto; congruence).
    apply (env_Inv s _ I X); cbn; auto; try solve [split; discriminate]; try (apply (ext_truth s _ X); auto; cbn; destruct (sts s); auto; left; discriminate).
  - destruct (dec (inn s)) as [e|] eqn:D; [|discriminate E]. destruct (fill (inn s)); [discriminate E|]. injection E as <-.
    assert (X : ext s (set_inn s (Op (Some e) true (hrw (inn s)) (reg (inn s))))) by (unfold ext, set_inn, open; cbn; sp; auto; congruence).
    apply (env_Inv s _ I X); cbn; auto; try solve [split; cbn; [auto|discriminate]]; try (apply (ext_truth s _ X); auto; cbn; destruct (sts s); auto; left; discriminate).
  - destruct (fill (inn s)) eqn:F; [|discriminate E]. destruct (hrw (inn s)); [discriminate E|]. injection E as <-.
    assert (X : ext s (set_inn s (Op (dec (inn s)) true true (reg (inn s))))) by (unfold ext, set_inn, open; cbn; sp; auto; congruence).
    apply (env_Inv s _ I X); cbn; auto; try solve [split; cbn; [auto|]; intros _; exact (proj2 i_inn0 F)]; try (apply (ext_truth s _ X); auto; cbn; destruct (sts s); auto; left; discriminate).
  - (* ITake *) destruct (hrw (inn s)) eqn:H; [|discriminate E]. destruct (reg (inn s)) eqn:R; [|discriminate E]. injection E as <-.
    assert (ND : dec (inn s) <> None) by (apply (proj2 i_inn0), (proj1 i_inn0), H). specialize (i_rin0 eq_refl).
    unfold live in i_live0. rewrite R in i_live0. cbn in i_live0. assert (S0 : suml active (ths s) = 0) by lia. assert (EQ : queued (ent s) = 0) by lia. assert (RI : b2n (reg (src s)) = 0) by lia.
    assert (X : ext s (set_inn s (Op (dec (inn s)) true true false))) by (unfold ext, set_inn, open; cbn; sp; auto).
    destruct (nth_error (ths s) 3) as [p|] eqn:N1; [|apply nth_error_None in N1; lia]. pose proof (suml_0 _ active (ths s) S0 3 p N1) as A1.
    pose proof (suml_set _ active (ths s) 3 p B0 N1) as S1. cbn in S1.
    constructor; cbn; auto; try solve [rewrite set_length; exact i_len0 | unfold live; cbn; lia | split; cbn; auto | discriminate | intros x Q; rewrite Q in EQ; discriminate EQ
      | exact (ext_memo s _ X i_memo0) | apply (ext_truth s _ X); auto; cbn; destruct (sts s); auto; left; discriminate].
    intros j q HJ. apply nth_set in HJ. destruct HJ as [(-> & ->)|(D & HJ)].
    + cbn. tauto.
    + pose proof (suml_0 _ active (ths s) S0 j q HJ) as A. destruct q; try discriminate A. exact Logic.I.
  - (* Go *) destruct (nth_error (ths s) i) as [p|] eqn:N; [|discriminate E]. destruct (inside k tok s p) as [[s1 q]|] eqn:Q; [|discriminate E]. injection E as <-. exact (inside_Inv s i p s1 q I N Q).
  - (* Where *) destruct (nth_error (ths s) i) as [p|] eqn:N; [|discriminate E]. destruct p; try discriminate E. pose proof (i_pc0 i _ N) as P. cbn in P.
    destruct (alone s i _ i_live0 N ltac:(discriminate)) as (R1 & R2 & EQ & _ & _).
    assert (RES : forall l, pl_ok s l -> Inv (put s i (resume x l))).
    { intros l L. apply (stay_Inv s i (W x) _ I N); [discriminate|destruct x; discriminate|exact (resume_at s x l P L)]. }
    assert (PST : Inv (put (set_ent s (if ok then EQueued x else EGone)) i Idle) \/ run_ = false).
    { destruct run_ eqn:RR; [left|right; reflexivity]. apply (move_Inv s _ i (W x) Idle I N); cbn; auto; try discriminate; rewrite ?R1, ?R2; cbn; try discriminate.
      - destruct ok; cbn; lia.
      - destruct ok; cbn; auto; discriminate.
      - intros y Q. destruct ok; [injection Q as <-|discriminate Q]. auto. }
    unfold place_of in E. destruct run_ eqn:RR; cbn in E.
    + destruct (gone s) eqn:G.
      * destruct x as [e|].
        { injection E as <-. apply RES. cbn. auto. }
        { destruct c; injection E as <-; [apply RES; cbn; auto|..]; (apply (stay_Inv s i (W None) _ I N); [discriminate|discriminate|]);
            destruct P as (P1 & P2 & P3); cbn; right; right; destruct P1; sp; auto. }
      * destruct c; [|injection E as <-; apply RES; exact RR|]; destruct PST as [PST|PST]; try congruence; destruct ok; injection E as <-; exact PST.
    + injection E as <-. apply RES. exact RR.
  - (* Do *) destruct (nth_error (ths s) i) as [p|] eqn:N; [|discriminate E]. destruct p; try discriminate E. pose proof (i_pc0 i _ N) as P. cbn in P. destruct P as (P1 & P2 & P3).
    destruct (alone s i _ i_live0 N ltac:(discriminate)) as (R1 & R2 & EQ & _ & _). destruct P1 as (P1 & P4).
    assert (Z : exists q, s' = put (St (src s) (inn s) (sts s) (flag s) (gone s) (ths s) (ent s) (S (calls s)) (Some a) (Some o) (Some l)) i q /\ q <> Idle /\
      at_pc (St (src s) (inn s) (sts s) (flag s) (gone s) (ths s) (ent s) (S (calls s)) (Some a) (Some o) (Some l)) q).
    { destruct k eqn:KK, o; try discriminate E; injection E as <-; eexists; (split; [reflexivity|]); (split; [discriminate|]); cbn;
        try (right; left; reflexivity); try (right; left; eexists; sp; reflexivity); auto. }
    destruct Z as (q & -> & Q1 & Q2). clear E. assert (AQ : active q = 1) by (destruct q; auto; congruence).
    apply (move_Inv s _ i (Call a l) q I N ltac:(discriminate)); cbn; auto; rewrite ?R1, ?R2, ?EQ, ?AQ; cbn; auto; try lia; try discriminate.
    + intros x H. rewrite H in EQ. discriminate EQ.
    + right. cbn. split; [congruence|]. exists a, o, l. sp; auto.
    + unfold truth. cbn. unfold truth in i_true0. destruct P4 as [P4|P4]; rewrite P4 in *; auto.
  - (* Begin *) destruct (ent s) as [|x|] eqn:EN; try discriminate E. injection E as <-. destruct (i_ent0 x eq_refl) as (AW & RR).
    unfold live in i_live0. rewrite EN in i_live0. cbn in i_live0. assert (S0 : suml active (ths s) = 0) by lia.
    destruct (nth_error (ths s) 2) as [p|] eqn:N1; [|apply nth_error_None in N1; lia]. pose proof (suml_0 _ active (ths s) S0 2 p N1) as A1.
    pose proof (suml_set _ active (ths s) 2 p (resume x OnRunner) N1) as S1. assert (AR : active (resume x OnRunner) = 1) by (destruct x; reflexivity).
    constructor; cbn; auto; try solve [discriminate | rewrite set_length; exact i_len0 | unfold live; cbn; lia].
    + intros j q HJ. apply nth_set in HJ. destruct HJ as [(-> & ->)|(D & HJ)].
      * pose proof (resume_at s x OnRunner AW RR) as RA. destruct x; exact RA.
      * pose proof (suml_0 _ active (ths s) S0 j q HJ) as A. destruct q; try discriminate A. exact Logic.I.
  - (* Discard *) destruct (ent s) as [|x|] eqn:EN; try discriminate E. injection E as <-.
    constructor; cbn; auto; try discriminate.
    + unfold live in *. rewrite EN in i_live0. cbn in *. lia.
  - (* Token *) injection E as <-. match goal with |- Inv ?t => assert (X : ext s t) by (unfold ext, open; cbn; sp; auto) end.
    apply (env_Inv s _ I X); cbn; auto; try (apply (ext_truth s _ X); auto; cbn; destruct (sts s); auto; left; discriminate).
  - (* Cancel *) injection E as <-. unfold settle. destruct (sts s) eqn:Y; try exact I. match goal with |- Inv ?t => assert (X : ext s t) by (unfold ext, open; cbn; sp; auto; congruence) end.
    apply (env_Inv s _ I X); cbn; auto. intros Z. exfalso. exact (NCa Z eq_refl).
  - (* Expire *) injection E as <-. match goal with |- Inv ?t => assert (X : ext s t) by (unfold ext, open; cbn; sp; auto) end.
    apply (env_Inv s _ I X); cbn; auto; try (apply (ext_truth s _ X); auto; cbn; destruct (sts s); auto; left; discriminate).
Qed.
Lemma run_Inv : forall l s s', Inv s -> (nc = true -> ~ In Cancel l) -> run k tok run_ s l = Some s' -> Inv s'.
Proof.
  induction l as [|a l IH]; intros s s' I N R; cbn in R; [injection R as <-; exact I|].
  destruct (step k tok run_ s a) as [s1|] eqn:E; [|discriminate]. apply (IH s1 s'); auto.
  - apply (step_Inv s a s1 I); [|exact E]. intros Z ->. apply (N Z). left. reflexivity.
  - intros Z H. apply (N Z). right. exact H.
Qed.
End Config.
