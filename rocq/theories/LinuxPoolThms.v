(** Properties C114-C116: the thread pool of the Linux build. *)
From Coq Require Import Lia List Bool Arith.
From Verif Require Import Slots SlotsProofs Threads LinuxPoolModel LinuxPoolProofs LinuxPoolClean LinuxPoolRuns.
Import ListNotations.

Lemma suml_in : forall A (f : A -> nat) l x, In x l -> f x <= suml f l.
Proof. induction l as [|y l IH]; intros x H; cbn; [destruct H|]. destruct H as [->|H]; [lia|]. apply IH in H. lia. Qed.
Lemma is_refl : forall k, is k k = 1.
Proof. intros. unfold is. rewrite Nat.eqb_refl. reflexivity. Qed.

(** How often an event is in the log. *)
Definition ev_eqb (a b : ev) : bool :=
  match a, b with
  | EStart j, EStart k | EAcc j, EAcc k | ERej j, ERej k | EQueue j, EQueue k | EDead j, EDead k => Nat.eqb j k
  | EWild, EWild => true
  | _, _ => false
  end.
Definition times (e : ev) (l : list ev) : nat := length (filter (ev_eqb e) l).
Lemma times_start : forall k l, times (EStart k) l = suml (isstart k) l.
Proof. intros k l. unfold times. induction l as [|e l IH]; [reflexivity|]. cbn. destruct e; cbn; auto. unfold is. rewrite (Nat.eqb_sym k). destruct (Nat.eqb k0 k); cbn; lia. Qed.
Lemma times_acc : forall k l, times (EAcc k) l = suml (isacc k) l.
Proof. intros k l. unfold times. induction l as [|e l IH]; [reflexivity|]. cbn. destruct e; cbn; auto. unfold is. rewrite (Nat.eqb_sym k). destruct (Nat.eqb k0 k); cbn; lia. Qed.
Lemma times_rej : forall k l, times (ERej k) l = suml (isrej k) l.
Proof. intros k l. unfold times. induction l as [|e l IH]; [reflexivity|]. cbn. destruct e; cbn; auto. unfold is. rewrite (Nat.eqb_sym k). destruct (Nat.eqb k0 k); cbn; lia. Qed.

(** * C114 *)
(** There are never more threads than the limit, so no more than that many callbacks run at once. *)
Theorem C114_limit : forall M inh n l s, run M inh (init n) l = Some s ->
  length (th s) <= M /\ length (filter (fun x => match pc x with T1 _ | T4 _ => true | _ => false end) (th s)) <= M.
Proof.
  intros M inh n l s R. destruct (run_Gcnt _ _ _ _ _ R) as (A & B). assert (length (th s) <= M) by lia. split; [assumption|].
  assert (forall (f : thr -> bool) q, length (filter f q) <= length q). { intros f q. induction q as [|x q IH]; cbn; [lia|]. destruct (f x); cbn; lia. }
  specialize (H0 (fun x => match pc x with T1 _ | T4 _ => true | _ => false end) (th s)). lia.
Qed.
(** Each call gets one answer, and a task whose call was answered with an error is never run. *)
Theorem C114_answer : forall M inh n l s k, run M inh (init n) l = Some s ->
  times (EAcc k) (log s) + times (ERej k) (log s) <= 1 /\ (In (ERej k) (log s) -> ~ In (EStart k) (log s)).
Proof.
  intros M inh n l s k R. split.
  - pose proof (run_Gacc _ _ _ _ _ R k) as G. rewrite times_acc, times_rej. unfold lt1 in G. destruct (Nat.ltb k (nt s)); lia.
  - intros E S. destruct (run_Gvis _ _ _ _ _ R k) as (_ & Z & _); [right; right; exact S|].
    apply (suml_in _ (isrej k)) in E. cbn in E. rewrite is_refl in E. lia.
Qed.
(** ExecuteTask fails only when an allocation or pthread_create fails. *)
Definition NoFail (s : st) : Prop := (forall k, ~ In (ERej k) (log s)) /\ (forall k, ~ In (C12 k) (ca s)).
Lemma step_NoFail : forall M inh s a s', step M inh s a = Some s' -> (forall i, a <> Call i false) -> NoFail s -> NoFail s'.
Proof.
  intros M inh s a s' E NA (A & B). unfold step in E. destruct (dead s); [discriminate|]. destruct a as [i o|t].
  - destruct o; [|destruct (NA i eq_refl)]. destruct (nth_error (ca s) i) as [c|] eqn:N; [|discriminate].
    assert (NC : forall k, c <> C12 k) by (intros k ->; apply (B k); eapply nth_error_In; eassumption).
    destruct c; cbn [cstep] in E; unfold look in E;
      repeat match type of E with
      | context [match ?e with _ => _ end] => match e with context [match _ with _ => _ end] => fail 1 | _ => destruct e eqn:? end
      end; try discriminate; try (destruct (NC _ eq_refl)); injection E as <-;
      (split; cbn [log ca setca addlog kill addth setth sethd setcnt setq In]; intros k1 H;
       [repeat match type of H with _ \/ _ => destruct H as [H|H]; [discriminate|] end; apply (A k1 H)
       |first [apply In_set in H; destruct H as [H|H]; [discriminate|apply (B k1 H)]|apply (B k1 H)]]).
  - destruct (nth_error (th s) t) as [x|] eqn:N; [|discriminate]. unfold tstep in E.
    repeat match type of E with
      | context [match ?e with _ => _ end] => match e with context [match _ with _ => _ end] => fail 1 | _ => destruct e eqn:? end
      end; try discriminate; injection E as <-;
      (split; cbn [log ca setca addlog kill setth sethd setq In]; intros k1 H; [|apply (B k1 H)];
       repeat match type of H with _ \/ _ => destruct H as [H|H]; [discriminate|] end; apply (A k1 H)).
Qed.
Theorem C114_reason : forall M inh n l s k, run M inh (init n) l = Some s -> (forall i, ~ In (Call i false) l) ->
  ~ In (ERej k) (log s).
Proof.
  intros M inh n l s k R NF. assert (G : forall l s0 s1, run M inh s0 l = Some s1 -> (forall i, ~ In (Call i false) l) -> NoFail s0 -> NoFail s1).
  { clear. induction l as [|a l IH]; intros s0 s1 R F I; cbn in R; [injection R as <-; exact I|].
    destruct (exec M inh s0 a) as [s2|] eqn:E; [|discriminate]. refine (IH _ _ R _ _).
    - intros i H. apply (F i). right. exact H.
    - unfold exec in E. destruct (step M inh s0 a) as [s3|] eqn:S; [|discriminate]. cbn in E. injection E as <-.
      apply (step_NoFail _ _ _ _ _ S) in I; [exact I|]. intros i ->. apply (F i). left. reflexivity. }
  refine (proj1 (G l _ _ R NF _) k). split; [intros j []|]. intros j H. cbn in H. apply repeat_spec in H. discriminate.
Qed.

(** * C115 *)
(** Nothing can happen any more: no call is under way and every thread waits for a signal. *)
Definition rest (s : st) : Prop :=
  dead s = false /\ Forall (fun c => c = CI) (ca s) /\ Forall (fun x => pc x = T9 /\ sg x = false) (th s).
(** ... except that a new call starts. *)
Lemma rest_stuck : forall M inh s t, rest s -> exec M inh s (Run t) = None.
Proof.
  intros M inh s t (D & _ & T). unfold exec, step. rewrite D. destruct (nth_error (th s) t) as [x|] eqn:N; [|reflexivity].
  rewrite Forall_forall in T. destruct (T x (nth_error_In _ _ N)) as (P & S). unfold tstep. rewrite P, S. reflexivity.
Qed.
(** The task is in the queue. *)
Definition queued (s : st) (k : nat) : Prop := exists i, ri s <= i < wi s /\ nth_error (buf s) i = Some (Some k).

Lemma in_que : forall s k, In (Some k) (que s) -> queued s k.
Proof.
  intros s k H. unfold que in H. apply In_nth_error in H. destruct H as (j & H).
  assert (SK : forall (b : list (option nat)) m i, nth_error (skipn m b) i = nth_error b (m + i)).
  { intros b m. revert b. induction m as [|m IH]; intros [|x b] i; cbn; auto. destruct i; reflexivity. }
  rewrite SK in H. assert (L : ri s + j < length (firstn (wi s) (buf s))) by (apply nth_error_Some; congruence).
  rewrite firstn_length in L. rewrite nth_firstn in H by lia. exists (ri s + j). split; [lia|exact H].
Qed.

(** As long as no end of a container is used by two threads at once: no task is run twice, and when nothing can happen any
    more, every accepted task has been run exactly once or is still in the queue. *)
Theorem C115_once_partial : forall M inh n l s k, run M inh (init n) l = Some s -> ov s = false ->
  times (EStart k) (log s) <= 1 /\
  (rest s -> In (EAcc k) (log s) -> times (EStart k) (log s) = 1 \/ (times (EStart k) (log s) = 0 /\ queued s k)).
Proof.
  intros M inh n l s k R O. destruct (run_Ov _ _ _ _ _ R O) as (il & K). pose proof (k_task _ _ K k) as T. pose proof (run_Gacc _ _ _ _ _ R k) as A.
  rewrite times_start. unfold lt1 in *. split; [destruct (Nat.ltb k (nt s)); lia|].
  intros (D & CA & TH) IA. apply (suml_in _ (isacc k)) in IA. cbn in IA. rewrite is_refl in IA.
  assert (LT : (if Nat.ltb k (nt s) then 1 else 0) <= 1) by (destruct (Nat.ltb k (nt s)); lia).
  assert (Z : forall f, f CI = 0 -> suml f (ca s) = 0). { intros f F. clear - CA F. induction CA as [|c q E CA IH]; cbn; [reflexivity|]. rewrite E, F, IH. reflexivity. }
  assert (W : suml (wj k) (th s) = 0).
  { assert (forall x, In x (th s) -> wj k x = 0).
    { intros x I. pose proof I as I0. apply In_nth_error in I0. destruct I0 as (t & N). pose proof (k_place _ _ K t x N) as P. rewrite Forall_forall in TH. destruct (TH x I) as (P9 & S).
      unfold busy in P. rewrite P9, S, (Z (has t)) in P by reflexivity. cbn in P. assert (In t il) by (apply occ_In; lia).
      unfold wj. rewrite P9, (k_idle _ _ K t x N H). reflexivity. }
    clear - H. induction (th s) as [|x q IH]; cbn; [reflexivity|]. rewrite (H x (or_introl eq_refl)), IH; [reflexivity|]. intros y Y. apply H. right. exact Y. }
  rewrite W, (Z (priv k)), (Z (atC9 k)) in T by reflexivity.
  destruct (suml (isstart k) (log s)) as [|[|q]] eqn:S; [right|left; reflexivity|lia]. split; [reflexivity|]. apply in_que, slots_In. lia.
Qed.
(** In particular a task that never went through the queue has been run exactly once. *)
Definition InQ (s : st) : Prop := forall k, In (Some k) (buf s) -> In (EQueue k) (log s) \/ In (C9 k) (ca s).
Lemma set_mem : forall A (l : list A) i y, i < length l -> In y (set l i y).
Proof. intros. eapply nth_error_In, nth_set_eq. assumption. Qed.
Lemma set_keep : forall A (l : list A) i x y z, nth_error l i = Some x -> In z l -> z <> x -> In z (set l i y).
Proof.
  intros A l i x y z N I NE. apply In_nth_error in I. destruct I as (j & J). assert (i <> j) by (intros ->; congruence).
  eapply nth_error_In. rewrite nth_set_neq by eassumption. exact J.
Qed.
Lemma step_InQ : forall M inh s a s', step M inh s a = Some s' -> InQ s -> InQ s'.
Proof.
  intros M inh s a s' E I. unfold step in E. destruct (dead s); [discriminate|]. destruct a as [i o|t].
  - destruct (nth_error (ca s) i) as [c|] eqn:N; [|discriminate].
    assert (LI : i < length (ca s)) by (apply nth_error_Some; congruence).
    assert (KEEP : forall s1 y, (forall k, c <> C9 k) -> buf s1 = buf s -> ca s1 = set (ca s) i y -> (forall e, In e (log s) -> In e (log s1)) -> InQ s1).
    { intros s1 y NC B C L k H. rewrite B in H. destruct (I k H) as [H1|H1]; [left; apply L, H1|right]. rewrite C. eapply set_keep; [exact N|exact H1|]. intros X. apply (NC k). congruence. }
    destruct c; cbn [cstep] in E;
      repeat match type of E with
      | context [match ?e with _ => _ end] => match e with context [match _ with _ => _ end] => fail 1 | _ => destruct e eqn:? end
      end; try discriminate; injection E as <-;
      try (eapply KEEP; [intros; discriminate|reflexivity|reflexivity|cbn; tauto]).
    + intros q H. destruct (I q H) as [H1|H1]; [left; right; exact H1|right; exact H1].
    + intros q H. cbn in H. apply In_put in H. destruct H as [->|H]; [right; apply set_mem, LI|].
      destruct (I q H) as [H1|H1]; [left; exact H1|right]. eapply set_keep; [exact N|exact H1|discriminate].
    + intros q H. cbn in H. cbn. destruct (I q H) as [H1|H1]; [auto|]. destruct (Nat.eq_dec q k) as [->|NE]; [auto|right].
      eapply set_keep; [exact N|exact H1|congruence].
  - destruct (nth_error (th s) t) as [x|] eqn:N; [|discriminate]. unfold tstep in E.
    repeat match type of E with
      | context [match ?e with _ => _ end] => match e with context [match _ with _ => _ end] => fail 1 | _ => destruct e eqn:? end
      end; try discriminate; injection E as <-; intros q H; cbn in H; destruct (I q H) as [H1|H1]; cbn; auto.
Qed.
Theorem C115_direct_partial : forall M inh n l s k, run M inh (init n) l = Some s -> ov s = false -> rest s ->
  In (EAcc k) (log s) -> ~ In (EQueue k) (log s) -> times (EStart k) (log s) = 1.
Proof.
  intros M inh n l s k R O RS A NQ. destruct (C115_once_partial _ _ _ _ _ k R O) as (_ & X). destruct (X RS A) as [X1|(_ & i & _ & H)]; [exact X1|].
  assert (Q : InQ s). { refine (exec_inv InQ M inh _ _ l _ _ R _); [intros s0 H0; exact H0|intros s0 a s1; apply step_InQ|intros q []]. }
  destruct (Q k (nth_error_In _ _ H)) as [H1|H1]; [contradiction|]. destruct RS as (_ & CA & _). rewrite Forall_forall in CA. discriminate (CA _ H1).
Qed.
(** Until then somebody can always go on. *)
Theorem C115_progress_partial : forall M inh n l s, run M inh (init n) l = Some s -> ov s = false -> dead s = false -> ~ rest s ->
  (exists i c s', nth_error (ca s) i = Some c /\ c <> CI /\ exec M inh s (Call i true) = Some s') \/
  (exists t s', exec M inh s (Run t) = Some s').
Proof.
  intros M inh n l s R O D NR. destruct (run_Ov _ _ _ _ _ R O) as (il & K).
  destruct (forallb (fun c => match c with CI => true | _ => false end) (ca s)) eqn:FC.
  - destruct (forallb (fun x => match pc x with T9 => negb (sg x) | _ => false end) (th s)) eqn:FT.
    + exfalso. apply NR. rewrite forallb_forall in FC, FT. split; [exact D|]. split; apply Forall_forall.
      * intros c H. apply FC in H. destruct c; congruence.
      * intros x H. apply FT in H. destruct (pc x); try discriminate. destruct (sg x); [discriminate|auto].
    + right. assert (exists t x, nth_error (th s) t = Some x /\ (match pc x with T9 => negb (sg x) | _ => false end) = false) as (t & x & N & F).
      { clear - FT. induction (th s) as [|x q IH]; cbn in FT; [discriminate|]. destruct (match pc x with T9 => negb (sg x) | _ => false end) eqn:E.
        - destruct (IH FT) as (t & y & N & F). exists (S t), y. auto.
        - exists 0, x. auto. }
      exists t. unfold exec, step. rewrite D, N. unfold tstep. destruct (pc x) eqn:P; cbn [option_map]; try (eexists; reflexivity).
      * destruct (job x); eexists; reflexivity.
      * destruct (Nat.eqb (ri s) (wi s)); [eexists; reflexivity|]. destruct (nth_error (buf s) (ri s)) as [[k|]|]; eexists; reflexivity.
      * destruct (eqp (hd s) h); eexists; reflexivity.
      * destruct (sg x); [eexists; reflexivity|discriminate].
  - left. assert (exists i c, nth_error (ca s) i = Some c /\ c <> CI) as (i & c & N & F).
    { clear - FC. induction (ca s) as [|x q IH]; cbn in FC; [discriminate|]. destruct x; try (exists 0; eexists; split; [reflexivity|discriminate]).
      destruct (IH FC) as (t & y & N & F). exists (S t), y. auto. }
    exists i, c. unfold exec, step. rewrite D, N.
    assert (ALIVE : forall t, 0 < occ il t + suml (has t) (ca s) -> exists x, nth_error (th s) t = Some x).
    { intros t H. destruct (nth_error (th s) t) as [x|] eqn:E; [eauto|]. pose proof (k_out _ _ K t E). lia. }
    pose proof (k_ca _ _ K i c N) as OK.
    destruct c as [|k|k t|k t m|k t|k t|k|k c|k|k|k|k|k|k]; cbn [cstep]; try congruence; try (eexists; split; [reflexivity|split; [discriminate|reflexivity]]).
    + destruct (ALIVE t) as (x & E); [apply occ_In in OK; lia|]. rewrite E. eexists; split; [reflexivity|split; [discriminate|reflexivity]].
    + destruct OK as (_ & x & E & _). destruct (eqp (hd s) (Some t)); [rewrite E|]; eexists; (split; [reflexivity|split; [discriminate|reflexivity]]).
    + destruct OK as (x & E & _). rewrite E. eexists; split; [reflexivity|split; [discriminate|reflexivity]].
    + destruct OK as (x & E & _). rewrite E. destruct (msk x); eexists; (split; [reflexivity|split; [discriminate|reflexivity]]).
    + destruct (Nat.leb M c); [|destruct (Nat.eqb (cnt s) c)]; eexists; (split; [reflexivity|split; [discriminate|reflexivity]]).
Qed.
(** Whatever the limit, a task that was accepted can be left in the queue with nothing that will ever run it, although no
    container was misused: it was pushed after the last thread had looked. *)
Theorem C115_lost_refuted : forall M inh, exists l s, run M inh (init 1) l = Some s /\ ov s = false /\ rest s /\
  In (EAcc M) (log s) /\ times (EStart M) (log s) = 0 /\ queued s M.
Proof.
  intros M inh. exists (fill M ++ late ++ lull M ++ strand), (Lost M). split; [apply lost_run|]. split; [reflexivity|]. split.
  - split; [reflexivity|]. split; [constructor; [reflexivity|constructor]|]. cbn. apply Forall_forall. intros x H. apply in_map_iff in H. destruct H as (j & <- & _). split; reflexivity.
  - split; [left; reflexivity|]. split.
    + rewrite times_start. cbn. assert (G : forall j, j <= M -> suml (isstart M) (full j) = 0).
      { induction j; intros H; cbn; [reflexivity|]. rewrite IHj by lia. unfold is. destruct (Nat.eqb_spec j M); lia. }
      apply G. lia.
    + exists 0. cbn. split; [lia|reflexivity].
Qed.
(** Whatever the limit (two threads at least), a task can be run twice: two threads read the same slot of the queue. *)
Theorem C115_twice_refuted : forall M inh, 2 <= M -> exists l s, run M inh (init 1) l = Some s /\ times (EStart M) (log s) = 2.
Proof.
  intros [|[|m]] inh H; try lia. destruct (twice_run m inh) as (s & R & _ & L & _). eexists. exists s. split; [exact R|]. rewrite L, times_start.
  assert (G : forall K j, j <= K -> suml (isstart K) (full j) = 0).
  { intros K. induction j; intros H1; cbn; [reflexivity|]. rewrite IHj by lia. unfold is. destruct (Nat.eqb_spec j K); lia. }
  cbn [suml isstart]. rewrite is_refl, G by lia. reflexivity.
Qed.

(** * C116 *)
(** The threads of the pool block SIGUSR1 from the start if their creators do; then no signal of the pool ever terminates
    the process. *)
Definition Msk (s : st) : Prop := Forall (fun x => msk x = true) (th s) /\ (forall t, ~ In (EDead t) (log s)).
Lemma step_Msk : forall M s a s', step M true s a = Some s' -> Msk s -> Msk s'.
Proof.
  intros M s a s' E (F & A). unfold step in E. destruct (dead s); [discriminate|].
  assert (FS : forall t y, msk y = true -> Forall (fun x => msk x = true) (set (th s) t y)).
  { intros t y Y. apply Forall_forall. intros z H. apply In_set in H. destruct H as [->|H]; [exact Y|]. rewrite Forall_forall in F. apply F, H. }
  assert (FN : forall t x, nth_error (th s) t = Some x -> msk x = true) by (intros t x N; rewrite Forall_forall in F; apply F; eapply nth_error_In; eassumption).
  destruct a as [i o|t].
  - destruct (nth_error (ca s) i) as [c|] eqn:N; [|discriminate]. destruct c; cbn [cstep] in E;
      repeat match type of E with
      | context [match ?e with _ => _ end] => match e with context [match _ with _ => _ end] => fail 1 | _ => destruct e eqn:? end
      end; try discriminate; injection E as <-;
      (split; cbn [log th setca addlog kill addth setth sethd setcnt setq In];
       [first [exact F|apply FS; cbn; eapply FN; eassumption|apply Forall_app; split; [exact F|constructor; [reflexivity|constructor]]]
       |intros t1 H; repeat match type of H with _ \/ _ => destruct H as [H|H]; [try discriminate; exfalso; apply FN in Heqo0; congruence|] end; apply (A t1 H)]).
  - destruct (nth_error (th s) t) as [x|] eqn:N; [|discriminate]. pose proof (FN _ _ N) as MX. unfold tstep in E.
    repeat match type of E with
      | context [match ?e with _ => _ end] => match e with context [match _ with _ => _ end] => fail 1 | _ => destruct e eqn:? end
      end; try discriminate; injection E as <-;
      (split; cbn [log th setca addlog kill setth sethd setq In];
       [first [exact F|apply FS; cbn; auto]|intros t1 H; repeat match type of H with _ \/ _ => destruct H as [H|H]; [discriminate|] end; apply (A t1 H)]).
Qed.
Theorem C116_inherited_partial : forall M n l s t, run M true (init n) l = Some s -> ~ In (EDead t) (log s).
Proof.
  intros M n l s t R. refine (proj2 (exec_inv Msk M true _ _ l _ _ R _) t).
  - intros s0 H. exact H.
  - intros s0 a s1. apply step_Msk.
  - split; [constructor|intros u []].
Qed.
(** Otherwise the only fatal moment is the one between pushing itself on the idle list and blocking the signal. *)
Definition Dd (s : st) : Prop :=
  (dead s = false -> (forall t, ~ In (EDead t) (log s)) /\ ~ In EWild (log s)) /\
  (ov s = false -> ~ In EWild (log s)) /\
  (ov s = false -> forall t, In (EDead t) (log s) -> exists x, nth_error (th s) t = Some x /\ pc x = T8 /\ msk x = false) /\
  (forall t x, nth_error (th s) t = Some x -> pc x = T9 -> msk x = true).
Lemma step_Dd : forall M inh s a s', step M inh s a = Some s' -> Ov s -> Dd s -> Dd s'.
Proof.
  intros M inh s a s' E OV (D1 & D2 & D3 & D4). pose proof (step_ov _ _ _ _ _ E) as EO. unfold step in E. destruct (dead s) eqn:D; [discriminate|].
  destruct (D1 eq_refl) as (ND & NW).
  assert (FT : forall t x y, nth_error (th s) t = Some x -> (pc y = T9 -> msk y = true) -> forall u z, nth_error (set (th s) t y) u = Some z -> pc z = T9 -> msk z = true).
  { intros t x y N Y u z Nz PZ. apply nth_set in Nz. destruct Nz as [(<- & ->)|(NE & Nz)]; [auto|]. eapply D4; eauto. }
  assert (EASY : forall s1, dead s1 = false -> (forall e, In e (log s1) -> In e (log s) \/ exists k, e = EStart k \/ e = EAcc k \/ e = ERej k \/ e = EQueue k) ->
    (forall t x, nth_error (th s1) t = Some x -> pc x = T9 -> msk x = true) -> Dd s1).
  { intros s1 DS L T. assert (N1 : forall t, ~ In (EDead t) (log s1)).
    { intros t H. apply L in H. destruct H as [H|(k & H)]; [apply (ND t H)|]. intuition discriminate. }
    assert (N2 : ~ In EWild (log s1)). { intros H. apply L in H. destruct H as [H|(k & H)]; [apply (NW H)|]. intuition discriminate. }
    split; [auto|]. split; [auto|]. split; [intros _ t H; destruct (N1 t H)|exact T]. }
  destruct a as [i o|t].
  - destruct (nth_error (ca s) i) as [c|] eqn:N; [|discriminate].
    assert (CASE : dead s' = true \/ dead s' = false) by (destruct (dead s'); auto). destruct CASE as [DT|DF].
    + destruct c as [|k|k t|k t n|k t|k t|k|k c|k|k|k|k|k|k]; cbn [cstep] in E;
        try (exfalso; repeat match type of E with
          | context [match ?e with _ => _ end] => match e with context [match _ with _ => _ end] => fail 1 | _ => destruct e eqn:? end
          end; try discriminate; injection E as <-; cbn in DT; congruence).
      destruct (nth_error (th s) t) as [x|] eqn:Nt; [|discriminate]. destruct (msk x) eqn:MX; injection E as <-; [cbn in DT; congruence|].
      split; [discriminate|]. cbn [ov kill log th In] in *. split; [intros _ [H|H]; [discriminate|auto]|]. split; [|exact D4].
      intros O u [H|H]; [injection H as <-|destruct (ND u H)]. exists x. split; [exact Nt|]. destruct (OV O) as (il & K).
      pose proof (k_place _ _ K t x Nt) as P. pose proof (suml_ge _ (has t) _ _ _ N) as G. cbn in G. rewrite is_refl in G.
      assert (BZ : busy x = 0) by lia. unfold busy in BZ. destruct (pc x) eqn:PX; try discriminate BZ; [split; auto|]. pose proof (D4 _ _ Nt PX). congruence.
    + apply EASY; [exact DF| |].
      * clear - E DF D. destruct c; cbn [cstep] in E;
        repeat match type of E with
          | context [match ?e with _ => _ end] => match e with context [match _ with _ => _ end] => fail 1 | _ => destruct e eqn:? end
          end; try discriminate; injection E as <-; try discriminate DF; cbn; intros e; intuition (subst; eauto 8).
      * clear EASY. destruct c; cbn [cstep] in E;
        repeat match type of E with
          | context [match ?e with _ => _ end] => match e with context [match _ with _ => _ end] => fail 1 | _ => destruct e eqn:? end
          end; try discriminate; injection E as <-; try discriminate DF; cbn [th setca addlog kill addth setth sethd setcnt setq];
          try exact D4; try (eapply FT; [eassumption|cbn; intros; eapply D4; eassumption]).
        intros u z Nz PZ. destruct (Nat.lt_ge_cases u (length (th s))) as [L|L].
        { rewrite nth_error_app1 in Nz by exact L. eapply D4; eauto. }
        { rewrite nth_error_app2 in Nz by exact L. destruct (u - length (th s)) as [|[|m]]; cbn in Nz; try discriminate. injection Nz as <-. discriminate PZ. }
  - destruct (nth_error (th s) t) as [x|] eqn:N; [|discriminate].
    assert (CASE : dead s' = true \/ dead s' = false) by (destruct (dead s'); auto). destruct CASE as [DT|DF].
    + assert (s' = kill s EWild /\ pc x = T2 /\ ri s <> wi s /\ (forall k, nth_error (buf s) (ri s) <> Some (Some k))) as (-> & P2 & NE & NB).
      { unfold tstep in E. destruct (pc x) eqn:PX;
        repeat match type of E with
          | context [match ?e with _ => _ end] => match e with context [match _ with _ => _ end] => fail 1 | _ => destruct e eqn:? end
          end; try discriminate; injection E as <-; cbn in DT; try congruence; apply Nat.eqb_neq in Heqb; repeat split; auto; intros; congruence. }
      assert (OO : ov s = true).
      { destruct (ov s) eqn:O; [reflexivity|exfalso]. destruct (OV O) as (il & K). pose proof (k_ri _ _ K). pose proof (k_len _ _ K).
        destruct (nth_error (buf s) (ri s)) as [[k|]|] eqn:B; [apply (NB k eq_refl)|apply nth_error_In in B; apply (k_buf _ _ K _ B); reflexivity|].
        apply nth_error_None in B. lia. }
      split; [discriminate|]. cbn [ov kill log th In]. rewrite OO. split; [discriminate|]. split; [discriminate|exact D4].
    + apply EASY; [exact DF| |].
      * clear - E DF D. unfold tstep in E.
        repeat match type of E with
          | context [match ?e with _ => _ end] => match e with context [match _ with _ => _ end] => fail 1 | _ => destruct e eqn:? end
          end; try discriminate; injection E as <-; try discriminate DF; cbn; intros e; intuition (subst; eauto 8).
      * clear EASY. unfold tstep in E.
        repeat match type of E with
          | context [match ?e with _ => _ end] => match e with context [match _ with _ => _ end] => fail 1 | _ => destruct e eqn:? end
          end; try discriminate; injection E as <-; try discriminate DF; cbn [th setca addlog kill addth setth sethd setcnt setq];
          try exact D4; try (eapply FT; [eassumption|cbn; intros; try reflexivity; try discriminate; eapply D4; eassumption]).
Qed.
Lemma run_Dd : forall M inh n l s, run M inh (init n) l = Some s -> Ov s /\ Dd s.
Proof.
  intros M inh n l s R. assert (G : forall l s0 s1, run M inh s0 l = Some s1 -> Ov s0 /\ Dd s0 -> Ov s1 /\ Dd s1).
  { clear. induction l as [|a l IH]; intros s0 s1 R I; cbn in R; [injection R as <-; exact I|].
    destruct (exec M inh s0 a) as [s2|] eqn:E; [|discriminate]. refine (IH _ _ R _). destruct I as (I1 & I2).
    split; [eapply exec_Ov; eauto|]. unfold exec in E. destruct (step M inh s0 a) as [s3|] eqn:S; [|discriminate]. cbn in E. injection E as <-.
    destruct (step_Dd _ _ _ _ _ S I1 I2) as (A & B & C & D). split; [exact A|]. cbn [watch ov log th].
    split; [intros O; apply orb_false_elim in O; apply B, O|]. split; [intros O; apply orb_false_elim in O; apply C, O|exact D]. }
  apply (G l _ _ R). split; [intros _; exists []; apply init_Clean|]. split; [intros _; split; [intros t []|intros []]|]. split; [intros _ []|]. split; [intros _ t []|].
  intros [|t] x H; discriminate.
Qed.
Theorem C116_window_partial : forall M inh n l s t, run M inh (init n) l = Some s -> ov s = false ->
  ~ In EWild (log s) /\
  (In (EDead t) (log s) -> exists x, nth_error (th s) t = Some x /\ pc x = T8 /\ msk x = false).
Proof.
  intros M inh n l s t R O. destruct (run_Dd _ _ _ _ _ R) as (_ & _ & A & B & _). split; [apply A, O|apply B, O].
Qed.
(** With any limit, two calls are enough to have the process terminated ... *)
Theorem C116_killed_refuted : forall M, 1 <= M -> exists l s, run M false (init 1) l = Some s /\ ov s = false /\ In (EDead 0) (log s).
Proof. intros [|m] H; [lia|]. destruct (dead_run m) as (s & R & D & O). eauto 8. Qed.
(** ... and with two threads, a pointer that nobody stored can be read from the queue. *)
Theorem C116_wild_refuted : forall M inh, 2 <= M -> exists l s, run M inh (init 1) l = Some s /\ In EWild (log s).
Proof. intros [|[|m]] inh H; try lia. destruct (wild_run m inh) as (s & R & W). eauto. Qed.

(** * Concrete cases *)
(** Two callers, a limit of two: two tasks handed to new threads, a third queued and run by the first thread that is
    done, a fourth given to a sleeping thread, a fifth refused because pthread_create fails. *)
Definition calls (i n : nat) : list act := repeat (Call i true) n.
Definition runs (t n : nat) : list act := repeat (Run t) n.
Definition day : list act :=
  calls 0 6 ++ runs 0 1 ++ calls 1 6 ++ runs 1 1 ++ calls 0 7 ++ runs 0 8 ++ runs 1 5 ++ calls 1 6 ++ runs 1 7.
Definition seen (o : option st) := match o with Some s => Some (log s, length (th s), ov s, (ri s, wi s)) | None => None end.
Example C115_day : seen (run 2 true (init 2) day) =
  Some ([EStart 3; EAcc 3; EStart 2; EAcc 2; EQueue 2; EStart 1; EAcc 1; EStart 0; EAcc 0], 2, false, (1, 1)).
Proof. vm_compute. reflexivity. Qed.
Example C115_day_rest : match run 2 true (init 2) day with Some s => forallb (fun x => match pc x with T9 => negb (sg x) | _ => false end) (th s) &&
  forallb (fun c => match c with CI => true | _ => false end) (ca s) | None => false end = true.
Proof. vm_compute. reflexivity. Qed.
Example C114_refused : seen (run 2 true (init 1) (calls 0 5 ++ [Call 0 false; Call 0 true] ++ calls 0 6 ++ runs 0 1)) =
  Some ([EStart 1; EAcc 1; ERej 0], 1, false, (0, 0)).
Proof. vm_compute. reflexivity. Qed.
(** A call after a task was left in the queue also gets that task run. *)
Example C115_rescued : seen (run 1 true (init 1) (fill 1 ++ late ++ lull 1 ++ strand ++ calls 0 6 ++ runs 0 10)) =
  Some ([EStart 1; EStart 2; EAcc 2; EAcc 1; EQueue 1; EStart 0; EAcc 0], 1, false, (1, 1)).
Proof. vm_compute. reflexivity. Qed.
(** Two callers inside Pop of the idle list at once: caller 0 has read that thread 1 follows thread 0, caller 1 takes
    thread 0, caller 2 takes thread 1 (for task 4), thread 0 goes to sleep again, and now caller 0 makes thread 1 the head
    of the list, though it is not asleep.  The next call takes it and overwrites task 4, which was accepted and is never run. *)
Example C115_aba : seen (run 2 true (init 3) (calls 0 6 ++ runs 0 1 ++ calls 1 6 ++ runs 1 6 ++ runs 0 5 ++
  calls 0 3 ++ calls 1 6 ++ calls 2 6 ++ runs 0 7 ++ calls 0 3 ++ calls 1 6 ++ runs 1 7 ++ runs 0 7)) =
  Some ([EStart 2; EStart 5; EAcc 5; EAcc 2; EStart 3; EAcc 4; EAcc 3; EStart 1; EAcc 1; EStart 0; EAcc 0], 2, true, (0, 0)).
Proof. vm_compute. reflexivity. Qed.

Print Assumptions C114_limit.
Print Assumptions C114_answer.
Print Assumptions C114_reason.
Print Assumptions C115_once_partial.
Print Assumptions C115_direct_partial.
Print Assumptions C115_progress_partial.
Print Assumptions C115_lost_refuted.
Print Assumptions C115_twice_refuted.
Print Assumptions C116_inherited_partial.
Print Assumptions C116_window_partial.
Print Assumptions C116_killed_refuted.
Print Assumptions C116_wild_refuted.
