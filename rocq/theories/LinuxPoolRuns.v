(** Executions of the Linux thread pool, for any limit on the number of threads, that the refutations use. *)
From Coq Require Import Lia List Bool Arith.
From Verif Require Import Slots SlotsProofs Threads LinuxPoolModel LinuxPoolProofs LinuxPoolClean.
Import ListNotations.

Lemma run_app : forall M inh l1 l2 s, run M inh s (l1 ++ l2) = match run M inh s l1 with Some s' => run M inh s' l2 | None => None end.
Proof. induction l1 as [|a l1 IH]; intros l2 s; cbn; [reflexivity|]. destruct (exec M inh s a); [apply IH|reflexivity]. Qed.

Lemma set_mid : forall A (a : list A) x b y n, n = length a -> set (a ++ x :: b) n y = a ++ y :: b.
Proof. induction a as [|z a IH]; intros x b y n ->; cbn; [reflexivity|]. rewrite IH; reflexivity. Qed.
Lemma nth_mid : forall A (a : list A) x b n, n = length a -> nth_error (a ++ x :: b) n = Some x.
Proof. intros A a x b n ->. rewrite nth_error_app2, Nat.sub_diag by lia. reflexivity. Qed.

(** Thread [k] runs task [k]. *)
Definition bz (inh : bool) (k : nat) : thr := TH (T1 k) (Some k) None inh false.
Fixpoint full (j : nat) : list ev := match j with 0 => [] | S j => EStart j :: EAcc j :: full j end.
Definition one (j : nat) : list act := [Call 0 true; Call 0 true; Call 0 true; Call 0 true; Call 0 true; Call 0 true; Run j].
Fixpoint fill (j : nat) : list act := match j with 0 => [] | S j => fill j ++ one j end.
Definition Full (inh : bool) (M j : nat) (c : cpc) (n : nat) : st := ST None [] 0 0 j (map (bz inh) (seq 0 j)) [c] n false false (full j).

Lemma no_take : forall inh l, suml taking (map (bz inh) l) = 0.
Proof. induction l; cbn; auto. Qed.
Lemma noclash : forall h b r w c t y n d o g, suml taking t = 0 -> clash (ST h b r w c t [y] n d o g) = false.
Proof. intros. unfold clash; cbn [ca th]. rewrite H. destruct y; reflexivity. Qed.

Lemma fill_run : forall M inh j, j <= M -> run M inh (init 1) (fill j) = Some (Full inh M j CI j).
Proof.
  induction j as [|j IH]; intros H; [reflexivity|]. cbn [fill]. rewrite run_app, IH by lia. unfold one.
  assert (NT : suml taking (map (bz inh) (seq 0 j)) = 0) by apply no_take.
  assert (NT2 : forall x, taking x = 0 -> suml taking (map (bz inh) (seq 0 j) ++ [x]) = 0) by (intros x X; rewrite suml_app1; lia).
  assert (LB : Nat.leb M j = false) by (apply Nat.leb_gt; lia).
  assert (LEN : j = length (map (bz inh) (seq 0 j))) by (rewrite map_length, seq_length; reflexivity).
  unfold Full. set (L := map (bz inh) (seq 0 j)) in *.
  cbn [run]. unfold exec at 1; cbn [step dead ca nth_error cstep option_map]. unfold watch, setca; cbn [hd buf ri wi cnt th ca nt dead ov log set]. rewrite noclash by exact NT. cbn [orb].
  unfold exec at 1; cbn [step dead ca nth_error cstep option_map look hd]. unfold watch, setca; cbn [hd buf ri wi cnt th ca nt dead ov log set]. rewrite noclash by exact NT. cbn [orb].
  unfold exec at 1; cbn [step dead ca nth_error cstep option_map look hd cnt]. unfold watch, setca; cbn [hd buf ri wi cnt th ca nt dead ov log set]. rewrite noclash by exact NT. cbn [orb].
  unfold exec at 1; cbn [step dead ca nth_error cstep option_map look hd cnt]. rewrite LB, Nat.eqb_refl. cbn [option_map]. unfold watch, setca, setcnt; cbn [hd buf ri wi cnt th ca nt dead ov log set]. rewrite noclash by exact NT. cbn [orb].
  unfold exec at 1; cbn [step dead ca nth_error cstep option_map look hd cnt]. unfold watch, setca; cbn [hd buf ri wi cnt th ca nt dead ov log set]. rewrite noclash by exact NT. cbn [orb].
  unfold exec at 1; cbn [step dead ca nth_error cstep option_map look hd cnt]. unfold watch, setca, addth, addlog; cbn [hd buf ri wi cnt th ca nt dead ov log set]. rewrite noclash by (apply NT2; reflexivity). cbn [orb].
  unfold exec at 1; cbn [step dead th]. rewrite (nth_mid _ L _ [] j LEN). cbn [tstep pc job]. unfold addlog, setth, wpc; cbn [hd buf ri wi cnt th ca nt dead ov log job nx msk sg pc option_map].
  rewrite (set_mid _ L _ [] _ j LEN). unfold watch; cbn [hd buf ri wi cnt th ca nt dead ov log]. rewrite noclash by (apply NT2; reflexivity). cbn [orb].
  change (full (S j)) with (EStart j :: EAcc j :: full j). replace (seq 0 (S j)) with (seq 0 j ++ [j]) by (symmetry; apply seq_S). rewrite map_app. reflexivity.
Qed.

(** One more call of ExecuteTask, up to line 32: the limit is reached. *)
Definition late : list act := [Call 0 true; Call 0 true; Call 0 true; Call 0 true].
Lemma late_run : forall M inh, run M inh (Full inh M M CI M) late = Some (Full inh M M (C7 M) (S M)).
Proof.
  intros M inh. unfold late, Full. assert (NT : suml taking (map (bz inh) (seq 0 M)) = 0) by apply no_take.
  assert (LB : Nat.leb M M = true) by (apply Nat.leb_le; lia). set (L := map (bz inh) (seq 0 M)) in *.
  cbn [run]. unfold exec at 1; cbn [step dead ca nth_error cstep option_map]. unfold watch, setca; cbn [hd buf ri wi cnt th ca nt dead ov log set]. rewrite noclash by exact NT. cbn [orb].
  unfold exec at 1; cbn [step dead ca nth_error cstep option_map look hd]. unfold watch, setca; cbn [hd buf ri wi cnt th ca nt dead ov log set]. rewrite noclash by exact NT. cbn [orb].
  unfold exec at 1; cbn [step dead ca nth_error cstep option_map look hd cnt]. unfold watch, setca; cbn [hd buf ri wi cnt th ca nt dead ov log set]. rewrite noclash by exact NT. cbn [orb].
  unfold exec at 1; cbn [step dead ca nth_error cstep option_map look hd cnt]. rewrite LB. cbn [option_map]. unfold watch, setca, setcnt; cbn [hd buf ri wi cnt th ca nt dead ov log set]. rewrite noclash by exact NT. cbn [orb]. reflexivity.
Qed.

(** The threads finish their tasks, find the queue empty and go to sleep, one after the other. *)
Definition top (i : nat) : option nat := match i with 0 => None | S i => Some i end.
Definition zz (i : nat) : thr := TH T9 None (top i) true false.
Definition Sleep (inh : bool) (M i : nat) : st :=
  ST (top i) [] 0 0 M (map zz (seq 0 i) ++ map (bz inh) (seq i (M - i))) [C7 M] (S M) false false (full M).
Fixpoint lull (i : nat) : list act := match i with 0 => [] | S i => lull i ++ [Run i; Run i; Run i; Run i; Run i] end.
Lemma lull_run : forall M inh i, i <= M -> run M inh (Sleep inh M 0) (lull i) = Some (Sleep inh M i).
Proof.
  induction i as [|i IH]; intros H; [reflexivity|]. cbn [lull]. rewrite run_app, IH by lia.
  unfold Sleep at 1. replace (M - i) with (S (M - S i)) by lia. cbn [seq map].
  set (A := map zz (seq 0 i)). set (B := map (bz inh) (seq (S i) (M - S i))).
  assert (LEN : i = length A) by (unfold A; rewrite map_length, seq_length; reflexivity).
  assert (TA : suml taking A = 0). { unfold A. clear. induction (seq 0 i); cbn; auto. }
  assert (TB : suml taking B = 0) by apply no_take.
  assert (TT : forall x, taking x = 0 -> suml taking (A ++ x :: B) = 0).
  { intros x X. clear - TA TB X. induction A as [|z A IHA]; cbn in *; lia. }
  cbn [run].
  unfold exec at 1; cbn [step dead th]. rewrite (nth_mid _ A _ B i LEN). cbn [tstep bz pc job]. unfold setth, wpc, wjob; cbn [hd buf ri wi cnt th ca nt dead ov log job nx msk sg pc option_map].
  rewrite (set_mid _ A _ B _ i LEN). unfold watch; cbn [hd buf ri wi cnt th ca nt dead ov log]. rewrite noclash by (apply TT; reflexivity). cbn [orb].
  unfold exec at 1; cbn [step dead th]. rewrite (nth_mid _ A _ B i LEN). cbn [tstep pc job ri wi Nat.eqb]. unfold setth, wpc, wjob; cbn [hd buf ri wi cnt th ca nt dead ov log job nx msk sg pc option_map].
  rewrite (set_mid _ A _ B _ i LEN). unfold watch; cbn [hd buf ri wi cnt th ca nt dead ov log]. rewrite noclash by (apply TT; reflexivity). cbn [orb].
  unfold exec at 1; cbn [step dead th]. rewrite (nth_mid _ A _ B i LEN). cbn [tstep pc job ri wi Nat.eqb]. unfold setth, wpc, wjob; cbn [hd buf ri wi cnt th ca nt dead ov log job nx msk sg pc option_map].
  rewrite (set_mid _ A _ B _ i LEN). unfold watch; cbn [hd buf ri wi cnt th ca nt dead ov log]. rewrite noclash by (apply TT; reflexivity). cbn [orb].
  unfold exec at 1; cbn [step dead th]. rewrite (nth_mid _ A _ B i LEN). cbn [tstep pc job ri wi Nat.eqb hd]. replace (eqp (top i) (top i)) with true by (symmetry; apply eqp_iff; reflexivity).
  unfold setth, sethd, wpc, wnx; cbn [hd buf ri wi cnt th ca nt dead ov log job nx msk sg pc option_map].
  rewrite (set_mid _ A _ B _ i LEN). unfold watch; cbn [hd buf ri wi cnt th ca nt dead ov log]. rewrite noclash by (apply TT; reflexivity). cbn [orb].
  unfold exec at 1; cbn [step dead th]. rewrite (nth_mid _ A _ B i LEN). cbn [tstep pc job ri wi Nat.eqb hd]. unfold setth; cbn [hd buf ri wi cnt th ca nt dead ov log job nx msk sg pc option_map].
  rewrite (set_mid _ A _ B _ i LEN). unfold watch; cbn [hd buf ri wi cnt th ca nt dead ov log]. rewrite noclash by (apply TT; reflexivity). cbn [orb].
  unfold Sleep. rewrite seq_S, map_app, <- app_assoc. cbn [map app Nat.add]. reflexivity.
Qed.

(** The late caller now pushes its task. *)
Definition strand : list act := [Call 0 true; Call 0 true; Call 0 true].
Definition Lost (M : nat) : st :=
  ST (top M) [Some M] 0 1 M (map zz (seq 0 M)) [CI] (S M) false false (EAcc M :: EQueue M :: full M).
Lemma strand_run : forall M inh, run M inh (Sleep inh M M) strand = Some (Lost M).
Proof.
  intros M inh. unfold strand, Sleep. rewrite Nat.sub_diag. cbn [seq map]. rewrite app_nil_r.
  assert (TA : suml taking (map zz (seq 0 M)) = 0) by (clear; induction (seq 0 M); cbn; auto).
  set (A := map zz (seq 0 M)) in *.
  cbn [run]. unfold exec at 1; cbn [step dead ca nth_error cstep option_map]. unfold watch, setca; cbn [hd buf ri wi cnt th ca nt dead ov log set]. rewrite noclash by exact TA. cbn [orb].
  unfold exec at 1; cbn [step dead ca nth_error cstep option_map wi buf put]. unfold watch, setca, setq; cbn [hd buf ri wi cnt th ca nt dead ov log set]. rewrite noclash by exact TA. cbn [orb].
  unfold exec at 1; cbn [step dead ca nth_error cstep option_map wi buf put]. unfold watch, setca, setq, addlog; cbn [hd buf ri wi cnt th ca nt dead ov log set]. rewrite noclash by exact TA. cbn [orb].
  reflexivity.
Qed.
Lemma lost_run : forall M inh, run M inh (init 1) (fill M ++ late ++ lull M ++ strand) = Some (Lost M).
Proof.
  intros M inh. rewrite run_app, fill_run by lia. rewrite run_app, late_run, run_app.
  replace (Full inh M M (C7 M) (S M)) with (Sleep inh M 0) by (unfold Sleep, Full; rewrite Nat.sub_0_r; reflexivity).
  rewrite lull_run by lia. apply strand_run.
Qed.

(** With the queue in use, two threads read the same slot. *)
Definition Queued (inh : bool) (M : nat) : st :=
  ST None [Some M] 0 1 M (map (bz inh) (seq 0 M)) [CI] (S M) false false (EAcc M :: EQueue M :: full M).
Lemma queued_run : forall M inh, run M inh (init 1) (fill M ++ late ++ strand) = Some (Queued inh M).
Proof.
  intros M inh. rewrite run_app, fill_run by lia. rewrite run_app, late_run. unfold Full, strand.
  assert (TA : suml taking (map (bz inh) (seq 0 M)) = 0) by apply no_take.
  set (A := map (bz inh) (seq 0 M)) in *.
  cbn [run]. unfold exec at 1; cbn [step dead ca nth_error cstep option_map]. unfold watch, setca; cbn [hd buf ri wi cnt th ca nt dead ov log set]. rewrite noclash by exact TA. cbn [orb].
  unfold exec at 1; cbn [step dead ca nth_error cstep option_map wi buf put]. unfold watch, setca, setq; cbn [hd buf ri wi cnt th ca nt dead ov log set]. rewrite noclash by exact TA. cbn [orb].
  unfold exec at 1; cbn [step dead ca nth_error cstep option_map wi buf put]. unfold watch, setca, setq, addlog; cbn [hd buf ri wi cnt th ca nt dead ov log set]. rewrite noclash by exact TA. cbn [orb].
  reflexivity.
Qed.
Definition both : list act := [Run 0; Run 0; Run 1; Run 1; Run 0; Run 1].
Lemma twice_run : forall m inh, exists s, run (S (S m)) inh (init 1) (fill (S (S m)) ++ late ++ strand ++ both) = Some s /\ dead s = false /\
  log s = EStart (S (S m)) :: EStart (S (S m)) :: EAcc (S (S m)) :: EQueue (S (S m)) :: full (S (S m)) /\ ri s = 2 /\ wi s = 1 /\ buf s = [Some (S (S m))] /\
  exists x r, th s = x :: r /\ pc x = T4 (S (S m)).
Proof.
  intros m inh. rewrite !app_assoc, run_app, <- !app_assoc, queued_run. unfold Queued, both.
  change (seq 0 (S (S m))) with (0 :: 1 :: seq 2 m). cbn [map].
  set (R := map (bz inh) (seq 2 m)). set (K := S (S m)). set (F := full K). clearbody F K R.
  cbn [run].
  do 6 (unfold exec at 1; cbn [step dead th nth_error tstep bz pc job option_map ri wi buf Nat.eqb]; unfold watch, setth, setq, addlog, wpc, wjob;
    cbn [hd buf ri wi cnt th ca nt dead ov log job nx msk sg pc set bz];
    match goal with |- context [orb ?o (clash ?q)] => generalize (orb o (clash q)); intros ? end).
  eexists. split; [reflexivity|]. cbn [dead log ri wi buf th]. repeat (split; [reflexivity|]). eexists. eexists. split; [reflexivity|]. reflexivity.
Qed.
Lemma wild_run : forall m inh, exists s, run (S (S m)) inh (init 1) (fill (S (S m)) ++ late ++ strand ++ both ++ [Run 0; Run 0]) = Some s /\
  In EWild (log s).
Proof.
  intros m inh. destruct (twice_run m inh) as (s & R & D & L & RI & WI & B & x & r & T & P).
  rewrite !app_assoc, run_app, <- !app_assoc, R. cbn [run]. unfold exec at 1. unfold step. rewrite D, T. cbn [nth_error]. unfold tstep. rewrite P. cbn [option_map].
  unfold exec, step, watch, setth. cbn [dead th]. rewrite D, T. cbn [set nth_error tstep wpc pc ri wi buf]. unfold tstep. cbn [wpc pc ri wi buf]. rewrite RI, WI, B. cbn [Nat.eqb nth_error option_map].
  eexists. split; [reflexivity|]. cbn. auto.
Qed.

(** A thread that has just pushed itself on the idle list is woken before it has blocked the signal. *)
Definition early : list act :=
  [Call 0 true; Call 0 true; Call 0 true; Call 0 true; Call 0 true; Call 0 true; Run 0; Run 0; Run 0; Run 0; Run 0;
   Call 0 true; Call 0 true; Call 0 true; Call 0 true; Call 0 true; Call 0 true].
Lemma dead_run : forall m, exists s, run (S m) false (init 1) early = Some s /\ In (EDead 0) (log s) /\ ov s = false.
Proof. intros m. eexists. split; [vm_compute; reflexivity|]. split; [left; reflexivity|reflexivity]. Qed.
