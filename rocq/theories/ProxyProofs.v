(** Specification and invariants of the model of ThreadTaskRunnerProxyImpl (ProxyModel.v). *)
From Coq Require Import Lia List ZArith Bool Arith.
From Verif Require Import Slots SlotsProofs Threads ThreadModel ThreadProofs ProxyModel.
Import ListNotations.
Local Open Scope Z_scope.
Local Opaque CW W32.

(** The tasks pushed, those whose post succeeded, and those taken from the queue, in order. *)
Definition pushed (l : list event) : list nat := flat_map (fun e => match e with EPush t => [t] | _ => [] end) l.
Definition accepted (l : list event) : list nat := flat_map (fun e => match e with EAcc t => [t] | _ => [] end) l.
Definition taken (l : list event) : list nat := flat_map (fun e => match e with EStart t | ECan t => [t] | _ => [] end) l.
(** Starts and ends of tasks as brackets; the result are the tasks running, innermost first. *)
Fixpoint nest (k : list nat) (l : list event) : option (list nat) :=
  match l with
  | [] => Some k
  | EStart t :: r => nest (t :: k) r
  | EEnd t :: r => match k with u :: k' => if Nat.eqb t u then nest k' r else None | [] => None end
  | _ :: r => nest k r
  end.
Lemma pushed_app : forall l m, pushed (l ++ m) = pushed l ++ pushed m. Proof. intros; apply flat_map_app. Qed.
Lemma accepted_app : forall l m, accepted (l ++ m) = accepted l ++ accepted m. Proof. intros; apply flat_map_app. Qed.
Lemma taken_app : forall l m, taken (l ++ m) = taken l ++ taken m. Proof. intros; apply flat_map_app. Qed.
Lemma nest_app : forall l m k, nest k (l ++ m) = match nest k l with Some k' => nest k' m | None => None end.
Proof.
  induction l as [|e l IH]; intros m k; cbn; auto.
  destruct e; auto. destruct k; auto. destruct (Nat.eqb t n); auto.
Qed.
Fixpoint tasks (k : list frame) : list nat := match k with [] => [] | Run t :: r => t :: tasks r | _ :: r => tasks r end.
Lemma cans : forall l, pushed (map ECan l) = [] /\ accepted (map ECan l) = [] /\ taken (map ECan l) = l /\ forall k, nest k (map ECan l) = Some k.
Proof.
  induction l as [|x l (A & B & C & D)]; cbn; [auto|]. repeat split; auto. f_equal. exact C.
Qed.
(** Calls of TaskRunnerProc and tasks alternate. *)
Fixpoint wfk (k : list frame) : Prop :=
  match k with
  | [] => True
  | Pr _ :: r => match r with Pr _ :: _ => False | _ => True end /\ wfk r
  | Run _ :: r => match r with Pr D3 :: _ => True | _ => False end /\ wfk r
  end.
Lemma procs0 : forall k, wfk k -> procs k = 0%nat -> k = [].
Proof. intros [|[x|t] k] W P; cbn in *; auto; [discriminate|]. destruct W as (W & _). destruct k as [|[] k]; try contradiction; discriminate. Qed.

Definition nbusy (a : agent) : nat := if busy a then 1%nat else 0%nat.
Record F (s : st) : Prop := {
  f_q : pushed (log s) = taken (log s) ++ q s;
  f_n : nest [] (log s) = Some (tasks (rs s));
  f_d : dd s = true -> q s = [] /\ rs s = [] /\ us s = 0%nat /\ fl s = term;
  f_u : us s = 0%nat -> suml nbusy (ag s) = 0%nat /\ (rs s = [] -> dd s = true);
  f_w : wfk (rs s) }.
Lemma F_init : F init. Proof. constructor; cbn; auto; discriminate. Qed.
Lemma gone_eq : forall s, (refs s <> 0%nat /\ gone s = s) \/
  (refs s = 0%nat /\ gone s = say (w_dd (w_fl (w_q s []) term) true) (map ECan (q s) ++ [ECln false; EDead])).
Proof. intros s. unfold gone. destruct (Nat.eqb_spec (refs s) 0); auto. Qed.
Lemma F_gone : forall s, pushed (log s) = taken (log s) ++ q s -> nest [] (log s) = Some (tasks (rs s)) -> dd s = false ->
  (us s = 0%nat -> suml nbusy (ag s) = 0%nat) -> wfk (rs s) -> F (gone s).
Proof.
  intros s A B D U R. destruct (gone_eq s) as [(N & ->)|(N & ->)].
  - constructor; auto; [congruence|]. intros U0. split; [auto|]. intros R0. exfalso. apply N. unfold refs. rewrite U0, R0. reflexivity.
  - unfold refs in N. assert (rs s = []) as R0 by (apply procs0; auto; lia). destruct (cans (q s)) as (c1 & c2 & c3 & c4).
    constructor; cbn.
    + rewrite pushed_app, taken_app, pushed_app, taken_app, c1, c3. cbn. rewrite A, !app_nil_r. reflexivity.
    + rewrite nest_app, B, nest_app, c4. cbn. reflexivity.
    + intros _. rewrite R0. repeat split; auto. lia.
    + intros U0. split; [auto|reflexivity].
    + assumption.
Qed.
Lemma mf : forall s x k, F s -> rs s = x :: k -> dd s = false.
Proof. intros s x k I R. destruct (dd s) eqn:D; auto. destruct (f_d _ I D) as (_ & X & _). congruence. Qed.
(** A step that moves the top frame only. *)
Lemma F_same : forall s s' x y k, F s -> rs s = Pr x :: k -> rs s' = Pr y :: k -> log s' = log s -> q s' = q s -> us s' = us s -> ag s' = ag s -> dd s' = dd s -> F s'.
Proof.
  intros s s' x y k I R R' L Q U A D. pose proof (mf _ _ _ I R). destruct I as [f1 f2 f3 f4 f5].
  constructor; rewrite ?L, ?Q, ?U, ?A, ?D, ?R'.
  - assumption.
  - rewrite f2, R. reflexivity.
  - congruence.
  - intros u. destruct (f4 u) as (X & _). split; [exact X|discriminate].
  - rewrite R in f5. exact f5.
Qed.
Ltac fsame I R := eapply F_same; [exact I|exact R|reflexivity|reflexivity|reflexivity|reflexivity|reflexivity|reflexivity].
Ltac fcons f2 R := constructor; cbn; rewrite ?pushed_app, ?taken_app, ?nest_app, ?f2, ?R; cbn; rewrite ?app_nil_r, <- ?app_assoc; auto; try congruence.
Lemma move_F : forall s s', move s = Some s' -> F s -> F s'.
Proof.
  intros s s' M I. pose proof (mf s) as MF. unfold move in M. destruct (rs s) as [|[x|t] k] eqn:R; try discriminate.
  assert (D := MF _ _ I eq_refl). destruct x; cbv zeta in M.
  all: try (injection M as <-; fsame I R).
  all: try (match type of M with (if ?c then _ else _) = _ => destruct c end; injection M as <-; fsame I R).
  - destruct (q s) as [|t r] eqn:Q; injection M as <-; destruct I as [f1 f2 f3 f4 f5]; fcons f2 R.
    all: try (intros u; destruct (f4 u) as (X & _); split; [exact X|discriminate]).
    + rewrite R in f5. exact f5.
    + rewrite f1, Q. reflexivity.
    + rewrite R in f5. split; [exact Logic.I|exact f5].
  - injection M as <-. destruct (pd s =? 0); fsame I R.
  - destruct (q s) as [|t r] eqn:Q; injection M as <-.
    + eapply (F_same s); [exact I|exact R|reflexivity|reflexivity|cbn; congruence|reflexivity|reflexivity|reflexivity].
    + destruct I as [f1 f2 f3 f4 f5]; fcons f2 R.
      * rewrite f1, Q. reflexivity.
      * rewrite R in f4. exact f4.
      * rewrite R in f5. exact f5.
  - injection M as <-. destruct I as [f1 f2 f3 f4 f5]. fcons f2 R.
    + intros u; destruct (f4 u) as (X & _); split; [exact X|discriminate].
    + rewrite R in f5. exact f5.
  - injection M as <-. destruct I as [f1 f2 f3 f4 f5]. apply F_gone; cbn; auto.
    + rewrite f2, R. reflexivity.
    + intros u. apply f4, u.
    + rewrite R in f5. apply f5.
Qed.
Lemma busy_set : forall l i a y, nth_error l i = Some a -> (suml nbusy (set l i y) + nbusy a = suml nbusy l + nbusy y)%nat.
Proof. intros l i a y G. pose proof (suml_set _ nbusy _ _ _ y G). lia. Qed.
Lemma step_F : forall s i s', step s i = Some s' -> F s -> F s'.
Proof.
  intros s i s' E I. unfold step in E. destruct (nth_error (ag s) i) as [a|] eqn:G; [|discriminate].
  pose proof (busy_set _ _ _ Idle G) as B0. pose proof (fun y => busy_set _ _ _ y G) as BY. pose proof (suml_ge _ nbusy _ _ _ G) as BG.
  assert (U : busy a = true -> us s <> 0%nat).
  { intros Ba U. destruct (f_u _ I U) as (X & _). unfold nbusy in BG at 1. rewrite Ba in BG. lia. }
  assert (D : busy a = true -> dd s = false).
  { intros Ba. destruct (dd s) eqn:D; auto. destruct (f_d _ I D) as (_ & _ & X & _). exfalso. exact (U Ba X). }
  destruct I as [f1 f2 f3 f4 f5]. destruct a; try discriminate; specialize (U eq_refl); specialize (D eq_refl); cbv zeta in E.
  all: repeat match type of E with (if ?c then _ else _) = _ => destruct c end; try discriminate; injection E as <-.
  all: constructor; cbn [log q rs dd us ag fl say put w_ag w_fl w_q w_mq]; rewrite ?pushed_app, ?taken_app, ?nest_app, ?f2; cbn; rewrite ?app_nil_r, ?app_assoc; try assumption; try congruence; try contradiction; try (rewrite f1; reflexivity).
  - destruct (_ <=? _); cbn; rewrite ?app_nil_r; assumption.
  - destruct (_ <=? _); reflexivity.
Qed.
Lemma exec_F : forall a s s', exec s a = Some s' -> F s -> F s'.
Proof.
  intros a s s' E I. destruct a; cbn in E.
  - exact (move_F _ _ E I).
  - pose proof (mf s) as MF. unfold ret in E. destruct (rs s) as [|[x|t] k] eqn:R; try discriminate. assert (D := MF _ _ I eq_refl). injection E as <-. destruct I as [f1 f2 f3 f4 f5]. fcons f2 R.
    + rewrite Nat.eqb_refl. reflexivity.
    + intros u. destruct (f4 u) as (X & Y). split; [exact X|]. rewrite R in f5. cbn in f5. destruct k as [|[] k]; try tauto. discriminate.
    + rewrite R in f5. apply f5.
  - unfold dispatch in E. destruct (mq s); [discriminate|]. cbv zeta in E.
    destruct (rs s) as [|[x|t] k] eqn:R; try discriminate; injection E as <-.
    + destruct (dd s) eqn:D; destruct I as [f1 f2 f3 f4 f5].
      * constructor; auto.
      * fcons f2 R. intros u. destruct (f4 u) as (X & Y). split; [exact X|discriminate].
    + assert (dd s = false) as -> by (apply (mf _ _ _ I R)). destruct I as [f1 f2 f3 f4 f5]. fcons f2 R.
      * intros Dd. destruct (f3 Dd) as (_ & X & _). congruence.
      * intros u. destruct (f4 u) as (X & Y). split; [exact X|discriminate].
      * rewrite R in f5. split; [exact Logic.I|exact f5].
  - exact (step_F _ _ _ E I).
  - destruct (Nat.eqb_spec (us s) 0); [discriminate|]. injection E as <-. destruct I. constructor; cbn; auto; contradiction.
  - destruct (Nat.eqb_spec (us s) 0); [discriminate|]. injection E as <-. destruct I. constructor; cbn; auto; contradiction.
  - destruct (Nat.eqb_spec (us s) 0); [discriminate|]. injection E as <-. destruct I as [f1 f2 f3 f4 f5].
    assert (D : dd s = false) by (destruct (dd s) eqn:D; auto; destruct (f3 eq_refl) as (_ & _ & X & _); contradiction).
    constructor; cbn; rewrite ?pushed_app, ?taken_app, ?nest_app, ?f2; cbn; rewrite ?app_nil_r; auto; congruence.
  - destruct (Nat.eqb_spec (us s) 0) as [|U]; [discriminate|]. cbn in E. destruct (existsb busy (ag s)) eqn:B; [discriminate|]. injection E as <-.
    destruct I as [f1 f2 f3 f4 f5].
    assert (D : dd s = false) by (destruct (dd s) eqn:D; auto; destruct (f3 eq_refl) as (_ & _ & X & _); contradiction).
    apply F_gone; auto. intros _. cbn. clear - B. induction (ag s) as [|a l IH]; auto. cbn in *. apply orb_false_iff in B. destruct B as (B1 & B2). unfold nbusy at 1. rewrite B1, IH; auto.
Qed.
Lemma run_F : forall l s s', run s l = Some s' -> F s -> F s'.
Proof.
  induction l as [|a l IH]; intros s s' R I; cbn in R; [injection R as <-; assumption|].
  destruct (exec s a) as [s1|] eqn:E; [|discriminate]. exact (IH _ _ R (exec_F _ _ _ E I)).
Qed.
(** The log only grows. *)
Lemma ext_refl : forall (l : list event), exists m, l = l ++ m. Proof. intros l. exists []. rewrite app_nil_r. reflexivity. Qed.
Lemma gone_ext : forall s, exists m, log (gone s) = log s ++ m.
Proof. intros s. destruct (gone_eq s) as [(_ & ->)|(_ & ->)]; [apply ext_refl|eexists; reflexivity]. Qed.
Lemma exec_ext : forall a s s', exec s a = Some s' -> exists m, log s' = log s ++ m.
Proof.
  intros a s s' E. destruct a; cbn in E.
  - unfold move in E. destruct (rs s) as [|[x|t] k] eqn:R; try discriminate. destruct x; cbv zeta in E.
    all: repeat match type of E with (if ?c then _ else _) = _ => destruct c | match ?c with _ => _ end = _ => destruct c end; try discriminate.
    all: injection E as <-; try apply ext_refl; try (eexists; reflexivity).
    + cbn. destruct (pd s =? 0); apply ext_refl.
    + apply (gone_ext (w_rs s k)).
  - unfold ret in E. destruct (rs s) as [|[x|t] k]; try discriminate. injection E as <-. eexists; reflexivity.
  - unfold dispatch in E. destruct (mq s); [discriminate|]. cbv zeta in E. destruct (rs s) as [|[x|t] k]; try discriminate; injection E as <-; destruct (dd s); try apply ext_refl; eexists; reflexivity.
  - unfold step in E. destruct (nth_error (ag s) i) as [[t|t|t|t|n| | | | | ]|]; try discriminate.
    all: cbv zeta in E; repeat match type of E with (if ?c then _ else _) = _ => destruct c end; try discriminate; injection E as <-; try apply ext_refl.
    all: cbn; rewrite <- ?app_assoc; eexists; reflexivity.
  - destruct (Nat.eqb (us s) 0); [discriminate|]. injection E as <-. apply ext_refl.
  - destruct (Nat.eqb (us s) 0); [discriminate|]. injection E as <-. apply ext_refl.
  - destruct (Nat.eqb (us s) 0); [discriminate|]. injection E as <-. eexists; reflexivity.
  - destruct (_ || _); [discriminate|]. injection E as <-. apply (gone_ext (w_us s (us s - 1)%nat)).
Qed.
Lemma run_ext : forall l s s', run s l = Some s' -> exists m, log s' = log s ++ m.
Proof.
  induction l as [|a l IH]; intros s s' R; cbn in R; [injection R as <-; apply ext_refl|].
  destruct (exec s a) as [s1|] eqn:E; [|discriminate]. destruct (IH _ _ R) as (m & ->). destruct (exec_ext _ _ _ E) as (m' & ->).
  exists (m' ++ m). rewrite app_assoc. reflexivity.
Qed.
Lemma run_in : forall l s s' e, run s l = Some s' -> ~ In e (log s') -> ~ In e (log s).
Proof. intros l s s' e R N H. apply N. destruct (run_ext _ _ _ R) as (m & ->). apply in_or_app. auto. Qed.
