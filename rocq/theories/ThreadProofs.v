(** Specification and invariants of the model of ThreadTaskRunnerImpl (ThreadModel.v). *)
From Coq Require Import Lia List ZArith Bool Arith.
From Verif Require Import Slots SlotsProofs Threads ThreadModel.
Import ListNotations.
Local Open Scope Z_scope.

(** The tasks pushed, and those taken from the queue, in order. *)
Definition pushed (l : list event) : list nat := flat_map (fun e => match e with EPush t => [t] | _ => [] end) l.
Definition taken (l : list event) : list nat := flat_map (fun e => match e with EStart t | ECan t => [t] | _ => [] end) l.
(** Starts and ends of tasks as brackets; the result are the tasks running, innermost first. *)
Fixpoint nest (k : list nat) (l : list event) : option (list nat) :=
  match l with
  | [] => Some k
  | EStart t :: r => nest (t :: k) r
  | EEnd t :: r => match k with u :: k' => if Nat.eqb t u then nest k' r else None | [] => None end
  | _ :: r => nest k r
  end.
Lemma pushed_app : forall l m, pushed (l ++ m) = pushed l ++ pushed m. Proof. intros; apply flat_map_app. Qed.
Lemma taken_app : forall l m, taken (l ++ m) = taken l ++ taken m. Proof. intros; apply flat_map_app. Qed.
Lemma nest_app : forall l m k, nest k (l ++ m) = match nest k l with Some k' => nest k' m | None => None end.
Proof.
  induction l as [|e l IH]; intros m k; cbn; auto.
  destruct e; auto. destruct k; auto. destruct (Nat.eqb t n); auto.
Qed.
Fixpoint tasks (k : list frame) : list nat := match k with [] => [] | Run t :: r => t :: tasks r | _ :: r => tasks r end.

Definition F (s : st) : Prop := pushed (log s) = taken (log s) ++ q s /\ nest [] (log s) = Some (tasks (rs s)).
Lemma F_init : forall p b, F (init p b). Proof. intros; split; reflexivity. Qed.
Ltac ff := unfold F, say, leave, back, put in *; cbn in *; rewrite ?pushed_app, ?taken_app, ?nest_app; cbn.
Lemma back_F : forall s k, tasks (rs s) = tasks k -> F s -> F (back s k).
Proof. intros s k T (A & B). unfold back. destruct k; cbn; [destruct (pool s)|]; split; cbn; try assumption; rewrite B, T; reflexivity. Qed.
Lemma F_say : forall s e, pushed [e] = [] -> taken [e] = [] -> (forall k, nest k [e] = Some k) -> F s -> F (say s [e]).
Proof.
  intros s e P T N (A & B). split; cbn.
  - rewrite pushed_app, taken_app, P, T, !app_nil_r. assumption.
  - rewrite nest_app, B. apply N.
Qed.
Lemma back_pool : forall s k, log (back s k) = log s /\ q (back s k) = q s /\ rs (back s k) = k.
Proof. intros s k. unfold back. destruct k; cbn; [destruct (pool s)|]; auto. Qed.
Lemma move_F : forall s s', move s = Some s' -> F s -> F s'.
Proof.
  intros s s' M (A & B). unfold move in M. destruct (rs s) as [|f k] eqn:R; [discriminate|].
  destruct f as [b x|t|tm| | | | | | ]; try discriminate.
  - cbn in B. destruct x; cbv beta iota zeta in M.
    all: try (injection M as <-; ff; rewrite ?B; auto; fail).
    + destruct (shared s); injection M as <-; ff; auto.
    + destruct (it (fl s)); injection M as <-; ff; auto.
    + destruct (mq s); [destruct (qt s)|]; injection M as <-; ff; auto.
    + destruct (shared s); injection M as <-; ff; auto.
    + destruct (it (fl s)); injection M as <-; ff; auto.
    + destruct (pn s =? _); injection M as <-; ff; auto.
    + destruct (pd s =? 0); [injection M as <-; ff; auto|].
      destruct (_ =? 0); [injection M as <-; ff; auto|]. destruct (_ <=? _); injection M as <-; ff; auto.
    + destruct (_ || _); [|discriminate]. injection M as <-; ff; auto.
    + destruct (q s) as [|t r] eqn:Q; injection M as <-; ff; rewrite ?app_nil_r, ?B; cbn; rewrite ?A, <- ?app_assoc; cbn; rewrite ?Q; auto.
  - destruct (shared s); injection M as <-; ff; auto.
  - destruct (it (fl s)); injection M as <-; ff; auto.
  - injection M as <-. destruct (sp (fl s)); [ff; auto|]. apply back_F; [rewrite R; reflexivity|split; [assumption|rewrite R; assumption]].
  - injection M as <-. destruct (cn (fl s) =? 0); [ff; auto|]. apply back_F; [rewrite R; reflexivity|split; [assumption|rewrite R; assumption]].
  - destruct (q s) as [|t r] eqn:Q; injection M as <-; ff; rewrite ?app_nil_r, ?B; cbn; rewrite ?A, <- ?app_assoc; cbn; rewrite ?Q, ?R; cbn; auto.
  - injection M as <-. apply F_say; auto. apply back_F; [cbn; rewrite R; reflexivity|split; cbn; [assumption|rewrite R; assumption]].
Qed.
Lemma exec_F : forall a s s', exec s a = Some s' -> F s -> F s'.
Proof.
  intros a s s' E (A & B). destruct a; cbn in E.
  - exact (move_F _ _ E (conj A B)).
  - unfold ret in E. destruct (rs s) as [|f k] eqn:R; [discriminate|]. destruct f; try discriminate; injection E as <-; ff; rewrite ?app_nil_r; auto.
    cbn in B. rewrite B, Nat.eqb_refl. auto.
  - unfold enter in E. destruct (rs s) as [|f k] eqn:R; [destruct (id s); [| destruct (Nat.eqb (us s) 0); [discriminate|] |discriminate]; injection E as <-; ff; rewrite ?R; auto|].
    destruct f; try discriminate; injection E as <-; ff; rewrite ?app_nil_r, ?R, ?B; auto.
  - destruct (rs s) as [|[b x| | | | | | | | ] k] eqn:R; try discriminate. destruct x; try discriminate. injection E as <-. ff. rewrite ?R; auto.
  - destruct (rs s) as [|[b0 x| | | | | | | | ] k] eqn:R; try discriminate. destruct x; try discriminate. injection E as <-. ff. destruct b; cbn; auto.
  - destruct (rs s) as [|f k] eqn:R; [discriminate|]. destruct f as [| |[] | | | | | | ]; try discriminate; destruct (mq s); try discriminate; injection E as <-; ff; rewrite ?app_nil_r, ?R, ?B; auto.
  - destruct (id s); try discriminate. injection E as <-. ff; auto.
  - destruct (id s); try discriminate. injection E as <-. ff; auto.
  - unfold step in E. destruct (nth_error (ag s) i) as [[t|t|t|t|n| | | | ]|]; try discriminate.
    + destruct (sp (fl s)); injection E as <-; ff; rewrite ?app_nil_r, ?B; auto.
    + destruct (lk (fl s)); injection E as <-; ff; auto.
    + injection E as <-. ff. rewrite A, B, app_nil_r, <- app_assoc. auto.
    + injection E as <-. unfold F. cbn [log rs q say put w_ag w_fl]. rewrite pushed_app, taken_app, nest_app, B.
      destruct (_ <=? cn (fl s)); cbn; rewrite ?app_nil_r; auto.
    + injection E as <-. ff; auto.
    + injection E as <-. destruct (id s); ff; auto.
    + destruct (enc (fl s) <? 16); injection E as <-; ff; rewrite ?app_nil_r, ?B; auto.
    + destruct (enc (fl s) =? 6); [|discriminate]. injection E as <-; ff; rewrite ?app_nil_r, ?B; auto.
  - destruct (Nat.eqb (us s) 0); [discriminate|]. injection E as <-. ff; auto.
  - destruct (Nat.eqb (us s) 0); [discriminate|]. injection E as <-. ff; auto.
  - destruct (Nat.eqb (us s) 0); [discriminate|]. injection E as <-. ff; rewrite ?app_nil_r, ?B; auto.
  - destruct (_ || _); [discriminate|]. injection E as <-. ff; auto.
Qed.
Lemma run_F : forall l s s', run s l = Some s' -> F s -> F s'.
Proof.
  induction l as [|a l IH]; intros s s' R I; cbn in R; [injection R as <-; assumption|].
  destruct (exec s a) as [s1|] eqn:E; [|discriminate]. exact (IH _ _ R (exec_F _ _ _ E I)).
Qed.

(** The word: adding 15 with the push lock held releases it and counts one more. *)
Lemma low_bit : forall z m i, 0 <= i < 4 -> Z.testbit (z + 16 * m) i = Z.testbit z i.
Proof.
  intros z m i H. rewrite <- (Z.mod_pow2_bits_low (z + 16 * m) 4 i) by lia.
  replace (z + 16 * m) with (z + m * 2 ^ 4) by (change (2 ^ 4) with 16; lia).
  rewrite Z.mod_add by (change (2 ^ 4) with 16; lia). apply Z.mod_pow2_bits_low; lia.
Qed.
Lemma dec_enc : forall f, dec (enc f) = f.
Proof.
  intros [a b c d n]. unfold dec, enc. cbn [lk sp it bg cn].
  rewrite !low_bit by lia.
  replace ((bit a + 2 * bit b + 4 * bit c + 8 * bit d + 16 * n) / 16) with n.
  - destruct a, b, c, d; reflexivity.
  - symmetry. rewrite (Z.mul_comm 16 n), Z.div_add by lia. destruct a, b, c, d; reflexivity.
Qed.
Lemma unlock_locked : forall f, lk f = true -> 0 <= cn f < CW -> unlock f = FL false (sp f) (it f) (bg f) ((cn f + 1) mod CW).
Proof.
  intros [a b c d n] L R. cbn [lk sp it bg cn] in *. subst a.
  rewrite <- (dec_enc (FL false b c d ((n + 1) mod CW))). unfold unlock. f_equal. unfold enc. cbn [lk sp it bg cn].
  unfold W32, CW in *. destruct (Z.eq_dec n (2 ^ 28 - 1)) as [->|N].
  - destruct b, c, d; reflexivity.
  - rewrite (Z.mod_small (n + 1)) by (change (2 ^ 28) with 268435456 in *; lia).
    rewrite Z.mod_small; change (2 ^ 28) with 268435456 in *; change (2 ^ 32) with 4294967296; destruct b, c, d; cbn [bit]; lia.
Qed.
Lemma enc_bound : forall f, lk f = false -> 16 * cn f <= enc f < 16 * (cn f + 1).
Proof. intros [a b c d n] L. cbn in L. subst a. unfold enc. cbn [lk sp it bg cn]. destruct b, c, d; cbn [bit]; lia. Qed.

(** One thread at a time pushes, until CleanupTaskQueue sets the flags. *)
Definition hold (a : agent) : nat := match a with P2 _ | P3 _ => 1 | _ => 0 end.
Definition Lk (s : st) : Prop := 0 <= cn (fl s) < CW /\ Z.of_nat (suml hold (ag s)) = bit (lk (fl s)).
Lemma suml_app : forall A (f : A -> nat) l x, suml f (l ++ [x]) = (suml f l + f x)%nat.
Proof. intros A f l x. induction l; cbn; lia. Qed.
Lemma say_log : forall s e, log (say s e) = log s ++ e. Proof. reflexivity. Qed.
Lemma back_eq : forall s k, fl (back s k) = fl s /\ ag (back s k) = ag s /\ log (back s k) = log s /\ rs (back s k) = k /\ q (back s k) = q s /\
  re (back s k) = re s /\ pn (back s k) = pn s /\ pd (back s k) = pd s /\ mq (back s k) = mq s /\ (k <> [] -> id (back s k) = id s).
Proof. intros s k. unfold back. destruct k; cbn; [destruct (pool s)|]; cbn; repeat split; congruence. Qed.
Lemma CWp : 0 < CW. Proof. reflexivity. Qed.
Lemma Lk_same : forall s s', cn (fl s') = cn (fl s) -> lk (fl s') = lk (fl s) -> ag s' = ag s -> Lk s -> Lk s'.
Proof. intros s s' A B C (D & E). unfold Lk. rewrite A, B, C. auto. Qed.
Lemma move_Lk : forall s s', move s = Some s' -> ~ In ECln (log s') -> Lk s -> Lk s'.
Proof.
  intros s s' M N I. unfold move in M. destruct (rs s) as [|f k] eqn:R; [discriminate|].
  destruct f as [b x|t|tm| | | | | | ]; try discriminate.
  - destruct x; cbv beta iota zeta in M.
    all: repeat match type of M with (if ?c then _ else _) = _ => destruct c | match ?c with _ => _ end = _ => destruct c end; try discriminate.
    all: injection M as <-.
    all: try (apply (Lk_same s); [reflexivity|reflexivity|reflexivity|exact I]).
    all: destruct I as (A & B); split; [apply Z.mod_pos_bound, CWp|exact B].
  - injection M as <-. apply (Lk_same s); auto.
  - injection M as <-. apply (Lk_same s); auto.
  - injection M as <-. destruct (sp (fl s)); [apply (Lk_same s); auto|]. destruct (back_eq s k) as (P & Q & _). apply (Lk_same s); rewrite ?P, ?Q; auto.
  - injection M as <-. destruct (cn (fl s) =? 0); [apply (Lk_same s); auto|]. destruct (back_eq s k) as (P & Q & _). apply (Lk_same s); rewrite ?P, ?Q; auto.
  - destruct (q s); injection M as <-; apply (Lk_same s); auto.
  - injection M as <-. exfalso. apply N. rewrite say_log. apply in_or_app. right. left. reflexivity.
Qed.
Lemma step_Lk : forall s i s', step s i = Some s' -> Lk s -> Lk s'.
Proof.
  intros s i s' E (A & B). unfold step in E. destruct (nth_error (ag s) i) as [a|] eqn:G; [|discriminate].
  assert (U : forall y, Z.of_nat (suml hold (set (ag s) i y)) = Z.of_nat (suml hold (ag s)) + Z.of_nat (hold y) - Z.of_nat (hold a)).
  { intros y. pose proof (suml_set _ hold _ _ _ y G). lia. }
  destruct a as [t|t|t|t|n| | | | ]; try discriminate.
  - destruct (sp (fl s)); injection E as <-; (split; [exact A|]); cbn; rewrite U; cbn; lia.
  - destruct (lk (fl s)) eqn:L; injection E as <-; [split; [exact A|]; rewrite L; exact B|].
    split; [exact A|]. cbn. rewrite U. cbn. cbn in B. lia.
  - injection E as <-. split; [exact A|]. cbn. rewrite U. cbn. lia.
  - assert (L : lk (fl s) = true).
    { pose proof (suml_ge _ hold _ _ _ G) as X. cbn in X. destruct (lk (fl s)); [reflexivity|]. cbn in B. lia. }
    cbv zeta in E. injection E as <-. unfold Lk. cbn [fl ag say put w_ag w_fl].
    rewrite unlock_locked by (auto; lia). cbn [cn lk]. split; [apply Z.mod_pos_bound, CWp|].
    rewrite U. cbn. rewrite L in B. cbn in B. lia.
  - injection E as <-. split; [exact A|]. cbn [ag put w_ag fl]. rewrite U. destruct (n <? _); cbn; lia.
  - injection E as <-. destruct (id s); (split; [exact A|]); cbn; rewrite U; cbn; lia.
  - destruct (enc (fl s) <? 16); injection E as <-; (split; [exact A|]); cbn; rewrite U; cbn; lia.
  - destruct (enc (fl s) =? 6); [|discriminate]. injection E as <-; (split; [exact A|]); cbn; rewrite U; cbn; lia.
Qed.
Lemma exec_Lk : forall a s s', exec s a = Some s' -> ~ In ECln (log s') -> Lk s -> Lk s'.
Proof.
  intros a s s' E N I. destruct a; cbn in E.
  - exact (move_Lk _ _ E N I).
  - unfold ret in E. destruct (rs s) as [|f k]; [discriminate|]. destruct f; try discriminate; injection E as <-; exact I.
  - unfold enter in E. destruct (rs s) as [|f k]; [destruct (id s); [|destruct (Nat.eqb (us s) 0); [discriminate|]|discriminate]; injection E as <-; exact I|].
    destruct f; try discriminate; injection E as <-; exact I.
  - destruct (rs s) as [|[b x| | | | | | | | ] k]; try discriminate. destruct x; try discriminate. injection E as <-. exact I.
  - destruct (rs s) as [|[b0 x| | | | | | | | ] k]; try discriminate. destruct x; try discriminate. injection E as <-. exact I.
  - destruct (rs s) as [|f k]; [discriminate|]. destruct f as [| |[] | | | | | | ]; try discriminate; destruct (mq s); try discriminate; injection E as <-; exact I.
  - destruct (id s); try discriminate. injection E as <-. exact I.
  - destruct (id s); try discriminate. injection E as <-. exact I.
  - exact (step_Lk _ _ _ E I).
  - destruct (Nat.eqb (us s) 0); [discriminate|]. injection E as <-. destruct I as (A & B). split; [exact A|]. cbn. rewrite suml_app. cbn. lia.
  - destruct (Nat.eqb (us s) 0); [discriminate|]. injection E as <-. destruct I as (A & B). split; [exact A|]. cbn. rewrite suml_app. cbn. lia.
  - destruct (Nat.eqb (us s) 0); [discriminate|]. injection E as <-. exact I.
  - destruct (_ || _); [discriminate|]. injection E as <-. exact I.
Qed.
Lemma ext_refl : forall (l : list event), exists m, l = l ++ m. Proof. intros l. exists []. rewrite app_nil_r. reflexivity. Qed.
(** The log only grows. *)
Lemma exec_ext : forall a s s', exec s a = Some s' -> exists m, log s' = log s ++ m.
Proof.
  intros a s s' E. destruct a; cbn in E.
  - unfold move in E. destruct (rs s) as [|f k] eqn:R; [discriminate|].
    destruct f as [b x|t|tm| | | | | | ]; try discriminate.
    + destruct x; cbv beta iota zeta in E.
      all: repeat match type of E with (if ?c then _ else _) = _ => destruct c | match ?c with _ => _ end = _ => destruct c end; try discriminate.
      all: injection E as <-; try apply ext_refl; eexists; reflexivity.
    + injection E as <-. apply ext_refl.
    + injection E as <-. apply ext_refl.
    + injection E as <-. destruct (sp (fl s)); [apply ext_refl|]. destruct (back_eq s k) as (_ & _ & -> & _). apply ext_refl.
    + injection E as <-. destruct (cn (fl s) =? 0); [apply ext_refl|]. destruct (back_eq s k) as (_ & _ & -> & _). apply ext_refl.
    + destruct (q s); injection E as <-; eexists; reflexivity.
    + injection E as <-. rewrite say_log. destruct (back_eq (w_fl s (FL false true true false 0)) k) as (_ & _ & -> & _). eexists; reflexivity.
  - unfold ret in E. destruct (rs s) as [|f k]; [discriminate|]. destruct f; try discriminate; injection E as <-; [eexists; reflexivity|apply ext_refl].
  - unfold enter in E. destruct (rs s) as [|f k]; [destruct (id s); [|destruct (Nat.eqb (us s) 0); [discriminate|]|discriminate]; injection E as <-; apply ext_refl|].
    destruct f; try discriminate; injection E as <-; [apply ext_refl|eexists; reflexivity].
  - destruct (rs s) as [|[b x| | | | | | | | ] k]; try discriminate. destruct x; try discriminate. injection E as <-. apply ext_refl.
  - destruct (rs s) as [|[b0 x| | | | | | | | ] k]; try discriminate. destruct x; try discriminate. injection E as <-. apply ext_refl.
  - destruct (rs s) as [|f k]; [discriminate|]. destruct f as [| |[] | | | | | | ]; try discriminate; destruct (mq s); try discriminate; injection E as <-; first [apply ext_refl|eexists; reflexivity].
  - destruct (id s); try discriminate. injection E as <-. apply ext_refl.
  - destruct (id s); try discriminate. injection E as <-. apply ext_refl.
  - unfold step in E. destruct (nth_error (ag s) i) as [[t|t|t|t|n| | | | ]|]; try discriminate.
    all: cbv zeta in E; repeat match type of E with (if ?c then _ else _) = _ => destruct c end; try discriminate; injection E as <-; try apply ext_refl.
    all: try (eexists; reflexivity). destruct (id s); apply ext_refl.
  - destruct (Nat.eqb (us s) 0); [discriminate|]. injection E as <-. apply ext_refl.
  - destruct (Nat.eqb (us s) 0); [discriminate|]. injection E as <-. apply ext_refl.
  - destruct (Nat.eqb (us s) 0); [discriminate|]. injection E as <-. eexists; reflexivity.
  - destruct (_ || _); [discriminate|]. injection E as <-. apply ext_refl.
Qed.
Lemma run_ext : forall l s s', run s l = Some s' -> exists m, log s' = log s ++ m.
Proof.
  induction l as [|a l IH]; intros s s' R; cbn in R; [injection R as <-; apply ext_refl|].
  destruct (exec s a) as [s1|] eqn:E; [|discriminate]. destruct (IH _ _ R) as (m & ->). destruct (exec_ext _ _ _ E) as (m' & ->).
  exists (m' ++ m). rewrite app_assoc. reflexivity.
Qed.
Lemma run_in : forall l s s' e, run s l = Some s' -> ~ In e (log s') -> ~ In e (log s).
Proof. intros l s s' e R N H. apply N. destruct (run_ext _ _ _ R) as (m & ->). apply in_or_app. auto. Qed.
Lemma run_Lk : forall l s s', run s l = Some s' -> ~ In ECln (log s') -> Lk s -> Lk s'.
Proof.
  induction l as [|a l IH]; intros s s' R N I; cbn in R; [injection R as <-; assumption|].
  destruct (exec s a) as [s1|] eqn:E; [|discriminate]. refine (IH _ _ R N (exec_Lk _ _ _ E (run_in _ _ _ _ R N) I)).
Qed.
Lemma Lk_init : forall p b, Lk (init p b). Proof. intros. split; cbn; [unfold CW|]; lia. Qed.
