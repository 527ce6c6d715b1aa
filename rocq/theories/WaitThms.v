(** C58: a wait is completed only by its own handle. *)
From Coq Require Import List Bool Arith Lia.
From Verif Require Import WaitModel WaitProofs.
Import ListNotations.

Definition GI (hd : nat -> nat) (s : st) : Prop := K hd (waiting (log s)) s.
Lemma GI_say : forall hd s e W, K hd W s -> (forall t, wstep t (waiting (log s) t) e = W t) -> GI hd (say s e).
Proof. intros hd s e W I H. unfold GI. apply (K_ext hd W); [intros t; cbn [log say]; rewrite waiting_app; symmetry; apply H|]. apply K_say, I. Qed.
Lemma own_app : forall hd l e, own hd l -> (forall t h r, e = EDone t h r -> h = hd t /\ waiting l t = true) -> own hd (l ++ [e]).
Proof.
  intros hd l e O H a t h r b E. destruct b as [|x b] using rev_ind.
  - apply app_inj_tail in E. destruct E as [-> E]. apply (H t h r). symmetry. symmetry. exact E.
  - rewrite app_comm_cons, app_assoc in E. apply app_inj_tail in E. destruct E as [E _]. apply (O a t h r b E).
Qed.
Ltac notdone := intros ? ? ? X; discriminate X.
(** Setting a wait. *)
Lemma set_GI : forall hd s t d, K hd (waiting (log s)) s -> alive s t = true -> stt s t = Started -> mark s t <> MI -> (forall j, j < c s -> ps s j <> Some t) ->
  single hd (log (set_wait hd s t d)) -> own hd (log s) -> GI hd (set_wait hd s t d) /\ own hd (log (set_wait hd s t d)) /\ exists m, log (set_wait hd s t d) = log s ++ m.
Proof.
  intros hd s t d I A S M NT SG O. destruct (Nat.eq_dec (hd t) 0) as [Z|Z].
  - unfold set_wait in *. rewrite Z in *. cbn in *. split; [exact I|]. split; [exact O|]. exists []. symmetry. apply app_nil_r.
  - assert (SI : forall t', t' <> t -> hd t' = hd t -> waiting (log s) t' = false).
    { assert (EL : exists e, log (set_wait hd s t d) = log s ++ EAsk t d :: e).
      { clear -Z S. unfold set_wait. apply Nat.eqb_neq in Z. rewrite Z, S. set (s1 := say (w_due s t d) (EAsk t d)). assert (X : forall s', (exists e, log s' = log s1 ++ e) -> exists e, log s' = log s ++ EAsk t d :: e) by (intros s' [e E]; exists e; rewrite E; cbn; rewrite <- app_assoc; reflexivity).
        apply X. destruct (find s1 (hd t)) as [i|]; [|destruct (kMax <=? c s1); cbn; eexists; reflexivity]. destruct (get (w_mark s1 t MI) i) as [o|]; [|cbn; eexists; reflexivity]. destruct (o =? t); [cbn; eexists; reflexivity|]. cbn [log say w_arr].
        assert (Y : exists e, log (cancel_here hd (w_mark s1 t MI) o) = log s1 ++ e).
        { unfold cancel_here. destruct (stt (w_mark s1 t MI) o); [|exists []; symmetry; apply app_nil_r|exists []; symmetry; apply app_nil_r]. cbn [log say]. destruct (mark (w_stt (w_mark s1 t MI) o Canceled) o); try (eexists; reflexivity). unfold remove_found. destruct (remove_frame (w_mark (w_stt (w_mark s1 t MI) o Canceled) o MN) match find (w_stt (w_mark s1 t MI) o Canceled) (hd o) with Some i0 => i0 | None => kMax end) as (_ & _ & _ & _ & ->). eexists. reflexivity. }
        destruct Y as [e ->]. rewrite <- app_assoc. eexists. reflexivity. }
      destruct EL as [e EL]. intros t' N H. apply (SG (log s) t d e EL t' N H). }
    destruct (set_wait_K hd (waiting (log s)) s t d I A S M NT SI Z) as (s' & b & E & L & I'). rewrite E. assert (W1 : forall u, waiting (log s') u = waiting (log s) u) by (intros u; rewrite L, waiting_app; reflexivity).
    split; [|split].
    + apply (GI_say hd s' _ (upd (waiting (log s)) t b)); [exact I'|]. intros u. rewrite W1. unfold upd. destruct b; reflexivity.
    + cbn [log say]. rewrite L. apply own_app; [apply own_app; [exact O|notdone]|]. destruct b; notdone.
    + cbn [log say]. rewrite L, <- app_assoc. eexists. reflexivity.
Qed.
Lemma process_GI : forall hd s i r, GI hd s -> own hd (log s) -> GI hd (process s i r) /\ own hd (log (process s i r)) /\ exists m, log (process s i r) = log s ++ m.
Proof.
  intros hd s i r I O. destruct (le_lt_dec (c s) i) as [L|L].
  - unfold process. apply Nat.leb_le in L. rewrite L. split; [exact I|]. split; [exact O|]. exists []. symmetry. apply app_nil_r.
  - destruct (process_K hd _ s i r I L) as (t & P & [(WT & s' & E & G & I')|(WT & E & I')]); rewrite E.
    + split; [|split].
      * apply (GI_say hd s' _ (upd (waiting (log s)) t false)); [exact I'|]. intros u. rewrite G. reflexivity.
      * cbn [log say]. rewrite G. apply own_app; [exact O|]. intros t' h r' X. injection X as <- <- <-. auto.
      * cbn [log say]. rewrite G. eexists. reflexivity.
    + destruct (remove_frame s i) as (_ & _ & _ & _ & G). unfold GI. rewrite G. split; [exact I'|]. split; [exact O|]. exists []. symmetry. apply app_nil_r.
Qed.
Lemma exec_GI : forall hd s a s', GI hd s -> own hd (log s) -> exec hd s a = Some s' -> single hd (log s') -> GI hd s' /\ own hd (log s') /\ exists m, log s' = log s ++ m.
Proof.
  intros hd s a s' I O E SG. assert (NIL : exists m, log s = log s ++ m) by (exists []; symmetry; apply app_nil_r). destruct a as [t d|t d|t|t|t| |i b|n| |r]; cbn [exec] in E.
  - destruct (stt s t) eqn:S; try discriminate. destruct (mark s t) eqn:M; try discriminate. destruct (alive s t) eqn:A; [|discriminate]. injection E as <-. apply set_GI; auto; [congruence|].
    intros j J P. pose proof (k_only _ _ _ I j t J P A S) as WT. destruct (k_in _ _ _ I t WT) as (_ & _ & X & _). congruence.
  - destruct (stt s t) eqn:S; try discriminate. destruct (alive s t) eqn:A; [|discriminate]. injection E as <-.
    assert (NT : forall j, j < c s -> ps s j <> Some t) by (intros j J P; exact (k_done _ _ _ I j t J P S)). assert (M : mark s t <> MI) by (apply (k_cm _ _ _ I); [exact A|congruence]).
    assert (I1 : K hd (waiting (log s)) (w_stt s t Started)).
    { destruct I as [B1 B2 B3 B4 B5 B6 B7 B8 B9]. split; auto; cbn [c hs ps alive stt mark w_stt].
      - intros u WU. unfold upd. destruct (Nat.eqb_spec u t) as [EQ|N]; [subst u; destruct (B5 t WU) as (_ & X & _); congruence|apply B5; exact WU].
      - intros j u J P X Y. unfold upd in Y. destruct (Nat.eqb_spec u t) as [EQ|N]; [subst u; exfalso; exact (NT j J P)|]. apply (B6 j); auto.
      - intros u X Y V. unfold upd in Y. destruct (Nat.eqb_spec u t) as [EQ|N]; [subst u; contradiction|]. apply B7; auto.
      - intros j u J P. unfold upd. destruct (Nat.eqb_spec u t); [discriminate|]. apply (B8 j); auto.
      - intros u X Y. unfold upd in Y. destruct (Nat.eqb_spec u t) as [EQ|N]; [contradiction|]. apply B9; auto. }
    apply (set_GI hd (w_stt s t Started) t d I1); auto. cbn. apply upd_eq.
  - destruct (alive s t) eqn:A; [|discriminate]. injection E as <-. destruct (stt s t) eqn:S.
    + destruct (cancel_here_K hd _ s t I A S) as (s' & E & G & I'). rewrite E in *. split; [|split; [cbn [log say]; rewrite G; apply own_app; [exact O|notdone]|cbn [log say]; rewrite G; eexists; reflexivity]].
      apply (GI_say hd s' _ (upd (waiting (log s)) t false)); [exact I'|]. intros u. rewrite G. reflexivity.
    + unfold cancel_here. rewrite S. auto.
    + unfold cancel_here. rewrite S. auto.
  - destruct (alive s t) eqn:A; [|discriminate]. injection E as <-. unfold cancel_there. destruct (stt s t) eqn:S; auto. split; [|split; [cbn; apply own_app; [exact O|notdone]|cbn; eexists; reflexivity]].
    apply (GI_say hd _ _ (upd (waiting (log s)) t false)); [apply cancel_K; auto|]. reflexivity.
  - destruct (alive s t) eqn:A; [|discriminate]. injection E as <-. split; [|split; [cbn; apply own_app; [exact O|notdone]|cbn; eexists; reflexivity]].
    apply (GI_say hd _ _ (upd (waiting (log s)) t false)); [|reflexivity]. destruct I as [B1 B2 B3 B4 B5 B6 B7 B8 B9]. split; auto; cbn [c hs ps alive stt mark w_alive].
    + intros u WU. unfold upd in WU |- *. destruct (Nat.eqb_spec u t) as [EQ|N]; [discriminate|]. apply B5; exact WU.
    + intros j u J P X Y. unfold upd in *. destruct (Nat.eqb_spec u t) as [EQ|N]; [discriminate|]. apply (B6 j); auto.
    + intros u X Y V. unfold upd in *. destruct (Nat.eqb_spec u t) as [EQ|N]; [discriminate|]. apply B7; auto.
    + intros u X Y. unfold upd in X. destruct (Nat.eqb_spec u t) as [EQ|N]; [discriminate|]. apply B9; auto.
  - destruct (lp s) eqn:LP; try discriminate. injection E as <-. destruct (sweep_K hd (c s) _ s None I (Nat.le_refl _)) as [A B]. unfold GI. rewrite B. auto.
  - destruct (lp s) eqn:LP; try discriminate. destruct (i <? c s); [|discriminate]. injection E as <-. apply process_GI; auto.
  - destruct (lp s) eqn:LP; try discriminate. injection E as <-. split; [apply K_lp, I|auto].
  - destruct (lp s) eqn:LP; try discriminate. injection E as <-. split; [apply K_lp, I|auto].
  - destruct (lp s) as [|n [|i]|[|i]] eqn:LP; try discriminate.
    + injection E as <-. split; [apply K_lp, I|auto].
    + set (s1 := w_lp s (LTime n i)) in *. assert (I1 : GI hd s1) by (apply K_lp, I). destruct (get s1 i) as [t|] eqn:G.
      * destruct (n <? due s1 t); injection E as <-; [split; [exact I1|auto]|]. apply (process_GI hd s1); auto.
      * injection E as <-. destruct (remove_frame s1 i) as (_ & _ & _ & _ & GL). unfold GI. rewrite GL. split; [|auto]. destruct (le_lt_dec (c s1) i) as [L|L]; [rewrite remove_out by exact L; exact I1|].
        destruct (k_own _ _ _ I1 i L) as (t & P & H). apply (K_ext hd (upd (waiting (log s1)) t false)); [|apply (remove_K hd _ s1 i t I1 L P)]. intros u. unfold upd. destruct (Nat.eqb_spec u t) as [EQ|N]; [|reflexivity]. subst u. symmetry. destruct (waiting (log s1) t) eqn:WT; [|reflexivity]. destruct (k_in _ _ _ I1 t WT) as (X & _). rewrite (get_none _ _ _ G P) in X. discriminate.
    + injection E as <-. split; [apply K_lp, I|auto].
    + set (s1 := w_lp s (LFail i)) in *. assert (I1 : GI hd s1) by (apply K_lp, I). destruct r as [[| | |]|]; try discriminate; injection E as <-; try (apply (process_GI hd s1); assumption). split; [exact I1|auto].
Qed.
Lemma init_GI : forall hd, GI hd init.
Proof. intros hd. split; cbn; intros; try lia; try discriminate. Qed.

(** * What holds in every run *)
Record T (s : st) : Prop := MkT { t_due : forall t, due s t = deadline (log s) t; t_time : punctual (log s); t_c : c s <= kMax }.
Definition ext (s s' : st) : Prop := exists m, log s' = log s ++ m.
Lemma ext_refl : forall s s', log s' = log s -> ext s s'.
Proof. intros s s' E. exists []. rewrite E. symmetry. apply app_nil_r. Qed.
Lemma ext_trans : forall a b d, ext a b -> ext b d -> ext a d.
Proof. intros a b d [m M] [n N]. exists (m ++ n). rewrite N, M. symmetry. apply app_assoc. Qed.
Lemma deadline_app : forall l e t, deadline (l ++ [e]) t = match e with EAsk t' d => if t =? t' then d else deadline l t | _ => deadline l t end.
Proof. intros. unfold deadline. rewrite fold_left_app. reflexivity. Qed.
Lemma punctual_app : forall l e, punctual l -> (forall t h n, e = EDone t h (RTimeout n) -> deadline l t <= n) -> punctual (l ++ [e]).
Proof.
  intros l e O H a t h n b E. destruct b as [|x b] using rev_ind.
  - apply app_inj_tail in E. destruct E as [-> E]. apply (H t h n E).
  - rewrite app_comm_cons, app_assoc in E. apply app_inj_tail in E. destruct E as [E _]. apply (O a t h n b E).
Qed.
Lemma T_same : forall s s', due s' = due s -> log s' = log s -> c s' <= c s -> T s -> T s' /\ ext s s'.
Proof. intros s s' D L C [A B E]. split; [split; rewrite ?D, ?L; auto; lia|apply ext_refl; exact L]. Qed.
Lemma T_same1 : forall s s', T s -> due s' = due s -> log s' = log s -> c s' <= c s -> T s'.
Proof. intros s s' H A B C. apply (T_same s s'); auto. Qed.
Lemma T_say : forall s e, T s -> (forall t d, e <> EAsk t d) -> (forall t h n, e = EDone t h (RTimeout n) -> deadline (log s) t <= n) -> T (say s e) /\ ext s (say s e).
Proof.
  intros s e [A B C] N H. split; [|eexists; reflexivity]. split; cbn [due log c say]; [|apply punctual_app; auto|exact C].
  intros t. rewrite deadline_app, A. destruct e; try reflexivity. exfalso. eapply N. reflexivity.
Qed.
Lemma remove_T : forall s i, T s -> T (remove s i) /\ ext s (remove s i).
Proof. intros s i H. destruct (remove_frame s i) as (_ & _ & D & _ & L). apply T_same; auto. destruct (le_lt_dec (c s) i); [rewrite remove_out by assumption; lia|rewrite remove_c by assumption; lia]. Qed.
Ltac plain := intros; discriminate.
Lemma cancel_here_T : forall hd s t, T s -> T (cancel_here hd s t) /\ ext s (cancel_here hd s t).
Proof.
  intros hd s t H. unfold cancel_here. destruct (stt s t); [|split; [exact H|apply ext_refl; reflexivity]|split; [exact H|apply ext_refl; reflexivity]].
  set (s1 := w_stt s t Canceled). assert (X : T (w_mark s1 t MN) /\ ext s (w_mark s1 t MN)) by (apply T_same; auto). destruct X as [X1 X2].
  assert (Y : let s2 := match mark s1 t with MI => remove_found (w_mark s1 t MN) (find s1 (hd t)) | _ => w_mark s1 t MN end in T s2 /\ ext s s2).
  { destruct (mark s1 t); cbn; try (split; assumption). unfold remove_found. destruct (remove_T (w_mark s1 t MN) match find s1 (hd t) with Some i => i | None => kMax end X1) as [Y1 Y2]. split; [exact Y1|exact (ext_trans _ _ _ X2 Y2)]. }
  cbv zeta in Y. destruct Y as [Y1 Y2]. destruct (T_say _ (ECancel t) Y1) as [Z1 Z2]; [plain|plain|]. split; [exact Z1|exact (ext_trans _ _ _ Y2 Z2)].
Qed.
Lemma set_wait_T : forall hd s t d, T s -> T (set_wait hd s t d) /\ ext s (set_wait hd s t d).
Proof.
  intros hd s t d H. assert (R : T s /\ ext s s) by (split; [exact H|apply ext_refl; reflexivity]). unfold set_wait. destruct (hd t =? 0); [exact R|]. destruct (stt s t); [|exact R|].
  all: set (s1 := say (w_due s t d) (EAsk t d)); assert (E1 : ext s s1) by (eexists; reflexivity); assert (H1 : T s1) by (destruct H as [A B C]; unfold s1; split; cbn [due log c say w_due]; [intros u; rewrite deadline_app; unfold upd; destruct (u =? t); auto|apply punctual_app; [exact B|plain]|exact C]).
  all: assert (FIN : forall s2 e, T s2 -> ext s1 s2 -> (forall t d, e <> EAsk t d) -> (forall t h r, e <> EDone t h r) -> T (say s2 e) /\ ext s (say s2 e)) by (intros s2 e X Y N1 N2; destruct (T_say s2 e X N1) as [Z1 Z2]; [intros t' h' n' Q; exfalso; exact (N2 _ _ _ Q)|]; split; [exact Z1|exact (ext_trans _ _ _ (ext_trans _ _ _ E1 Y) Z2)]).
  all: destruct (find s1 (hd t)) as [i|]; [|destruct (kMax <=? c s1) eqn:Q; [apply FIN; [apply (T_same1 s1); auto|apply ext_refl; reflexivity|plain|plain]|]].
  all: try (apply Nat.leb_gt in Q; apply FIN; [destruct H1 as [A B C]; split; cbn [due log c w_arr w_mark]; auto; lia|apply ext_refl; reflexivity|plain|plain]).
  all: destruct (get (w_mark s1 t MI) i) as [o|]; [destruct (o =? t)|]; apply FIN; try plain; try (apply (T_same1 s1); auto; reflexivity); try (apply ext_refl; reflexivity).
  all: assert (X : T (w_mark s1 t MI) /\ ext s1 (w_mark s1 t MI)) by (apply T_same; auto); destruct X as [X1 X2]; destruct (cancel_here_T hd (w_mark s1 t MI) o X1) as [Y1 Y2]; first [apply (T_same1 (cancel_here hd (w_mark s1 t MI) o)); [exact Y1|reflexivity|reflexivity|reflexivity] | destruct X2 as [m M], Y2 as [m' M']; exists (m ++ m'); cbn [log w_arr]; rewrite M', M; symmetry; apply app_assoc].
Qed.
Lemma process_T : forall s i r, T s -> (forall t n, r = RTimeout n -> get s i = Some t -> due s t <= n) -> T (process s i r) /\ ext s (process s i r).
Proof.
  intros s i r H N. unfold process. destruct (c s <=? i); [split; [exact H|apply ext_refl; reflexivity]|]. destruct (remove_T s i H) as [R1 R2]. destruct (get s i) as [t|] eqn:G; [|auto]. destruct (stt (remove s i) t); auto.
  destruct (T_same (remove s i) (w_stt (remove s i) t Completed) eq_refl eq_refl (le_n _) R1) as [A B]. destruct (remove_frame s i) as (_ & _ & D & _ & L).
  destruct (T_say _ (EDone t (hs s i) r) A) as [X1 X2]; [plain|intros t' h' n Q; injection Q as <- <- ->|].
  - cbn [log w_stt]. rewrite L, <- (t_due _ H). apply N; auto.
  - split; [exact X1|exact (ext_trans _ _ _ (ext_trans _ _ _ R2 B) X2)].
Qed.
Lemma sweep_T : forall n s m, T s -> T (fst (sweep s n m)) /\ ext s (fst (sweep s n m)).
Proof.
  induction n as [|i IH]; intros s m H; cbn [sweep]; [split; [exact H|apply ext_refl; reflexivity]|]. assert (R : T (fst (sweep (remove s i) i m)) /\ ext s (fst (sweep (remove s i) i m))).
  { destruct (remove_T s i H) as [A B]. destruct (IH (remove s i) m A) as [C D]. split; [exact C|exact (ext_trans _ _ _ B D)]. }
  destruct (get s i) as [t|]; [|exact R]. destruct (stt s t); [apply IH; exact H|exact R|apply IH; exact H].
Qed.
Lemma exec_T : forall hd s a s', T s -> exec hd s a = Some s' -> T s' /\ ext s s'.
Proof.
  intros hd s a s' H E. destruct a as [t d|t d|t|t|t| |i b|n| |r]; cbn [exec] in E.
  - destruct (stt s t), (mark s t), (alive s t); try discriminate. injection E as <-. apply set_wait_T, H.
  - destruct (stt s t), (alive s t); try discriminate. injection E as <-. destruct (T_same s (w_stt s t Started) eq_refl eq_refl (le_n _) H) as [A B]. destruct (set_wait_T hd _ t d A) as [C D]. split; [exact C|exact (ext_trans _ _ _ B D)].
  - destruct (alive s t); [|discriminate]. injection E as <-. apply cancel_here_T, H.
  - destruct (alive s t); [|discriminate]. injection E as <-. unfold cancel_there. destruct (stt s t); [|split; [exact H|apply ext_refl; reflexivity]|split; [exact H|apply ext_refl; reflexivity]].
    apply (T_say (w_mark (w_stt s t Canceled) t MN)); [apply (T_same1 s); auto|plain|plain].
  - destruct (alive s t); [|discriminate]. injection E as <-. apply (T_say (w_alive s t false)); [apply (T_same1 s); auto|plain|plain].
  - destruct (lp s); try discriminate. injection E as <-. apply sweep_T, H.
  - destruct (lp s); try discriminate. destruct (i <? c s); [|discriminate]. injection E as <-. apply process_T; [exact H|]. intros t n X. destruct b; discriminate X.
  - destruct (lp s); try discriminate. injection E as <-. apply T_same; auto.
  - destruct (lp s); try discriminate. injection E as <-. apply T_same; auto.
  - destruct (lp s) as [|n [|i]|[|i]]; try discriminate; try (injection E as <-; apply T_same; auto; reflexivity).
    + set (s1 := w_lp s (LTime n i)) in *. assert (H1 : T s1) by (apply (T_same1 s); auto). destruct (get s1 i) as [t|] eqn:G; [|injection E as <-; exact (remove_T s1 i H1)].
      destruct (n <? due s1 t) eqn:Q; injection E as <-; [apply T_same; auto|]. apply Nat.ltb_ge in Q. apply (process_T s1); [exact H1|]. intros t' n' X Y. injection X as <-. replace t' with t by congruence. exact Q.
    + set (s1 := w_lp s (LFail i)) in *. assert (H1 : T s1) by (apply (T_same1 s); auto). destruct r as [[| | |]|]; try discriminate; injection E as <-; try (apply (process_T s1); [exact H1|intros ? ? X; discriminate X]). apply T_same; auto.
Qed.
Lemma run_T : forall hd l s s', T s -> run hd s l = Some s' -> T s' /\ ext s s'.
Proof.
  induction l as [|a l IH]; intros s s' H R; cbn in R; [injection R as <-; split; [exact H|apply ext_refl; reflexivity]|]. destruct (exec hd s a) as [s1|] eqn:E; [|discriminate]. destruct (exec_T _ _ _ _ H E) as [A B]. destruct (IH _ _ A R) as [C D]. split; [exact C|exact (ext_trans _ _ _ B D)].
Qed.
Lemma init_T : T init.
Proof. split; cbn; [reflexivity|intros a t h n b E; destruct a; discriminate|lia]. Qed.
Lemma run_GI : forall hd l s s', T s -> GI hd s -> own hd (log s) -> run hd s l = Some s' -> single hd (log s') -> GI hd s' /\ own hd (log s').
Proof.
  induction l as [|a l IH]; intros s s' H I O R SG; cbn in R; [injection R as <-; auto|]. destruct (exec hd s a) as [s1|] eqn:E; [|discriminate]. destruct (exec_T _ _ _ _ H E) as [A _]. destruct (run_T hd l s1 s' A R) as [_ [m M]].
  assert (SG1 : single hd (log s1)) by (rewrite M in SG; exact (single_pre _ _ _ SG)). destruct (exec_GI _ _ _ _ I O E SG1) as (I1 & O1 & _). apply (IH s1); auto.
Qed.
Lemma reach : forall hd l s, run hd init l = Some s -> single hd (log s) -> GI hd s /\ own hd (log s).
Proof. intros hd l s R SG. apply (run_GI hd l init s init_T (init_GI hd)); auto. intros a t h r b E. destruct a; discriminate. Qed.

(** * Theorems *)
(** Full statement (C58): every completion is due to the wait's own handle ([own]), and a pending wait stays in
    the set of handles the thread waits on, whatever happens to other waits.  It is false
    ([C58_refuted], [C58_lost_refuted]); it is true as long as nobody waits for a handle somebody is already waiting for. *)
Theorem C58_partial : forall hd l s, run hd init l = Some s -> single hd (log s) -> own hd (log s).
Proof. intros hd l s R SG. apply (reach hd l s R SG). Qed.
Theorem C58_kept_partial : forall hd l s t, run hd init l = Some s -> single hd (log s) -> waiting (log s) t = true ->
  exists i, i < c s /\ hs s i = hd t /\ ps s i = Some t /\ (forall j, j < c s -> hs s j = hd t -> j = i) /\
    (lp s = LNone -> forall b, exists s', exec hd s (Signal i b) = Some s' /\ log s' = log s ++ [EDone t (hd t) (if b then RAbandoned else RObject)]).
Proof.
  intros hd l s t R SG W. destruct (reach hd l s R SG) as [I _]. destruct (k_in _ _ _ I t W) as (A & B & C & i & L & P). destruct (k_own _ _ _ I i L) as (u & U1 & U2). assert (u = t) by congruence. subst u.
  exists i. split; [exact L|]. split; [exact U2|]. split; [exact P|]. split; [intros j J E; apply (k_inj _ _ _ I); congruence|]. intros N b. cbn [exec]. rewrite N. pose proof L as L'. apply Nat.ltb_lt in L'. rewrite L'. eexists. split; [reflexivity|].
  destruct (process_K hd _ s i (if b then RAbandoned else RObject) I L) as (v & V1 & [(_ & s' & E & G & _)|(X & _)]); [|congruence]. rewrite E. cbn [log say]. rewrite G. congruence.
Qed.
(** In every run a wait expires at its deadline at the earliest, and the arrays are not overrun. *)
Theorem C58_punctual : forall hd l s, run hd init l = Some s -> punctual (log s).
Proof. intros hd l s R. destruct (run_T hd l init s init_T R) as [H _]. apply (t_time _ H). Qed.
Theorem C58_bounds : forall hd l s, run hd init l = Some s -> c s <= 63.
Proof. intros hd l s R. destruct (run_T hd l init s init_T R) as [H _]. apply (t_c _ H). Qed.
(** The thread does not sleep past the earliest deadline. *)
Lemma omin_le : forall m b, exists x, omin m b = Some x /\ x <= b /\ (forall y, m = Some y -> x <= y).
Proof. intros [a|] b; cbn; eexists; (split; [reflexivity|]); split; try lia; intros y E; try discriminate. injection E as <-. lia. Qed.
Lemma sweep_min : forall n s m y, m = Some y -> exists x, snd (sweep s n m) = Some x /\ x <= y.
Proof.
  induction n as [|i IH]; intros s m y E; cbn [sweep]; [exists y; split; [exact E|lia]|]. destruct (get s i) as [t|]; [destruct (stt s t)|]; try (apply (IH _ m y E)).
  all: destruct (omin_le m (due s t)) as (x & X1 & X2 & X3); destruct (IH s _ x X1) as (z & Z1 & Z2); exists z; split; [exact Z1|specialize (X3 y E); lia].
Qed.
Lemma sweep_low : forall hd n W s m, K hd W s -> n <= c s -> forall i t, i < n -> ps s i = Some t -> W t = true -> exists x, snd (sweep s n m) = Some x /\ x <= due s t.
Proof.
  induction n as [|k IH]; intros W s m I L i t Hi P WT; [lia|]. cbn [sweep]. destruct (k_in _ _ _ I t WT) as (A & B & C & _). destruct (Nat.eq_dec i k) as [->|N].
  - unfold get. rewrite P, A, B. destruct (omin_le m (due s t)) as (x & X1 & X2 & _). destruct (sweep_min k s _ x X1) as (z & Z1 & Z2). exists z. split; [exact Z1|lia].
  - destruct (k_own _ _ _ I k L) as (u & U1 & U2). assert (REM : W u = false -> exists x, snd (sweep (remove s k) k m) = Some x /\ x <= due s t).
    { intros WU. assert (i < k) by lia. destruct (remove_slot s k i L) as [_ PP]; [lia|]. apply Nat.eqb_neq in N. rewrite N in PP. destruct (remove_frame s k) as (_ & _ & D & _). rewrite <- D. apply (IH W (remove s k) m) with (i := i); auto; [|rewrite remove_c by exact L; lia|congruence].
      apply (K_ext hd (upd W u false)); [intros v; unfold upd; destruct (Nat.eqb_spec v u); congruence|apply (remove_K hd W s k u I L U1)]. }
    unfold get. rewrite U1. destruct (alive s u) eqn:AU; [destruct (stt s u) eqn:SU|].
    + apply (IH W s _ I) with (i := i); auto; lia.
    + apply REM. destruct (W u) eqn:WU; [destruct (k_in _ _ _ I u WU) as (_ & X & _); congruence|reflexivity].
    + apply (IH W s _ I) with (i := i); auto; lia.
    + apply REM. destruct (W u) eqn:WU; [destruct (k_in _ _ _ I u WU) as (X & _); congruence|reflexivity].
Qed.
Theorem C58_minimum_partial : forall hd l s t, run hd init l = Some s -> single hd (log s) -> waiting (log s) t = true ->
  exists x, snd (sweep s (c s) None) = Some x /\ x <= deadline (log s) t.
Proof.
  intros hd l s t R SG W. destruct (reach hd l s R SG) as [I _]. destruct (run_T hd l init s init_T R) as [H _]. rewrite <- (t_due _ H). destruct (k_in _ _ _ I t W) as (_ & _ & _ & i & L & P). apply (sweep_low hd (c s) _ s None I (Nat.le_refl _) i); auto.
Qed.
(** When the wait of the thread times out, every wait whose deadline has come is completed, and no other. *)
Lemma single_more : forall hd l e, single hd l -> (forall t d, e <> EAsk t d) -> single hd (l ++ [e]).
Proof.
  intros hd l e S N a t d b E. destruct b as [|x b] using rev_ind.
  - apply app_inj_tail in E. destruct E as [_ E]. exfalso. exact (N _ _ E).
  - rewrite app_comm_cons, app_assoc in E. apply app_inj_tail in E. destruct E as [E _]. apply (S a t d b E).
Qed.
Lemma time_loop : forall hd n i s, GI hd s -> lp s = LTime n i -> (forall j t, i <= j < c s -> ps s j = Some t -> waiting (log s) t = true -> n < due s t) ->
  exists s', run hd s (repeat (Iter None) (S i)) = Some s' /\ lp s' = LNone /\ due s' = due s /\ (forall t, waiting (log s') t = true <-> waiting (log s) t = true /\ n < due s t).
Proof.
  intros hd n i. induction i as [|i IH]; intros s I LP HI.
  - exists (w_lp s LNone). cbn [repeat run exec]. rewrite LP. split; [reflexivity|]. split; [reflexivity|]. split; [reflexivity|]. intros t. cbn [log w_lp]. split; [|tauto]. intros W. split; [exact W|]. destruct (k_in _ _ _ I t W) as (_ & _ & _ & j & L & P). apply (HI j t); auto. lia.
  - cbn [repeat]. set (rest := Iter None :: repeat (Iter None) i). change (run hd s (Iter None :: rest)) with (match exec hd s (Iter None) with Some s' => run hd s' rest | None => None end). cbn [exec]. rewrite LP. set (s1 := w_lp s (LTime n i)).
    assert (I1 : GI hd s1) by (apply K_lp, I). assert (KEEP : (forall t, ps s1 i = Some t -> i < c s1 -> waiting (log s1) t = true -> n < due s1 t) -> exists s', run hd s1 rest = Some s' /\ lp s' = LNone /\ due s' = due s /\ (forall t, waiting (log s') t = true <-> waiting (log s) t = true /\ n < due s t)).
    { intros X. apply (IH s1 I1 eq_refl). intros j t J P W. destruct (Nat.eq_dec j i) as [->|N]; [apply X; auto; lia|]. apply (HI j t); auto. cbn in J. lia. }
    assert (REM : forall s2, c s2 = c (remove s1 i) -> hs s2 = hs (remove s1 i) -> ps s2 = ps (remove s1 i) -> due s2 = due s1 -> lp s2 = LTime n i -> GI hd s2 -> (forall t, waiting (log s2) t = true <-> waiting (log s1) t = true /\ (i < c s1 -> ps s1 i <> Some t)) -> (forall t, i < c s1 -> ps s1 i = Some t -> waiting (log s1) t = true -> due s1 t <= n) ->
      exists s', run hd s2 rest = Some s' /\ lp s' = LNone /\ due s' = due s /\ (forall t, waiting (log s') t = true <-> waiting (log s) t = true /\ n < due s t)).
    { intros s2 C2 H2 P2 D2 L2 I2 W2 DD. destruct (IH s2 I2 L2) as (s' & R & A & B & CC).
      - intros j t J P W. rewrite D2. apply W2 in W. destruct W as [W _]. destruct (le_lt_dec (c s1) i) as [Q|Q]; [rewrite C2, remove_out in J by exact Q; lia|]. rewrite C2, remove_c in J by exact Q. rewrite P2 in P. destruct (remove_slot s1 i j Q) as [_ PS]; [lia|]. rewrite PS in P. destruct (Nat.eqb_spec j i) as [->|N].
        + apply (HI (c s1 - 1) t); auto. change (c s1) with (c s) in *. lia.
        + apply (HI j t); auto. change (c s1) with (c s) in *. lia.
      - exists s'. split; [exact R|]. split; [exact A|]. split; [rewrite B, D2; reflexivity|]. intros t. rewrite CC, W2, D2. change (log s1) with (log s). change (due s1) with (due s). split; [tauto|]. intros [X Y]. split; [split; [exact X|]|exact Y]. intros Q E. specialize (DD t Q E X). change (due s1) with (due s) in DD. lia. }
    destruct (get s1 i) as [t|] eqn:G.
    + destruct (n <? due s1 t) eqn:Q.
      * apply Nat.ltb_lt in Q. apply KEEP. intros t' P _ _. apply get_some in G. destruct G as [G _]. replace t' with t by congruence. exact Q.
      * apply Nat.ltb_ge in Q. apply get_some in G. destruct G as [G AL]. destruct (le_lt_dec (c s1) i) as [L|L].
        { unfold process. pose proof L as L'. apply Nat.leb_le in L'. rewrite L'. apply KEEP. intros t' _ X. lia. }
        destruct (process_K hd _ s1 i (RTimeout n) I1 L) as (u & U & [(WT & s2 & E & LG & I2)|(WT & E & I2)]); assert (u = t) by congruence; subst u; rewrite E.
        -- assert (F : c s2 = c (remove s1 i) /\ hs s2 = hs (remove s1 i) /\ ps s2 = ps (remove s1 i) /\ due s2 = due s1 /\ lp s2 = LTime n i).
           { unfold process in E. pose proof L as L'. apply Nat.leb_gt in L'. rewrite L' in E. unfold get in E. rewrite U, AL in E. destruct (remove_frame s1 i) as (_ & FS & FD & FP & FL). rewrite FS in E. destruct (k_in _ _ _ I1 t WT) as (_ & ST & _). rewrite ST in E.
             assert (X1 : c s2 = c (say s2 (EDone t (hd t) (RTimeout n)))) by reflexivity. assert (X2 : hs s2 = hs (say s2 (EDone t (hd t) (RTimeout n)))) by reflexivity. assert (X3 : ps s2 = ps (say s2 (EDone t (hd t) (RTimeout n)))) by reflexivity. assert (X4 : due s2 = due (say s2 (EDone t (hd t) (RTimeout n)))) by reflexivity. assert (X5 : lp s2 = lp (say s2 (EDone t (hd t) (RTimeout n)))) by reflexivity.
             rewrite X1, X2, X3, X4, X5, <- E. cbn [c hs ps due lp say w_stt]. rewrite FD, FP. auto. }
           destruct F as (F1 & F2 & F3 & F4 & F5). apply REM; auto.
           ++ apply (GI_say hd s2 _ (upd (waiting (log s1)) t false)); [exact I2|]. intros v. rewrite LG. reflexivity.
           ++ intros v. cbn [log say]. rewrite waiting_app, LG. cbn [wstep]. destruct (Nat.eqb_spec v t) as [->|N]; [split; [discriminate|intros [_ X]; exfalso; exact (X L U)]|]. split; [intros X; split; [exact X|intros _ P; congruence]|tauto].
           ++ intros v _ P _. replace v with t by congruence. exact Q.
        -- destruct (remove_frame s1 i) as (_ & _ & FD & FP & FL). apply REM; auto; [unfold GI; rewrite FL; exact I2| |].
           ++ intros v. rewrite FL. split; [|tauto]. intros X. split; [exact X|]. intros _ P. assert (v = t) by congruence. subst v. congruence.
           ++ intros v _ P W. exfalso. assert (v = t) by congruence. subst v. congruence.
    + destruct (remove_frame s1 i) as (_ & _ & FD & FP & FL). destruct (le_lt_dec (c s1) i) as [L|L].
      * rewrite remove_out by exact L. apply KEEP. intros t _ X. lia.
      * destruct (k_own _ _ _ I1 i L) as (u & U & _). assert (WU : waiting (log s1) u = false) by (destruct (waiting (log s1) u) eqn:X; [destruct (k_in _ _ _ I1 u X) as (Y & _); rewrite (get_none _ _ _ G U) in Y; discriminate|reflexivity]).
        apply REM; auto.
        -- unfold GI. rewrite FL. apply (K_ext hd (upd (waiting (log s1)) u false)); [intros v; unfold upd; destruct (Nat.eqb_spec v u); congruence|apply (remove_K hd _ s1 i u I1 L U)].
        -- intros v. rewrite FL. split; [|tauto]. intros X. split; [exact X|]. intros _ P. assert (v = u) by congruence. subst v. congruence.
        -- intros v _ P W. exfalso. assert (v = u) by congruence. subst v. congruence.
Qed.
Theorem C58_expired_partial : forall hd l s n, run hd init l = Some s -> single hd (log s) -> lp s = LNone ->
  exists s', run hd s (Expire n :: repeat (Iter None) (S (c s))) = Some s' /\ lp s' = LNone /\
    forall t, waiting (log s') t = true <-> waiting (log s) t = true /\ n < deadline (log s) t.
Proof.
  intros hd l s n R SG LN. destruct (reach hd l s R SG) as [I _]. destruct (run_T hd l init s init_T R) as [H _]. set (rest := repeat (Iter None) (S (c s))). cbn [run exec]. rewrite LN.
  destruct (time_loop hd n (c s) (w_lp s (LTime n (c s)))) as (s' & A & B & C & D); [apply K_lp, I|reflexivity|cbn; intros; lia|]. exists s'. split; [exact A|]. split; [exact B|]. intros t. rewrite D, <- (t_due _ H). reflexivity.
Qed.

(** * Refutations *)
Definition hd3 (t : nat) : nat := match t with 2 => 8 | _ => 7 end.
(** Waits 1 and 3 share handle 7, wait 2 has handle 8.  Setting wait 3 cancels wait 1, which moves wait 2 into its
    slot, and then overwrites that slot (lines 112-127): wait 2 is lost and wait 3 is completed by handle 8. *)
Theorem C58_refuted : exists l s, run hd3 init l = Some s /\ c s = 1 /\ ps s 0 = Some 3 /\ hs s 0 = 8 /\ waiting (log s) 2 = true /\
  match exec hd3 s (Signal 0 false) with Some s' => last (log s') (EDrop 0) = EDone 3 8 RObject | None => False end.
Proof. exists [SetW 1 100; SetW 2 100; SetW 3 100]. eexists. split; [vm_compute; reflexivity|]. repeat split. Qed.
(** With one wait only, the new wait is accepted but the thread waits for nothing. *)
Theorem C58_lost_refuted : exists l s, run hd3 init l = Some s /\ c s = 0 /\ waiting (log s) 3 = true.
Proof. exists [SetW 1 100; SetW 3 100]. eexists. split; [vm_compute; reflexivity|]. repeat split. Qed.

(** * Concrete cases *)
Definition plain (t : nat) : nat := t.
Example C58_case : match run plain init [SetW 1 100; SetW 2 50; SetW 3 200; CancelHere 1; Signal 0 false; Rearm 3 60; CancelThere 2; Sweep; Expire 70; Iter None; Iter None] with
  | Some s => c s = 0 /\ log s = [EAsk 1 100; ESet 1; EAsk 2 50; ESet 2; EAsk 3 200; ESet 3; ECancel 1; EDone 3 3 RObject; EAsk 3 60; ESet 3; ECancel 2; EDone 3 3 (RTimeout 70)] | None => False end.
Proof. vm_compute. split; reflexivity. Qed.
Lemma plain_single : forall l, single plain l.
Proof. intros l a t d b _ t' N H. exfalso. exact (N H). Qed.
Example C58_case_due : match run plain init [SetW 1 100; SetW 2 50; SetW 3 200; Expire 120; Iter None; Iter None; Iter None; Iter None] with
  | Some s => c s = 1 /\ ps s 0 = Some 3 /\ lp s = LNone /\ snd (sweep s (c s) None) = Some 200 | None => False end.
Proof. vm_compute. repeat split. Qed.
(** Waits on the same handle one after the other are fine. *)
Example C58_case_reuse : match run hd3 init [SetW 1 100; SetW 2 100; CancelThere 1; SetW 3 100; Signal 0 false] with
  | Some s => last (log s) (EDrop 0) = EDone 3 7 RObject /\ waiting (log s) 2 = true /\ ps s 0 = Some 2 | None => False end.
Proof. vm_compute. repeat split. Qed.
Print Assumptions C58_partial.
Print Assumptions C58_kept_partial.
Print Assumptions C58_punctual.
Print Assumptions C58_bounds.
Print Assumptions C58_minimum_partial.
Print Assumptions C58_expired_partial.
Print Assumptions C58_refuted.
Print Assumptions C58_lost_refuted.
