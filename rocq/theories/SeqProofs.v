(** Specification and invariant for the sequenced task runner (C59, C60, C81, C82). *)
From Coq Require Import List ZArith Bool Arith Lia.
From Verif Require Import Slots SlotsProofs Threads SeqModel.
Import ListNotations.

(** * Specification *)
(** Tasks accepted, and tasks taken from the queue (to run or to be cancelled), in order. *)
Definition accs (l : list event) : list nat := flat_map (fun e => match e with EAcc t => [t] | _ => [] end) l.
Definition takes (l : list event) : list nat := flat_map (fun e => match e with EStart t | ECan t => [t] | _ => [] end) l.
Definition ends (l : list event) : list nat := flat_map (fun e => match e with EEnd t => [t] | _ => [] end) l.
Definition starts (l : list event) : list nat := flat_map (fun e => match e with EStart t => [t] | _ => [] end) l.
(** Tasks run one at a time: [cur] is the one running; None: two overlap. *)
Fixpoint serial (cur : option nat) (l : list event) : option (option nat) :=
  match l with
  | [] => Some cur
  | EStart t :: r => match cur with None => serial (Some t) r | Some _ => None end
  | EEnd t :: r => match cur with Some t' => if Nat.eqb t t' then serial None r else None | None => None end
  | _ :: r => serial cur r
  end.
(** A thread is in a call of PostTask; a worker runs or is scheduled; threads in Pop. *)
Definition posting (s : st) : Prop := exists i t f b k, nth_error (ag s) i = Some k /\ (In (P1 t) k \/ In (P3 t f) k \/ In (P4 t b) k \/ In (P5 b) k \/ In (P6 b) k \/ In P7 k).
Definition working (s : st) : Prop := exists i t f k, nth_error (ag s) i = Some (f :: k) /\ In f [W0; W1; W2; W3; W4 t; W5].
Definition popping (s : st) (i : nat) : Prop := exists f k, nth_error (ag s) i = Some (f :: k) /\ (f = W3 \/ f = C1).
(** Interrupt was not called, the thread pool did not fail, no worker found the queue empty. *)
Definition calm (l : list event) : Prop := ~ In EInt l /\ ~ In EFail l /\ ~ In ENull l /\ ~ In EFull l.

(** * Proofs *)
Definition b1 (b : bool) : nat := if b then 1 else 0.
Definition tok (f : frame) : nat := match f with P4 _ b | P5 b | P6 b => b1 b | W0 | W1 | W2 | W3 | W4 _ | W5 => 1 | _ => 0 end.
Definition p4 (f : frame) : nat := match f with P4 _ _ => 1 | _ => 0 end.
Definition p45 (f : frame) : nat := match f with P4 _ _ | P5 _ => 1 | _ => 0 end.
Definition w45 (f : frame) : nat := match f with W4 _ | W5 => 1 | _ => 0 end.
Definition cf (f : frame) : nat := match f with C0 | C1 | C2 | DT => 1 | _ => 0 end.
Definition t3 (f : frame) : nat := match f with T3 => 1 | _ => 0 end.
Definition uf (f : frame) : nat := match f with P1 _ | P3 _ _ | P4 _ _ | P5 _ | P6 _ | P7 | J0 | J1 => 1 | _ => 0 end.
Definition p4t (f : frame) : list nat := match f with P4 t _ => [t] | _ => [] end.
Definition w4t (f : frame) : list nat := match f with W4 t => [t] | _ => [] end.
Definition ct (w : frame -> nat) (s : st) : nat := suml (suml w) (ag s).
Definition pend (s : st) : list nat := flat_map (flat_map p4t) (ag s).
Definition runs (s : st) : list nat := flat_map (flat_map w4t) (ag s).
Arguments ct : simpl never.
Arguments pend : simpl never.
Arguments runs : simpl never.
Arguments accs : simpl never.
Arguments takes : simpl never.
Definition shape (k : list frame) : Prop :=
  match k with
  | [] | [TR] | [DT] => True
  | [f] => ext f = true
  | [f; TR] => match f with W0 | W1 | W2 | W3 | W4 _ | W5 | T0 | T1 | T2 | T3 | C0 | C1 | C2 => True | _ => False end
  | [f; DT] => match f with C0 | C1 | C2 => True | _ => False end
  | _ => False
  end.
Definition fok (f : frame) : Prop := match f with P3 _ f => lk f = false /\ sp f = false | _ => True end.
Definition olist (o : option nat) : list nat := match o with Some t => [t] | None => [] end.
Record Inv (s : st) : Prop := {
  v_sh : forall i k, nth_error (ag s) i = Some k -> shape k;
  v_f : forall i k f, nth_error (ag s) i = Some k -> In f k -> fok f;
  v_cn : (0 <= cn (fl s) < CW)%Z;
  v_is : it (fl s) = true -> sp (fl s) = true;
  v_uf : 0 < ct uf s -> usr s = true;
  v_cf : 0 < ct cf s -> usr s = false \/ sp (fl s) = true;
  v_t3 : 0 < ct t3 s -> sp (fl s) = true;
  v_lk : ct p45 s <= 1 /\ (usr s = true -> sp (fl s) = false -> ct p45 s = b1 (lk (fl s)));
  v_or : accs (log s) = takes (log s) ++ q s ++ pend s;
  v_ct : usr s = true -> sp (fl s) = false -> ~ In EFull (log s) -> cn (fl s) = Z.of_nat (length (q s) + ct p4 s + ct w45 s);
  v_tk : ~ In EFull (log s) -> ct tok s <= 1 /\ (usr s = true -> sp (fl s) = false -> cn (fl s) = 0%Z -> ct tok s = 0);
  v_se : ~ In EFull (log s) -> exists c, serial None (log s) = Some c /\ runs s = olist c }.

Lemma suml_app : forall T (f : T -> nat) a b, suml f (a ++ b) = suml f a + suml f b.
Proof. induction a as [|x a IH]; intros b; cbn; [reflexivity|]. rewrite IH. lia. Qed.
Lemma flat_split : forall T U (g : T -> list U) l i k, nth_error l i = Some k -> exists a b, flat_map g l = a ++ g k ++ b /\ (forall k', flat_map g (set l i k') = a ++ g k' ++ b) /\ (forall w : T -> nat, (forall x, length (g x) <= w x) -> length a + length b + w k <= suml w l).
Proof.
  intros T U g. induction l as [|x l IH]; intros [|i] k N; cbn in N; try discriminate.
  - injection N as ->. exists [], (flat_map g l). split; [reflexivity|]. split; [reflexivity|]. intros w H. cbn.
    assert (Q : length (flat_map g l) <= suml w l) by (clear -H; induction l as [|y l IH]; cbn; [lia|]; rewrite app_length; specialize (H y); lia). lia.
  - destruct (IH _ _ N) as (a & b & E1 & E2 & E3). exists (g x ++ a), b. cbn. rewrite E1, <- app_assoc. split; [reflexivity|]. split; [intros k'; rewrite E2, <- app_assoc; reflexivity|]. intros w H. specialize (E3 w H). rewrite app_length. specialize (H x). lia.
Qed.
Lemma flat_len : forall (g : frame -> list nat) (w : frame -> nat), (forall f, length (g f) <= w f) -> forall k, length (flat_map g k) <= suml w k.
Proof. intros g w H. induction k as [|f k IH]; cbn; [lia|]. rewrite app_length. specialize (H f). lia. Qed.
Lemma p4t_len : forall f, length (p4t f) <= p45 f.
Proof. destruct f; cbn; lia. Qed.
Lemma w4t_len : forall f, length (w4t f) <= tok f.
Proof. destruct f; cbn; lia. Qed.
Lemma serial_app : forall a b c, serial c (a ++ b) = match serial c a with Some c' => serial c' b | None => None end.
Proof. induction a as [|e a IH]; intros b c; cbn; [reflexivity|]. destruct e; try apply IH; destruct c; try reflexivity; try apply IH. destruct (Nat.eqb t n); [apply IH|reflexivity]. Qed.
Definition moved (s s' : st) (kk kk' : list frame) (new : list (list frame)) : Prop := forall w, ct w s' + suml w kk = ct w s + suml w kk' + suml (suml w) new.
Lemma moved_ok : forall s s' i kk kk' new, nth_error (ag s) i = Some kk -> ag s' = set (ag s) i kk' ++ new -> moved s s' kk kk' new.
Proof. intros s s' i kk kk' new N E w. unfold ct. rewrite E, suml_app. pose proof (suml_set _ (suml w) _ _ _ kk' N). lia. Qed.
Lemma pend_same : forall s s' i kk kk' new, nth_error (ag s) i = Some kk -> ag s' = set (ag s) i kk' ++ new -> flat_map p4t kk' = flat_map p4t kk -> flat_map (flat_map p4t) new = [] -> pend s' = pend s.
Proof. intros s s' i kk kk' new N E H0 H1. unfold pend. rewrite E, flat_map_app, H1, app_nil_r. destruct (flat_split _ _ (flat_map p4t) _ _ _ N) as (a & b & -> & -> & _). rewrite H0. reflexivity. Qed.
Lemma runs_same : forall s s' i kk kk' new, nth_error (ag s) i = Some kk -> ag s' = set (ag s) i kk' ++ new -> flat_map w4t kk' = flat_map w4t kk -> flat_map (flat_map w4t) new = [] -> runs s' = runs s.
Proof. intros s s' i kk kk' new N E H0 H1. unfold runs. rewrite E, flat_map_app, H1, app_nil_r. destruct (flat_split _ _ (flat_map w4t) _ _ _ N) as (a & b & -> & -> & _). rewrite H0. reflexivity. Qed.
Lemma pend_only : forall s i kk, ct p45 s <= suml p45 kk -> nth_error (ag s) i = Some kk -> pend s = flat_map p4t kk /\ forall s' kk', ag s' = set (ag s) i kk' -> pend s' = flat_map p4t kk'.
Proof.
  intros s i kk H N. destruct (flat_split _ _ (flat_map p4t) _ _ _ N) as (a & b & E1 & E2 & E3). specialize (E3 (suml p45) (flat_len _ _ p4t_len)). unfold ct in H. destruct a; [|cbn in E3; lia]. destruct b; [|cbn in E3; lia].
  unfold pend. rewrite E1, app_nil_r. split; [reflexivity|]. intros s' kk' ->. rewrite E2. cbn. apply app_nil_r.
Qed.
Lemma runs_only : forall s i kk, ct tok s <= suml tok kk -> nth_error (ag s) i = Some kk -> runs s = flat_map w4t kk /\ forall s' kk', ag s' = set (ag s) i kk' -> runs s' = flat_map w4t kk'.
Proof.
  intros s i kk H N. destruct (flat_split _ _ (flat_map w4t) _ _ _ N) as (a & b & E1 & E2 & E3). specialize (E3 (suml tok) (flat_len _ _ w4t_len)). unfold ct in H. destruct a; [|cbn in E3; lia]. destruct b; [|cbn in E3; lia].
  unfold runs. rewrite E1, app_nil_r. split; [reflexivity|]. intros s' kk' ->. rewrite E2. cbn. apply app_nil_r.
Qed.
Lemma Inv_put : forall s s' i kk kk' new, Inv s -> nth_error (ag s) i = Some kk -> ag s' = set (ag s) i kk' ++ new -> new = [] \/ new = [[W0; TR]] ->
  shape kk' -> (forall f, In f kk' -> fok f) -> (0 <= cn (fl s') < CW)%Z -> (it (fl s') = true -> sp (fl s') = true) ->
  (moved s s' kk kk' new -> 0 < ct uf s' -> usr s' = true) -> (moved s s' kk kk' new -> 0 < ct cf s' -> usr s' = false \/ sp (fl s') = true) -> (moved s s' kk kk' new -> 0 < ct t3 s' -> sp (fl s') = true) ->
  (moved s s' kk kk' new -> ct p45 s' <= 1 /\ (usr s' = true -> sp (fl s') = false -> ct p45 s' = b1 (lk (fl s')))) ->
  accs (log s') = takes (log s') ++ q s' ++ pend s' ->
  (moved s s' kk kk' new -> usr s' = true -> sp (fl s') = false -> ~ In EFull (log s') -> cn (fl s') = Z.of_nat (length (q s') + ct p4 s' + ct w45 s')) ->
  (moved s s' kk kk' new -> ~ In EFull (log s') -> ct tok s' <= 1 /\ (usr s' = true -> sp (fl s') = false -> cn (fl s') = 0%Z -> ct tok s' = 0)) ->
  (~ In EFull (log s') -> exists c, serial None (log s') = Some c /\ runs s' = olist c) -> Inv s'.
Proof.
  intros s s' i kk kk' new I N EA EN SH FK CN IS UF CF T3 LK OR CT TK SE. pose proof (moved_ok _ _ _ _ _ _ N EA) as M.
  split; auto.
  - intros j d Q. rewrite EA in Q. apply nth_error_In in Q. apply in_app_or in Q. destruct Q as [Q|Q].
    + apply In_nth_error in Q. destruct Q as (x & Q). apply nth_set in Q. destruct Q as [[_ ->]|[_ Q]]; [assumption|apply (v_sh _ I _ _ Q)].
    + destruct EN as [->| ->]; [destruct Q|]. destruct Q as [<-|[]]. exact Logic.I.
  - intros j d f Q J. rewrite EA in Q. apply nth_error_In in Q. apply in_app_or in Q. destruct Q as [Q|Q].
    + apply In_nth_error in Q. destruct Q as (x & Q). apply nth_set in Q. destruct Q as [[_ ->]|[_ Q]]; [auto|apply (v_f _ I _ _ _ Q J)].
    + destruct EN as [->| ->]; [destruct Q|]. destruct Q as [<-|[]]. destruct J as [<-|[<-|[]]]; exact Logic.I.
Qed.
(** Agent [i] goes on; nothing else changes but events of no consequence. *)
Definition dull (e : list event) : Prop := accs e = [] /\ takes e = [] /\ (forall c, serial c e = Some c).
Lemma accs_app : forall a b, accs (a ++ b) = accs a ++ accs b.
Proof. intros a b. apply flat_map_app. Qed.
Lemma takes_app : forall a b, takes (a ++ b) = takes a ++ takes b.
Proof. intros a b. apply flat_map_app. Qed.
Lemma notin_app : forall (e : event) a b, ~ In e (a ++ b) -> ~ In e a /\ ~ In e b.
Proof. intros e a b H. split; intros J; apply H; apply in_or_app; auto. Qed.
Lemma Inv_mv : forall s s' i kk kk' new e, Inv s -> nth_error (ag s) i = Some kk -> ag s' = set (ag s) i kk' ++ new -> new = [] \/ new = [[W0; TR]] ->
  q s' = q s -> usr s' = usr s -> log s' = log s ++ e -> dull e ->
  shape kk' -> (forall f, In f kk' -> fok f) -> (0 <= cn (fl s') < CW)%Z -> (it (fl s') = true -> sp (fl s') = true) -> (sp (fl s) = true -> sp (fl s') = true) ->
  suml uf kk' <= suml uf kk -> (suml cf kk' <= suml cf kk \/ usr s' = false \/ sp (fl s') = true) -> (suml t3 kk' <= suml t3 kk \/ sp (fl s') = true) ->
  suml p45 kk' <= suml p45 kk -> (sp (fl s') = true \/ suml p45 kk' + b1 (lk (fl s)) = suml p45 kk + b1 (lk (fl s'))) ->
  flat_map p4t kk' = flat_map p4t kk -> flat_map w4t kk' = flat_map w4t kk -> suml p4 kk' = suml p4 kk ->
  (usr s = true -> ~ In EFull (log s) -> sp (fl s') = true \/ (sp (fl s) = false /\ (cn (fl s') + Z.of_nat (suml w45 kk) = cn (fl s) + Z.of_nat (suml w45 kk'))%Z)) ->
  suml tok kk' + suml (suml tok) new <= suml tok kk ->
  (sp (fl s') = true \/ cn (fl s') = cn (fl s) \/ (cn (fl s') = 0%Z -> suml tok kk' + suml (suml tok) new + 1 <= suml tok kk)) -> Inv s'.
Proof.
  intros s s' i kk kk' new e I N EA EN EQ EU EL DU SH FK CN IS SPM UF CF T3 P45 LK F1 F2 P4E CT TK TZ.
  assert (NZ : forall w, (forall f, w f = 0 \/ w f = 1) -> w W0 = 0 -> w TR = 0 -> suml (suml w) new = 0) by (intros w _ w0 w1; destruct EN as [->| ->]; cbn; rewrite ?w0, ?w1; reflexivity).
  assert (N1 : flat_map (flat_map p4t) new = []) by (destruct EN as [->| ->]; reflexivity).
  assert (N2 : flat_map (flat_map w4t) new = []) by (destruct EN as [->| ->]; reflexivity).
  assert (Z1 : suml (suml uf) new = 0) by (destruct EN as [->| ->]; reflexivity). assert (Z2 : suml (suml cf) new = 0) by (destruct EN as [->| ->]; reflexivity).
  assert (Z3 : suml (suml t3) new = 0) by (destruct EN as [->| ->]; reflexivity). assert (Z4 : suml (suml p45) new = 0) by (destruct EN as [->| ->]; reflexivity).
  assert (Z5 : suml (suml p4) new = 0) by (destruct EN as [->| ->]; reflexivity). assert (Z6 : suml (suml w45) new = 0) by (destruct EN as [->| ->]; reflexivity).
  destruct DU as (D1 & D2 & D3).
  assert (SPF : sp (fl s') = false -> sp (fl s) = false) by (intros Q; destruct (sp (fl s)) eqn:X; [rewrite SPM in Q by reflexivity; discriminate|reflexivity]).
  eapply (Inv_put s s' i kk kk' new); eauto.
  - intros M Q. rewrite EU. apply (v_uf _ I). specialize (M uf). lia.
  - intros M Q. destruct CF as [CF|CF]; [|assumption]. specialize (M cf). destruct (v_cf _ I) as [R|R]; [lia|left; congruence|right; auto].
  - intros M Q. destruct T3 as [T3|T3]; [|assumption]. specialize (M t3). apply SPM. apply (v_t3 _ I). lia.
  - intros M. specialize (M p45). destruct (v_lk _ I) as [A1 A2]. split; [lia|]. intros U P. rewrite EU in U. specialize (A2 U (SPF P)). destruct LK as [LK|LK]; [congruence|lia].
  - rewrite EL, EQ, accs_app, takes_app, D1, D2, !app_nil_r, (pend_same _ _ _ _ _ _ N EA F1 N1). apply I.
  - intros M U P NF. rewrite EU in U. rewrite EL in NF. apply notin_app in NF. destruct NF as [NF _]. pose proof (v_ct _ I U (SPF P) NF) as R. rewrite EQ. pose proof (M p4). pose proof (M w45). destruct (CT U NF) as [CT'|[_ CT']]; [congruence|lia].
  - intros M NF. rewrite EL in NF. apply notin_app in NF. destruct NF as [NF _]. destruct (v_tk _ I NF) as [A1 A2]. specialize (M tok). split; [lia|]. intros U P Q. rewrite EU in U. specialize (A2 U (SPF P)). destruct TZ as [TZ|[TZ|TZ]]; [congruence| |specialize (TZ Q); lia]. rewrite TZ in Q. specialize (A2 Q). lia.
  - intros NF. rewrite EL in NF |- *. apply notin_app in NF. destruct NF as [NF _]. destruct (v_se _ I NF) as (c & S1 & S2). exists c. rewrite serial_app, S1, D3, (runs_same _ _ _ _ _ _ N EA F2 N2). auto.
Qed.
Lemma ct_ge : forall s i kk w, nth_error (ag s) i = Some kk -> suml w kk <= ct w s.
Proof. intros s i kk w N. apply (suml_ge _ (suml w) _ _ _ N). Qed.
Lemma feq_eq : forall a b, feq a b = true -> a = b.
Proof.
  intros [a1 a2 a3 a4] [b1' b2 b3 b4] H. unfold feq in H. cbn in H. apply andb_true_iff in H. destruct H as [H H4]. apply andb_true_iff in H. destruct H as [H H3]. apply andb_true_iff in H. destruct H as [H1 H2].
  apply eqb_prop in H1, H2, H3. apply Z.eqb_eq in H4. congruence.
Qed.
Lemma dull_nil : dull [].
Proof. repeat split. Qed.
Ltac ob := first [assumption | reflexivity | discriminate | exact Logic.I | (left; reflexivity) | (right; reflexivity) | lia | (cbn; lia)
  | (cbn; symmetry; apply app_nil_r) | exact dull_nil | (split; [reflexivity|split; reflexivity]) | (intros; left; assumption) | (left; cbn; lia) | (left; assumption) | (right; left; assumption) | (right; right; assumption) | (right; assumption) | (right; right; intros; cbn; lia) | (intros _; assumption) | idtac].
Ltac mv s I N i kk' new e := eapply (Inv_mv s _ i _ kk' new e); [exact I|exact N|cbn [ag put add say w_fl w_q]; rewrite ?app_nil_r; reflexivity|first [left; reflexivity|right; reflexivity]|reflexivity|reflexivity|cbn [log put add say w_fl w_q]; rewrite ?app_nil_r; reflexivity|..]; cbn [fl put add say w_fl w_q usr sp it lk cn]; ob; try exact (v_is _ I); try exact (v_cn _ I); try (let X := fresh in intros X; exact X).
Lemma look_inv : forall s i t f k, Inv s -> nth_error (ag s) i = Some (f :: k) -> (exists t', f = P1 t' \/ exists g, f = P3 t' g) -> Inv (look s i t (fl s) k).
Proof.
  intros s i t f k I N F. pose proof (v_sh _ I _ _ N) as SH. assert (K : k = []) by (destruct F as (t' & [->|(g & ->)]); destruct k as [|[] [|? ?]]; cbn in SH; try contradiction; reflexivity). subst k.
  assert (U : suml uf [f] = 1 /\ suml cf [f] = 0 /\ suml t3 [f] = 0 /\ suml p45 [f] = 0 /\ flat_map p4t [f] = [] /\ flat_map w4t [f] = [] /\ suml p4 [f] = 0 /\ suml w45 [f] = 0 /\ suml tok [f] = 0) by (destruct F as (t' & [->|(g & ->)]); repeat split).
  destruct U as (U1 & U2 & U3 & U4 & U5 & U6 & U7 & U8 & U9). unfold look. destruct (sp (fl s)) eqn:SP; [|destruct (lk (fl s)) eqn:LK].
  - mv s I N i (@nil frame) (@nil (list frame)) [ERej t]; rewrite ?U1, ?U2, ?U3, ?U4, ?U5, ?U6, ?U7, ?U8, ?U9; ob.
  - mv s I N i [P1 t] (@nil (list frame)) (@nil event); rewrite ?U1, ?U2, ?U3, ?U4, ?U5, ?U6, ?U7, ?U8, ?U9; ob. intros g [<-|[]]. exact Logic.I. intros _ _. right. split; [assumption|reflexivity].
  - mv s I N i [P3 t (fl s)] (@nil (list frame)) (@nil event); rewrite ?U1, ?U2, ?U3, ?U4, ?U5, ?U6, ?U7, ?U8, ?U9; ob. intros g [<-|[]]. cbn. auto. intros _ _. right. split; [assumption|reflexivity].
Qed.
Lemma mod_small1 : forall c, (0 <= c - 1 < CW)%Z -> ((c - 1) mod CW = c - 1)%Z.
Proof. intros c H. apply Z.mod_small. assumption. Qed.
Lemma mod_rng : forall c, (0 <= c mod CW < CW)%Z.
Proof. intros c. apply Z.mod_pos_bound. reflexivity. Qed.
Lemma notshared : forall s i k, Inv s -> nth_error (ag s) i = Some k -> 1 <= suml isw k -> shared s = false \/ refs s = 1 -> usr s = false.
Proof.
  intros s i k I N W H. pose proof (ct_ge _ _ _ isw N) as G. unfold shared, refs, workers in H. unfold ct in G. destruct (usr s); [|reflexivity]. destruct H as [H|H]; [|lia].
  apply Nat.ltb_ge in H. lia.
Qed.
Ltac same := first [left; assumption | right; split; [assumption|cbn; lia] | match goal with |- sp (fl ?s) = true \/ _ => let X := fresh in destruct (sp (fl s)) eqn:X; [left; reflexivity|right; split; [reflexivity|cbn; lia]] end].
Ltac exact_lk := match goal with I : Inv ?s |- _ => let A1 := fresh in let A2 := fresh in destruct (v_lk _ I) as [A1 A2]; split; [lia|]; let Q1 := fresh in let Q2 := fresh in intros Q1 Q2; specialize (A2 Q1 Q2); lia end.
Lemma step_inv : forall s i f k s', Inv s -> nth_error (ag s) i = Some (f :: k) -> step s i f k = Some s' -> Inv s'.
Proof.
  intros s i f k s' I N E. pose proof (v_sh _ I _ _ N) as SH. pose proof (v_f _ I _ _ f N (or_introl eq_refl)) as F.
  assert (U1 : 1 <= uf f -> usr s = true) by (intros Q; apply (v_uf _ I); pose proof (ct_ge _ _ _ uf N) as G; cbn in G; lia).
  assert (U2 : 1 <= suml cf (f :: k) -> usr s = false \/ sp (fl s) = true) by (intros Q; apply (v_cf _ I); pose proof (ct_ge _ _ _ cf N) as G; lia).
  assert (U3 : 1 <= t3 f -> sp (fl s) = true) by (intros Q; apply (v_t3 _ I); pose proof (ct_ge _ _ _ t3 N) as G; cbn in G; lia).
  destruct f as [t|t f|t b|b|b| | | | | |t| | | | | | | | | | | |]; cbn [step fok uf cf t3] in *.
  - injection E as <-. eapply look_inv; eauto.
  - destruct (feq (fl s) f) eqn:FE; [|injection E as <-; eapply look_inv; eauto].
    apply feq_eq in FE. destruct F as [FL1 FL2]. assert (K : k = []) by (destruct k as [|[] [|? ?]]; cbn in SH; try contradiction; reflexivity). subst k f. specialize (U1 ltac:(lia)).
    cbv zeta in E. injection E as <-. set (c := ((cn (fl s) + 1) mod CW)%Z) in *. pose proof (mod_rng (cn (fl s) + 1)) as RC. fold c in RC. pose proof (v_cn _ I) as CN.
    destruct (v_lk _ I) as [L1 L2]. specialize (L2 U1 FL2). rewrite FL1 in L2. cbn [b1] in L2.
    assert (FU : ~ In EFull (log s ++ EAcc t :: (if (c =? 0)%Z then [EFull] else [])) -> ~ In EFull (log s) /\ c = (cn (fl s) + 1)%Z /\ (1 <= c)%Z).
    { intros Q. apply notin_app in Q. destruct Q as [Q1 Q2]. split; [assumption|]. destruct (Z.eqb_spec c 0) as [C|C]; [contradiction Q2; right; left; reflexivity|].
      assert (NW : (cn (fl s) + 1 < CW)%Z) by (destruct (Z.eq_dec (cn (fl s) + 1) CW) as [X|X]; [contradiction C; unfold c; rewrite X; reflexivity|lia]). unfold c in *. rewrite Z.mod_small by lia. split; [reflexivity|lia]. }
    destruct (pend_only s i [P3 t (fl s)]) as [PE PN]; [cbn; lia|exact N|].
    eapply (Inv_put s _ i _ [P4 t (cn (fl s) =? 0)%Z] []); [exact I|exact N|cbn; rewrite app_nil_r; reflexivity|left; reflexivity|reflexivity| | | | | | | | | | |]; cbn [fl put add say w_fl w_q usr sp it lk cn log q].
    + intros g [<-|[]]. exact Logic.I.
    + assumption.
    + apply (v_is _ I).
    + intros _ _. assumption.
    + intros M Q. specialize (M cf). cbn in M, Q. apply (v_cf _ I). lia.
    + intros M Q. specialize (M t3). cbn in M, Q. apply (v_t3 _ I). lia.
    + intros M. specialize (M p45). cbn in M |- *. lia.
    + assert (OR := v_or _ I). rewrite PE in OR. cbn [flat_map p4t app] in OR. erewrite PN by reflexivity. rewrite accs_app, takes_app, OR. destruct (c =? 0)%Z; cbn; rewrite !app_nil_r, <- app_assoc; reflexivity.
    + intros M _ _ NF. destruct (FU NF) as (NF' & C1 & _). pose proof (v_ct _ I U1 FL2 NF') as R. pose proof (M p4) as M1. pose proof (M w45) as M2. cbn in M1, M2 |- *. lia.
    + intros M NF. destruct (FU NF) as (NF' & C1 & C2). destruct (v_tk _ I NF') as [A1 A2]. specialize (A2 U1 FL2). specialize (M tok). cbn in M |- *. split; [|lia]. destruct (Z.eqb_spec (cn (fl s)) 0) as [C|C]; [specialize (A2 C)|]; cbn in M; lia.
    + intros NF. destruct (FU NF) as (NF' & _ & _). destruct (v_se _ I NF') as (x & S1 & S2). exists x. rewrite serial_app, S1. split; [destruct (c =? 0)%Z; reflexivity|]. rewrite <- S2. eapply runs_same with (new := []); [exact N|cbn; rewrite app_nil_r; reflexivity|reflexivity|reflexivity].
  - (* P4 *)
    assert (K : k = []) by (destruct k as [|[] [|? ?]]; cbn in SH; try contradiction; reflexivity). subst k. specialize (U1 ltac:(lia)). injection E as <-.
    destruct (v_lk _ I) as [L1 L2]. destruct (pend_only s i [P4 t b]) as [PE PN]; [cbn; lia|exact N|].
    eapply (Inv_put s _ i _ [P5 b] []); [exact I|exact N|cbn; rewrite app_nil_r; reflexivity|left; reflexivity|reflexivity| | | | | | | | | | |]; cbn [fl put add say w_fl w_q usr sp it lk cn log q].
    + intros g [<-|[]]. exact Logic.I.
    + apply (v_cn _ I).
    + apply (v_is _ I).
    + intros _ _. assumption.
    + intros M Q. specialize (M cf). cbn in M, Q. apply (v_cf _ I). lia.
    + intros M Q. specialize (M t3). cbn in M, Q. apply (v_t3 _ I). lia.
    + intros M. specialize (M p45). cbn in M |- *. split; [lia|]. intros Q1 Q2. specialize (L2 Q1 Q2). lia.
    + erewrite PN by reflexivity. rewrite (v_or _ I), PE. cbn. rewrite app_nil_r. reflexivity.
    + intros M Q1 Q2 NF. pose proof (v_ct _ I Q1 Q2 NF) as R. pose proof (M p4) as M1. pose proof (M w45) as M2. cbn in M1, M2 |- *. rewrite app_length. cbn. lia.
    + intros M NF. destruct (v_tk _ I NF) as [A1 A2]. specialize (M tok). cbn in M |- *. split; [lia|]. intros Q1 Q2 Q3. specialize (A2 Q1 Q2 Q3). lia.
    + intros NF. destruct (v_se _ I NF) as (x & S1 & S2). exists x. split; [assumption|]. rewrite <- S2. eapply runs_same with (new := []); [exact N|cbn; rewrite app_nil_r; reflexivity|reflexivity|reflexivity].
  - (* P5 *)
    assert (K : k = []) by (destruct k as [|[] [|? ?]]; cbn in SH; try contradiction; reflexivity). subst k. injection E as <-.
    destruct (v_lk _ I) as [L1 L2]. pose proof (ct_ge _ _ _ p45 N) as G. cbn in G. specialize (U1 ltac:(lia)).
    mv s I N i [P6 b] (@nil (list frame)) (@nil event).
    + intros g [<-|[]]. exact Logic.I.
    + destruct (sp (fl s)) eqn:X; [left; reflexivity|right]. specialize (L2 U1 eq_refl). cbn. lia.
    + intros _ _. same.
  - (* P6 *)
    assert (K : k = []) by (destruct k as [|[] [|? ?]]; cbn in SH; try contradiction; reflexivity). subst k. destruct b; injection E as <-.
    + mv s I N i (@nil frame) [[W0; TR]] (@nil event). intros _ _. destruct (sp (fl s)) eqn:SP; [left; reflexivity|right; split; [reflexivity|cbn; lia]].
    + mv s I N i (@nil frame) (@nil (list frame)) (@nil event). intros _ _. destruct (sp (fl s)) eqn:SP; [left; reflexivity|right; split; [reflexivity|cbn; lia]].
  - (* P7 *)
    assert (K : k = []) by (destruct k as [|[] [|? ?]]; cbn in SH; try contradiction; reflexivity). subst k. injection E as <-.
    mv s I N i [C0] (@nil (list frame)) (@nil event). intros g [<-|[]]. exact Logic.I.
  - (* W0 *)
    assert (K : k = [TR]) by (destruct k as [|[] [|? ?]]; cbn in SH; try contradiction; try discriminate; reflexivity). subst k. injection E as <-.
    mv s I N i [W1; TR] (@nil (list frame)) (@nil event). intros g [<-|[<-|[]]]; exact Logic.I. intros _ _. same.
  - (* W1 *)
    assert (K : k = [TR]) by (destruct k as [|[] [|? ?]]; cbn in SH; try contradiction; try discriminate; reflexivity). subst k. destruct (shared s); injection E as <-.
    + mv s I N i [W2; TR] (@nil (list frame)) (@nil event). intros g [<-|[<-|[]]]; exact Logic.I. intros _ _. same.
    + mv s I N i [T0; TR] (@nil (list frame)) (@nil event). intros g [<-|[<-|[]]]; exact Logic.I. intros _ _. same.
  - (* W2 *)
    assert (K : k = [TR]) by (destruct k as [|[] [|? ?]]; cbn in SH; try contradiction; try discriminate; reflexivity). subst k. injection E as <-.
    mv s I N i [W3; TR] (@nil (list frame)) (@nil event). intros g [<-|[<-|[]]]; exact Logic.I. intros _ _. same.
  - (* W3 *)
    assert (K : k = [TR]) by (destruct k as [|[] [|? ?]]; cbn in SH; try contradiction; try discriminate; reflexivity). subst k. destruct (q s) as [|t r] eqn:Q; injection E as <-.
    + mv s I N i [T0; TR] (@nil (list frame)) [ENull]. intros g [<-|[<-|[]]]; exact Logic.I. intros _ _. same.
    + eapply (Inv_put s _ i _ [W4 t; TR] []); [exact I|exact N|cbn; rewrite app_nil_r; reflexivity|left; reflexivity|exact Logic.I| | | | | | | | | | |]; cbn [fl put add say w_fl w_q usr sp it lk cn log q].
      * intros g [<-|[<-|[]]]; exact Logic.I.
      * apply (v_cn _ I).
      * apply (v_is _ I).
      * intros M P. specialize (M uf). cbn in M, P. apply (v_uf _ I). lia.
      * intros M P. specialize (M cf). cbn in M, P. apply (v_cf _ I). lia.
      * intros M P. specialize (M t3). cbn in M, P. apply (v_t3 _ I). lia.
      * intros M. specialize (M p45). cbn in M |- *. exact_lk.
      * rewrite accs_app, takes_app, (v_or _ I), Q. change (accs [EStart t]) with (@nil nat). change (takes [EStart t]) with [t]. rewrite app_nil_r, <- app_assoc. cbn [app]. f_equal. f_equal. f_equal. symmetry. eapply pend_same with (new := []); [exact N|cbn; rewrite app_nil_r; reflexivity|reflexivity|reflexivity].
      * intros M P1' P2' NF. apply notin_app in NF. destruct NF as [NF _]. pose proof (v_ct _ I P1' P2' NF) as R. rewrite Q in R. pose proof (M p4) as M1. pose proof (M w45) as M2. cbn in M1, M2, R |- *. lia.
      * intros M NF. apply notin_app in NF. destruct NF as [NF _]. destruct (v_tk _ I NF) as [A1 A2]. specialize (M tok). cbn in M |- *. split; [lia|]. intros Q1 Q2 Q3. specialize (A2 Q1 Q2 Q3). lia.
      * intros NF. apply notin_app in NF. destruct NF as [NF _]. destruct (v_se _ I NF) as (x & S1 & S2). destruct (v_tk _ I NF) as [A1 _]. destruct (runs_only s i [W3; TR]) as [RE RN]; [cbn; lia|exact N|].
        rewrite RE in S2. destruct x; [discriminate|]. exists (Some t). rewrite serial_app, S1. split; [reflexivity|]. erewrite RN by reflexivity. reflexivity.
  - (* W4 *)
    assert (K : k = [TR]) by (destruct k as [|[] [|? ?]]; cbn in SH; try contradiction; try discriminate; reflexivity). subst k. injection E as <-.
    eapply (Inv_put s _ i _ [W5; TR] []); [exact I|exact N|cbn; rewrite app_nil_r; reflexivity|left; reflexivity|exact Logic.I| | | | | | | | | | |]; cbn [fl put add say w_fl w_q usr sp it lk cn log q].
    + intros g [<-|[<-|[]]]; exact Logic.I.
    + apply (v_cn _ I).
    + apply (v_is _ I).
    + intros M P. specialize (M uf). cbn in M, P. apply (v_uf _ I). lia.
    + intros M P. specialize (M cf). cbn in M, P. apply (v_cf _ I). lia.
    + intros M P. specialize (M t3). cbn in M, P. apply (v_t3 _ I). lia.
    + intros M. specialize (M p45). cbn in M |- *. exact_lk.
    + rewrite accs_app, takes_app, (v_or _ I). change (accs [EEnd t]) with (@nil nat). change (takes [EEnd t]) with (@nil nat). rewrite !app_nil_r. f_equal. f_equal. symmetry. eapply pend_same with (new := []); [exact N|cbn; rewrite app_nil_r; reflexivity|reflexivity|reflexivity].
    + intros M P1' P2' NF. apply notin_app in NF. destruct NF as [NF _]. pose proof (v_ct _ I P1' P2' NF) as R. pose proof (M p4) as M1. pose proof (M w45) as M2. cbn in M1, M2, R |- *. lia.
    + intros M NF. apply notin_app in NF. destruct NF as [NF _]. destruct (v_tk _ I NF) as [A1 A2]. specialize (M tok). cbn in M |- *. split; [lia|]. intros Q1 Q2 Q3. specialize (A2 Q1 Q2 Q3). lia.
    + intros NF. apply notin_app in NF. destruct NF as [NF _]. destruct (v_se _ I NF) as (x & S1 & S2). destruct (v_tk _ I NF) as [A1 _]. destruct (runs_only s i [W4 t; TR]) as [RE RN]; [cbn; lia|exact N|].
      rewrite RE in S2. destruct x as [x|]; [|discriminate]. injection S2 as <-. exists None. rewrite serial_app, S1. cbn. rewrite Nat.eqb_refl. split; [reflexivity|]. erewrite RN by reflexivity. reflexivity.
  - (* W5 *)
    assert (K : k = [TR]) by (destruct k as [|[] [|? ?]]; cbn in SH; try contradiction; try discriminate; reflexivity). subst k. cbv zeta in E.
    set (c := ((cn (fl s) - 1) mod CW)%Z) in *. pose proof (mod_rng (cn (fl s) - 1)) as RC. fold c in RC.
    assert (CT : usr s = true -> ~ In EFull (log s) -> sp (fl s) = false -> (c + 1 = cn (fl s))%Z).
    { intros Q1 Q2 Q3. pose proof (v_ct _ I Q1 Q3 Q2) as R. pose proof (ct_ge _ _ _ w45 N) as G. cbn in G. pose proof (v_cn _ I) as CN. unfold c. rewrite mod_small1; lia. }
    destruct (it (fl s)) eqn:IT; [|destruct (Z.eqb_spec c 0) as [C|C]]; injection E as <-.
    + pose proof (v_is _ I IT) as SP. mv s I N i [T0; TR] (@nil (list frame)) (@nil event). intros g [<-|[<-|[]]]; exact Logic.I.
    + mv s I N i [T0; TR] (@nil (list frame)) (@nil event). intros g [<-|[<-|[]]]; exact Logic.I.
      intros Q1 Q2. specialize (CT Q1 Q2). destruct (sp (fl s)); [left; reflexivity|right]. specialize (CT eq_refl). cbn. split; [reflexivity|lia].
    + mv s I N i [W1; TR] (@nil (list frame)) (@nil event). intros g [<-|[<-|[]]]; exact Logic.I.
      intros Q1 Q2. specialize (CT Q1 Q2). destruct (sp (fl s)); [left; reflexivity|right]. specialize (CT eq_refl). cbn. split; [reflexivity|lia].
  - (* T0 *)
    assert (K : k = [TR]) by (destruct k as [|[] [|? ?]]; cbn in SH; try contradiction; try discriminate; reflexivity). subst k. destruct (shared s) eqn:SHR; injection E as <-.
    + mv s I N i [T1; TR] (@nil (list frame)) (@nil event). intros g [<-|[<-|[]]]; exact Logic.I. intros _ _. same.
    + pose proof (notshared _ _ _ I N ltac:(cbn; lia) (or_introl SHR)) as UF. mv s I N i [C0; TR] (@nil (list frame)) (@nil event). intros g [<-|[<-|[]]]; exact Logic.I. intros _ _. same.
  - (* T1 *)
    assert (K : k = [TR]) by (destruct k as [|[] [|? ?]]; cbn in SH; try contradiction; try discriminate; reflexivity). subst k. destruct (it (fl s)) eqn:IT; injection E as <-.
    + pose proof (v_is _ I IT) as SP. mv s I N i [C0; TR] (@nil (list frame)) (@nil event). intros g [<-|[<-|[]]]; exact Logic.I.
    + mv s I N i [T2; TR] (@nil (list frame)) (@nil event). intros g [<-|[<-|[]]]; exact Logic.I. intros _ _. same.
  - (* T2 *)
    assert (K : k = [TR]) by (destruct k as [|[] [|? ?]]; cbn in SH; try contradiction; try discriminate; reflexivity). subst k. destruct (sp (fl s)) eqn:SP; injection E as <-.
    + mv s I N i [T3; TR] (@nil (list frame)) (@nil event). intros g [<-|[<-|[]]]; exact Logic.I.
    + mv s I N i [TR] (@nil (list frame)) (@nil event). intros g [<-|[]]; exact Logic.I. intros _ _. same.
  - (* T3 *)
    assert (K : k = [TR]) by (destruct k as [|[] [|? ?]]; cbn in SH; try contradiction; try discriminate; reflexivity). subst k. specialize (U3 ltac:(lia)). destruct (Z.eqb_spec (cn (fl s)) 0) as [C|C]; injection E as <-.
    + mv s I N i [C0; TR] (@nil (list frame)) (@nil event). intros g [<-|[<-|[]]]; exact Logic.I.
    + mv s I N i [TR] (@nil (list frame)) (@nil event). intros g [<-|[]]; exact Logic.I.
  - (* TR *)
    assert (K : k = []) by (destruct k as [|[] [|? ?]]; cbn in SH; try contradiction; try discriminate; reflexivity). subst k. destruct (Nat.eqb_spec (refs s) 1) as [C|C]; injection E as <-.
    + pose proof (notshared _ _ _ I N ltac:(cbn; lia) (or_intror C)) as UF. mv s I N i [C0; DT] (@nil (list frame)) (@nil event). intros g [<-|[<-|[]]]; exact Logic.I. intros _ _. same.
    + mv s I N i (@nil frame) (@nil (list frame)) (@nil event). intros _ _. same.
  - (* C0 *)
    assert (K : k = [] \/ k = [TR] \/ k = [DT]) by (destruct k as [|[] [|? ?]]; cbn in SH; try contradiction; try discriminate; auto). injection E as <-. destruct K as [->|[->| ->]].
    + mv s I N i [C1] (@nil (list frame)) (@nil event). intros g [<-|[]]; exact Logic.I. intros _ _. same.
    + mv s I N i [C1; TR] (@nil (list frame)) (@nil event). intros g [<-|[<-|[]]]; exact Logic.I. intros _ _. same.
    + mv s I N i [C1; DT] (@nil (list frame)) (@nil event). intros g [<-|[<-|[]]]; exact Logic.I. intros _ _. same.
  - (* C1 *)
    assert (K : k = [] \/ k = [TR] \/ k = [DT]) by (destruct k as [|[] [|? ?]]; cbn in SH; try contradiction; try discriminate; auto). destruct (q s) as [|t r] eqn:Q; injection E as <-.
    + destruct K as [->|[->| ->]].
      * mv s I N i [C2] (@nil (list frame)) (@nil event). intros g [<-|[]]; exact Logic.I. intros _ _. same.
      * mv s I N i [C2; TR] (@nil (list frame)) (@nil event). intros g [<-|[<-|[]]]; exact Logic.I. intros _ _. same.
      * mv s I N i [C2; DT] (@nil (list frame)) (@nil event). intros g [<-|[<-|[]]]; exact Logic.I. intros _ _. same.
    + specialize (U2 ltac:(cbn; lia)). assert (SHK : shape (C0 :: k)) by (destruct K as [->|[->| ->]]; exact Logic.I || reflexivity).
      eapply (Inv_put s _ i _ (C0 :: k) []); [exact I|exact N|cbn; rewrite app_nil_r; reflexivity|left; reflexivity|exact SHK| | | | | | | | | | |]; cbn [fl put add say w_fl w_q usr sp it lk cn log q].
      * intros g J. destruct K as [->|[->| ->]]; repeat (destruct J as [<-|J]; [exact Logic.I|]); destruct J.
      * apply (v_cn _ I).
      * apply (v_is _ I).
      * intros M P. specialize (M uf). cbn in M, P. apply (v_uf _ I). lia.
      * intros _ _. assumption.
      * intros M P. specialize (M t3). cbn in M, P. apply (v_t3 _ I). lia.
      * intros M. specialize (M p45). cbn in M |- *. exact_lk.
      * rewrite accs_app, takes_app, (v_or _ I), Q. change (accs [ECan t]) with (@nil nat). change (takes [ECan t]) with [t]. rewrite app_nil_r, <- app_assoc. cbn [app]. f_equal. f_equal. f_equal. symmetry. eapply pend_same with (new := []); [exact N|cbn; rewrite app_nil_r; reflexivity|reflexivity|reflexivity].
      * intros M P1' P2' NF. destruct U2; congruence.
      * intros M NF. apply notin_app in NF. destruct NF as [NF _]. destruct (v_tk _ I NF) as [A1 A2]. specialize (M tok). cbn in M |- *. split; [lia|]. intros Q1 Q2 Q3. specialize (A2 Q1 Q2 Q3). lia.
      * intros NF. apply notin_app in NF. destruct NF as [NF _]. destruct (v_se _ I NF) as (x & S1 & S2). exists x. rewrite serial_app, S1. split; [reflexivity|]. rewrite <- S2. eapply runs_same with (new := []); [exact N|cbn; rewrite app_nil_r; reflexivity|reflexivity|reflexivity].
  - (* C2 *)
    assert (K : k = [] \/ k = [TR] \/ k = [DT]) by (destruct k as [|[] [|? ?]]; cbn in SH; try contradiction; try discriminate; auto). injection E as <-. destruct K as [->|[->| ->]].
    + mv s I N i (@nil frame) (@nil (list frame)) (@nil event).
    + mv s I N i [TR] (@nil (list frame)) (@nil event). intros g [<-|[]]; exact Logic.I.
    + mv s I N i [DT] (@nil (list frame)) (@nil event). intros g [<-|[]]; exact Logic.I.
  - (* DT *)
    assert (K : k = []) by (destruct k as [|[] [|? ?]]; cbn in SH; try contradiction; try discriminate; reflexivity). subst k. injection E as <-.
    mv s I N i (@nil frame) (@nil (list frame)) (@nil event). intros _ _. same.
  - (* J0 *)
    assert (K : k = []) by (destruct k as [|[] [|? ?]]; cbn in SH; try contradiction; try discriminate; reflexivity). subst k. cbv zeta in E. destruct (Z.eqb_spec (cn (fl s)) 0) as [C|C]; injection E as <-.
    + mv s I N i (@nil frame) (@nil (list frame)) [EJoin].
    + mv s I N i [J1] (@nil (list frame)) (@nil event). intros g [<-|[]]; exact Logic.I.
  - (* J1 *)
    assert (K : k = []) by (destruct k as [|[] [|? ?]]; cbn in SH; try contradiction; try discriminate; reflexivity). subst k. destruct (feq _ _) eqn:FE; [|discriminate]. injection E as <-.
    mv s I N i (@nil frame) (@nil (list frame)) [EJoin]. intros _ _. same.
Qed.
Lemma Inv_add : forall s s' k, Inv s -> ag s' = ag s ++ [k] -> fl s' = fl s -> q s' = q s -> log s' = log s -> shape k -> (forall f, In f k -> fok f) ->
  suml p45 k = 0 -> flat_map p4t k = [] -> flat_map w4t k = [] -> suml p4 k = 0 -> suml w45 k = 0 -> suml tok k = 0 -> suml t3 k = 0 ->
  (usr s' = true -> usr s = true) -> (0 < ct uf s' -> usr s' = true) -> (suml cf k = 0 /\ usr s' = usr s \/ usr s' = false) -> Inv s'.
Proof.
  intros s s' k I EA EF EQ EL SH FK H1 H2 H3 H4 H5 H6 H7 EU UF CF.
  assert (C : forall w, ct w s' = ct w s + suml w k) by (intros w; unfold ct; rewrite EA, suml_app; cbn; lia).
  assert (PE : pend s' = pend s) by (unfold pend; rewrite EA, flat_map_app; cbn; rewrite H2, !app_nil_r; reflexivity).
  assert (RE : runs s' = runs s) by (unfold runs; rewrite EA, flat_map_app; cbn; rewrite H3, !app_nil_r; reflexivity).
  split; rewrite ?EF, ?EQ, ?EL, ?PE, ?RE, ?(C p45), ?(C p4), ?(C w45), ?(C tok), ?(C t3), ?H1, ?H4, ?H5, ?H6, ?H7, ?Nat.add_0_r; try apply I.
  - intros i d M. rewrite EA in M. apply nth_error_In in M. apply in_app_or in M. destruct M as [M|[<-|[]]]; [|assumption]. apply In_nth_error in M. destruct M as (j & M). apply (v_sh _ I _ _ M).
  - intros i d f M J. rewrite EA in M. apply nth_error_In in M. apply in_app_or in M. destruct M as [M|[<-|[]]]; [|auto]. apply In_nth_error in M. destruct M as (j & M). apply (v_f _ I _ _ _ M J).
  - assumption.
  - intros Q. rewrite C in Q. destruct CF as [[CF EU']|CF]; [|left; assumption]. rewrite EU'. apply (v_cf _ I). lia.
  - destruct (v_lk _ I) as [A1 A2]. auto.
  - intros U. apply (v_ct _ I (EU U)).
  - intros NF. destruct (v_tk _ I NF) as [A1 A2]. auto.
Qed.
Lemma uf_user : forall s, Inv s -> existsb user (ag s) = false -> ct uf s = 0.
Proof.
  intros s I H. destruct (ct uf s) eqn:E; [reflexivity|]. destruct (suml_pos _ (suml uf) (ag s)) as (i & k & N & Q); [unfold ct in E; lia|]. exfalso.
  assert (U : user k = true); [|assert (X : existsb user (ag s) = true) by (apply existsb_exists; exists k; split; [apply (nth_error_In _ _ N)|assumption]); congruence].
  pose proof (v_sh _ I _ _ N) as SH. destruct k as [|f [|g [|]]]; cbn in Q; [lia| | |].
  - destruct f; cbn in *; try reflexivity; lia.
  - destruct f, g; cbn in *; try contradiction; lia.
  - destruct f, g; cbn in SH; contradiction.
Qed.
Lemma exec_inv : forall s a s', Inv s -> exec s a = Some s' -> Inv s'.
Proof.
  intros s [i|t| | |i|] s' I E; cbn [exec] in E.
  - destruct (nth_error (ag s) i) as [[|f k]|] eqn:N; try discriminate. eapply step_inv; eauto.
  - destruct (usr s) eqn:U; [|discriminate]. injection E as <-. eapply (Inv_add s _ [P1 t]); try reflexivity; auto. intros f [<-|[]]. exact Logic.I.
  - destruct (usr s) eqn:U; [|discriminate]. injection E as <-. eapply (Inv_add s _ [J0]); try reflexivity; auto. intros f [<-|[]]. exact Logic.I.
  - destruct (usr s) eqn:U; [|discriminate]. injection E as <-. destruct I as [a b c d e f g h i j k l]. split; cbn [fl say w_fl ag log q usr sp it cn lk] in *; auto.
    + destruct h as [h _]. split; [exact h|discriminate].
    + rewrite accs_app, takes_app. cbn. rewrite !app_nil_r. exact i.
    + discriminate.
    + intros NF. apply notin_app in NF. destruct NF as [NF _]. destruct (k NF) as [k1 _]. split; [exact k1|discriminate].
    + intros NF. apply notin_app in NF. destruct NF as [NF _]. destruct (l NF) as (x & S1 & S2). exists x. rewrite serial_app, S1. auto.
  - destruct (nth_error (ag s) i) as [[|[] k]|] eqn:N; try discriminate. destruct b; [|discriminate]. injection E as <-. pose proof (v_sh _ I _ _ N) as SH.
    assert (K : k = []) by (destruct k as [|[] [|? ?]]; cbn in SH; try contradiction; try discriminate; reflexivity). subst k.
    mv s I N i [P7] (@nil (list frame)) [EFail]. intros g [<-|[]]; exact Logic.I. intros _ _. same.
  - destruct (usr s) eqn:U; [|discriminate]. destruct (existsb user (ag s)) eqn:X; [discriminate|]. cbn [negb andb] in E. pose proof (uf_user _ I X) as UZ. destruct (Nat.eqb_spec (workers s) 0) as [W|W]; injection E as <-.
    + eapply (Inv_add s _ [C0; DT]); try reflexivity; auto.
      * intros f [<-|[<-|[]]]; exact Logic.I.
      * cbn. intros Q. unfold ct in *. cbn [ag add] in Q. rewrite suml_app in Q. cbn in Q. lia.
    + destruct I as [a b c d e f g h i j k l]. split; cbn [fl ag log q usr sp it cn lk] in *; auto; try discriminate.
      * intros Q. unfold ct in *. cbn [ag] in Q. lia.
      * destruct h as [h _]. split; [exact h|discriminate].
      * intros NF. destruct (k NF) as [k1 _]. split; [exact k1|discriminate].
Qed.
Lemma init_inv : Inv init.
Proof.
  assert (Z : forall w, ct w init = 0) by reflexivity. split; rewrite ?Z; try lia; try (cbn; discriminate); try reflexivity.
  - intros [|i] k N; discriminate.
  - intros [|i] k f N; discriminate.
  - cbn. unfold CW. lia.
  - split; [lia|reflexivity].
  - intros _. exists None. auto.
Qed.
Lemma run_inv : forall l s s', Inv s -> run s l = Some s' -> Inv s'.
Proof. induction l as [|a l IH]; intros s s' I H; cbn in H; [injection H as <-; assumption|]. destruct (exec s a) as [s1|] eqn:E; [|discriminate]. eapply IH; [|exact H]. eapply exec_inv; eauto. Qed.
Definition p7 (f : frame) : nat := match f with P7 => 1 | _ => 0 end.
Record G (s : st) : Prop := {
  g_ct : cn (fl s) = Z.of_nat (length (q s) + ct p4 s + ct w45 s);
  g_tk : ct tok s = (if (cn (fl s) =? 0)%Z then 0 else 1);
  g_cf : 0 < ct cf s -> sp (fl s) = true /\ cn (fl s) = 0%Z;
  g_it : it (fl s) = true -> cn (fl s) = 0%Z;
  g_p7 : ct p7 s = 0;
  g_can : takes (log s) = starts (log s) }.
Definition good (s : st) : Prop := usr s = true /\ calm (log s).
Lemma starts_app : forall a b, starts (a ++ b) = starts a ++ starts b.
Proof. intros a b. apply flat_map_app. Qed.
Arguments starts : simpl never.
Lemma calm_app : forall a b, calm (a ++ b) -> calm a.
Proof. intros a b (H1 & H2 & H3 & H4). repeat split; intros J; [apply H1|apply H2|apply H3|apply H4]; apply in_or_app; auto. Qed.
Lemma G_mv : forall s s' i kk kk' new, G s -> nth_error (ag s) i = Some kk -> ag s' = set (ag s) i kk' ++ new -> 
  Z.of_nat (length (q s') + suml p4 kk' + suml w45 kk' + suml (suml p4) new + suml (suml w45) new) = (cn (fl s') - cn (fl s) + Z.of_nat (length (q s) + suml p4 kk + suml w45 kk))%Z ->
  (if (cn (fl s) =? 0)%Z then 0 else 1) + suml tok kk' + suml (suml tok) new = (if (cn (fl s') =? 0)%Z then 0 else 1) + suml tok kk ->
  ((sp (fl s') = true /\ cn (fl s') = 0%Z) \/ (suml cf kk' <= suml cf kk /\ suml (suml cf) new = 0 /\ (0 < ct cf s -> sp (fl s) = true -> cn (fl s) = 0%Z -> sp (fl s') = true /\ cn (fl s') = 0%Z))) ->
  (it (fl s') = true -> cn (fl s') = 0%Z) -> suml p7 kk' <= suml p7 kk -> suml (suml p7) new = 0 -> (exists e, log s' = log s ++ e /\ takes e = starts e) -> G s'.
Proof.
  intros s s' i kk kk' new I N EA H1 H2 H3 H4 H5 H6 (ev & EL & ET). pose proof (moved_ok _ _ _ _ _ _ N EA) as M. destruct I as [a b c d e g]. split.
  - pose proof (M p4). pose proof (M w45). lia.
  - pose proof (M tok). lia.
  - intros Q. destruct H3 as [H3|(A1 & A2 & A3)]; [assumption|]. specialize (M cf). apply A3; [lia|apply c; lia|apply c; lia].
  - assumption.
  - pose proof (M p7). lia.
  - rewrite EL, takes_app, starts_app, g, ET. reflexivity.
Qed.
Ltac gm H s N i kk' new := eapply (G_mv s _ i _ kk' new H); [exact N|cbn [ag put add say w_fl w_q]; rewrite ?app_nil_r; reflexivity|..]; cbn [fl put add say w_fl w_q usr sp it lk cn q log];
  try solve [ (eexists; split; [first [reflexivity|symmetry; apply app_nil_r]|reflexivity]) | (exists (@nil event); split; [symmetry; apply app_nil_r|reflexivity]) | reflexivity | assumption | cbn; lia | apply H | (right; split; [cbn; lia|split; [reflexivity|intros _ ?X ?Y; split; solve [assumption|reflexivity]]])].
Lemma look_G : forall s i t f k, Inv s -> G s -> nth_error (ag s) i = Some (f :: k) -> (exists t', f = P1 t' \/ exists g, f = P3 t' g) -> G (look s i t (fl s) k).
Proof.
  intros s i t f k I H N F. pose proof (v_sh _ I _ _ N) as SH. assert (K : k = []) by (destruct F as (t' & [->|(g & ->)]); destruct k as [|[] [|? ?]]; cbn in SH; try contradiction; reflexivity). subst k.
  unfold look. destruct F as (t' & [->|(g & ->)]); (destruct (sp (fl s)) eqn:SP; [|destruct (lk (fl s)) eqn:LK]).
  - gm H s N i (@nil frame) (@nil (list frame)).
  - gm H s N i [P1 t] (@nil (list frame)).
  - gm H s N i [P3 t (fl s)] (@nil (list frame)).
  - gm H s N i (@nil frame) (@nil (list frame)).
  - gm H s N i [P1 t] (@nil (list frame)).
  - gm H s N i [P3 t (fl s)] (@nil (list frame)).
Qed.
Lemma step_G : forall s i f k s', Inv s -> G s -> good s' -> nth_error (ag s) i = Some (f :: k) -> step s i f k = Some s' -> G s'.
Proof.
  intros s i f k s' I H GD N E. pose proof (v_sh _ I _ _ N) as SH. pose proof (v_f _ I _ _ f N (or_introl eq_refl)) as F. pose proof (v_cn _ I) as CN. destruct GD as [GU GC].
  assert (UN : usr s = true -> 1 <= suml isw (f :: k) -> shared s = true /\ refs s <> 1).
  { intros U W. split; [destruct (shared s) eqn:X; [reflexivity|]|intros X]; [assert (usr s = false) by (eapply notshared; eauto)|assert (usr s = false) by (eapply notshared; eauto)]; congruence. }
  assert (U3 : 1 <= t3 f -> sp (fl s) = true) by (intros Q; apply (v_t3 _ I); pose proof (ct_ge _ _ _ t3 N) as G0; cbn in G0; lia).
  assert (U4 : 1 <= cf f -> sp (fl s) = true /\ cn (fl s) = 0%Z) by (intros Q; apply (g_cf _ H); pose proof (ct_ge _ _ _ cf N) as G0; cbn in G0; lia).
  assert (U5 : 1 <= tok f -> cn (fl s) <> 0%Z) by (intros Q X; pose proof (g_tk _ H) as T; rewrite X in T; cbn in T; pose proof (ct_ge _ _ _ tok N) as G0; cbn in G0; lia).
  destruct f as [t|t f|t b|b|b| | | | | |t| | | | | | | | | | | |]; cbn [step fok tok cf t3] in *.
  - injection E as <-. eapply look_G; eauto.
  - destruct (feq (fl s) f) eqn:FE; [|injection E as <-; eapply look_G; eauto]. apply feq_eq in FE. subst f. destruct F as [F1 F2].
    cbv zeta in E. injection E as <-. assert (K : k = []) by (destruct k as [|[] [|? ?]]; cbn in SH; try contradiction; reflexivity). subst k.
    destruct GC as (_ & _ & _ & NF). cbn [log say put w_fl] in NF.
    assert (C : ((cn (fl s) + 1) mod CW = cn (fl s) + 1)%Z).
    { destruct (Z.eqb_spec ((cn (fl s) + 1) mod CW) 0) as [Y|Y]; [contradiction NF; apply in_or_app; right; right; left; reflexivity|]. apply Z.mod_small. destruct (Z.eq_dec (cn (fl s) + 1) CW) as [X|X]; [contradiction Y; rewrite X; reflexivity|lia]. }
    gm H s N i [P4 t (cn (fl s) =? 0)%Z] (@nil (list frame)); rewrite ?C.
    + cbn. lia.
    + cbn. destruct (Z.eqb_spec (cn (fl s)) 0) as [X|X]; destruct (Z.eqb_spec (cn (fl s) + 1) 0); cbn; lia.
    + right. split; [cbn; lia|]. split; [reflexivity|]. intros _ X. congruence.
    + intros X. pose proof (v_is _ I X). congruence.
    + eexists. split; [reflexivity|]. match goal with |- context [if ?b then [EFull] else _] => destruct b end; reflexivity.
  - assert (K : k = []) by (destruct k as [|[] [|? ?]]; cbn in SH; try contradiction; reflexivity). subst k. injection E as <-. gm H s N i [P5 b] (@nil (list frame)). rewrite app_length. cbn. lia.
  - assert (K : k = []) by (destruct k as [|[] [|? ?]]; cbn in SH; try contradiction; reflexivity). subst k. injection E as <-. gm H s N i [P6 b] (@nil (list frame)).
  - assert (K : k = []) by (destruct k as [|[] [|? ?]]; cbn in SH; try contradiction; reflexivity). subst k. destruct b; injection E as <-; [gm H s N i (@nil frame) [[W0; TR]]|gm H s N i (@nil frame) (@nil (list frame))].
  - exfalso. pose proof (ct_ge _ _ _ p7 N) as Q. cbn in Q. pose proof (g_p7 _ H). lia.
  - assert (K : k = [TR]) by (destruct k as [|[] [|? ?]]; cbn in SH; try contradiction; try discriminate; reflexivity). subst k. injection E as <-. gm H s N i [W1; TR] (@nil (list frame)).
  - assert (K : k = [TR]) by (destruct k as [|[] [|? ?]]; cbn in SH; try contradiction; try discriminate; reflexivity). subst k. destruct (shared s) eqn:X; injection E as <-; [gm H s N i [W2; TR] (@nil (list frame))|]. destruct (UN GU); [cbn; lia|congruence].
  - assert (K : k = [TR]) by (destruct k as [|[] [|? ?]]; cbn in SH; try contradiction; try discriminate; reflexivity). subst k. injection E as <-. gm H s N i [W3; TR] (@nil (list frame)).
  - assert (K : k = [TR]) by (destruct k as [|[] [|? ?]]; cbn in SH; try contradiction; try discriminate; reflexivity). subst k. destruct (q s) as [|t r] eqn:Q; injection E as <-.
    + exfalso. destruct GC as (_ & _ & NF & _). apply NF. cbn. apply in_or_app. right. left. reflexivity.
    + gm H s N i [W4 t; TR] (@nil (list frame)). rewrite Q. cbn. lia.
  - assert (K : k = [TR]) by (destruct k as [|[] [|? ?]]; cbn in SH; try contradiction; try discriminate; reflexivity). subst k. injection E as <-. gm H s N i [W5; TR] (@nil (list frame)).
  - assert (K : k = [TR]) by (destruct k as [|[] [|? ?]]; cbn in SH; try contradiction; try discriminate; reflexivity). subst k. specialize (U5 ltac:(lia)). cbv zeta in E.
    assert (C : ((cn (fl s) - 1) mod CW = cn (fl s) - 1)%Z) by (apply mod_small1; lia).
    destruct (it (fl s)) eqn:IT; [exfalso; apply U5; apply (g_it _ H IT)|]. rewrite C in E. destruct (Z.eqb_spec (cn (fl s) - 1) 0) as [X|X]; injection E as <-.
    + gm H s N i [T0; TR] (@nil (list frame)).
      * destruct (Z.eqb_spec (cn (fl s)) 0); [contradiction|]. rewrite X. reflexivity.
    + gm H s N i [W1; TR] (@nil (list frame)).
      * destruct (Z.eqb_spec (cn (fl s)) 0); [contradiction|]. destruct (Z.eqb_spec (cn (fl s) - 1) 0); [contradiction|]. reflexivity.
  - assert (K : k = [TR]) by (destruct k as [|[] [|? ?]]; cbn in SH; try contradiction; try discriminate; reflexivity). subst k. destruct (shared s) eqn:X; injection E as <-; [gm H s N i [T1; TR] (@nil (list frame))|]. destruct (UN GU); [cbn; lia|congruence].
  - assert (K : k = [TR]) by (destruct k as [|[] [|? ?]]; cbn in SH; try contradiction; try discriminate; reflexivity). subst k. destruct (it (fl s)) eqn:IT; injection E as <-; [|gm H s N i [T2; TR] (@nil (list frame))].
    gm H s N i [C0; TR] (@nil (list frame)). left. split; [apply (v_is _ I IT)|apply (g_it _ H IT)].
  - assert (K : k = [TR]) by (destruct k as [|[] [|? ?]]; cbn in SH; try contradiction; try discriminate; reflexivity). subst k. destruct (sp (fl s)) eqn:SP; injection E as <-; [gm H s N i [T3; TR] (@nil (list frame))|gm H s N i [TR] (@nil (list frame))].
  - assert (K : k = [TR]) by (destruct k as [|[] [|? ?]]; cbn in SH; try contradiction; try discriminate; reflexivity). subst k. specialize (U3 ltac:(lia)). destruct (Z.eqb_spec (cn (fl s)) 0) as [C|C]; injection E as <-; [|gm H s N i [TR] (@nil (list frame))].
    gm H s N i [C0; TR] (@nil (list frame)). left. auto.
  - assert (K : k = []) by (destruct k as [|[] [|? ?]]; cbn in SH; try contradiction; try discriminate; reflexivity). subst k. destruct (Nat.eqb_spec (refs s) 1) as [C|C]; injection E as <-; [|gm H s N i (@nil frame) (@nil (list frame))].
    destruct (UN GU); [cbn; lia|congruence].
  - specialize (U4 ltac:(lia)). injection E as <-. gm H s N i (C1 :: k) (@nil (list frame)).
  - specialize (U4 ltac:(lia)). destruct (q s) as [|t r] eqn:Q; injection E as <-; [gm H s N i (C2 :: k) (@nil (list frame)); rewrite ?Q; reflexivity|].
    exfalso. pose proof (g_ct _ H) as R. rewrite Q in R. cbn in R. destruct U4. lia.
  - specialize (U4 ltac:(lia)). destruct U4 as [S0 C0']. injection E as <-. gm H s N i k (@nil (list frame)).
    + rewrite C0'. cbn. lia.
  - injection E as <-. gm H s N i k (@nil (list frame)).
  - cbv zeta in E. destruct (Z.eqb_spec (cn (fl s)) 0) as [C|C]; injection E as <-; [gm H s N i k (@nil (list frame))|gm H s N i (J1 :: k) (@nil (list frame))].
  - destruct (feq _ _); [|discriminate]. injection E as <-. gm H s N i k (@nil (list frame)).
Qed.
Lemma exec_mono : forall s a s', exec s a = Some s' -> (usr s' = true -> usr s = true) /\ exists e, log s' = log s ++ e.
Proof.
  intros s a s' E. destruct a as [i|t| | |i|]; cbn [exec] in E.
  - destruct (nth_error (ag s) i) as [[|f k]|]; try discriminate. destruct f; cbn [step look] in E; unfold look in E; cbv zeta in E;
      repeat match goal with H : context [match ?x with _ => _ end] |- _ => destruct x; try discriminate end; injection E as <-; cbn [usr log say put add w_fl w_q]; (split; [auto|eexists; try reflexivity; symmetry; apply app_nil_r]).
  - destruct (usr s) eqn:U; [|discriminate]. injection E as <-. cbn. split; [auto|exists []; symmetry; apply app_nil_r].
  - destruct (usr s) eqn:U; [|discriminate]. injection E as <-. cbn. split; [auto|exists []; symmetry; apply app_nil_r].
  - destruct (usr s) eqn:U; [|discriminate]. injection E as <-. cbn. split; [auto|eexists; reflexivity].
  - destruct (nth_error (ag s) i) as [[|[] k]|]; try discriminate. destruct b; [|discriminate]. injection E as <-. cbn. split; [auto|eexists; reflexivity].
  - destruct (usr s && _) eqn:U; [|discriminate]. apply andb_true_iff in U. destruct U as [U _]. destruct (Nat.eqb _ 0); injection E as <-; cbn; (split; [discriminate|exists []; symmetry; apply app_nil_r]).
Qed.
Lemma exec_good : forall s a s', exec s a = Some s' -> good s' -> good s.
Proof. intros s a s' E [G1 G2]. destruct (exec_mono _ _ _ E) as (M1 & e & M2). split; [auto|]. rewrite M2 in G2. apply (calm_app _ _ G2). Qed.
Lemma exec_G : forall s a s', Inv s -> G s -> good s' -> exec s a = Some s' -> G s'.
Proof.
  intros s a s' I H GD E. destruct a as [i|t| | |i|]; cbn [exec] in E.
  - destruct (nth_error (ag s) i) as [[|f k]|] eqn:N; try discriminate. eapply step_G; eauto.
  - destruct (usr s); [|discriminate]. injection E as <-. destruct H as [a b c d e g]. assert (C : forall w, ct w (add s [P1 t]) = ct w s + w (P1 t)) by (intros w; unfold ct; cbn; rewrite suml_app; cbn; lia).
    split; rewrite ?C; cbn [fl q log add p4 w45 tok cf p7]; rewrite ?Nat.add_0_r; assumption.
  - destruct (usr s); [|discriminate]. injection E as <-. destruct H as [a b c d e g]. assert (C : forall w, ct w (add s [J0]) = ct w s + w J0) by (intros w; unfold ct; cbn; rewrite suml_app; cbn; lia).
    split; rewrite ?C; cbn [fl q log add p4 w45 tok cf p7]; rewrite ?Nat.add_0_r; assumption.
  - destruct (usr s); [|discriminate]. injection E as <-. exfalso. destruct GD as (_ & GD & _). apply GD. cbn. apply in_or_app. right. left. reflexivity.
  - destruct (nth_error (ag s) i) as [[|[] k]|]; try discriminate. destruct b; [|discriminate]. injection E as <-. exfalso. destruct GD as (_ & _ & GD & _). apply GD. cbn. apply in_or_app. right. left. reflexivity.
  - destruct (usr s && _); [|discriminate]. exfalso. destruct GD as (GD & _). destruct (Nat.eqb _ 0); injection E as <-; discriminate.
Qed.
Lemma run_G : forall l s s', Inv s -> (good s -> G s) -> run s l = Some s' -> good s' -> G s'.
Proof.
  induction l as [|a l IH]; intros s s' I H R GD; cbn in R; [injection R as <-; auto|]. destruct (exec s a) as [s1|] eqn:E; [|discriminate]. apply (IH s1); auto; [eapply exec_inv; eauto|].
  intros G1. eapply exec_G; eauto. apply H. eapply exec_good; eauto.
Qed.
Lemma init_G : G init.
Proof. split; try reflexivity; try discriminate. intros Q. cbv in Q. lia. Qed.
Lemma reach_inv : forall l s, run init l = Some s -> Inv s.
Proof. intros l s H. eapply run_inv; [apply init_inv|exact H]. Qed.
Lemma reach_G : forall l s, run init l = Some s -> good s -> G s.
Proof. intros l s H GD. eapply run_G; [apply init_inv|intros _; apply init_G|exact H|exact GD]. Qed.
