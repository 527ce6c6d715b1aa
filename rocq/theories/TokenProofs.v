(** Who owns which handle: the invariants of the token caches. *)
From Coq Require Import List Bool Arith Lia.
From Verif Require Import Slots SlotsProofs Threads TokenModel.
Import ListNotations.

Definition eq1 (g h : nat) : nat := if Nat.eqb g h then 1 else 0.
Fixpoint ch (g : nat) (l : list nat) : nat := match l with [] => 0 | h :: r => eq1 h g + ch g r end.
Definition c1 (g : nat) (o : option nat) : nat := match o with Some h => eq1 h g | None => 0 end.
Definition ol (o : option nat) : list nat := match o with Some h => [h] | None => [] end.
(** The handles a call holds. *)
Definition hs (f : frame) : list nat :=
  match f with
  | S2 h | S6 h => [h] | S3 h p => [h; p] | S4 h p t | S5 h p t => [h; p; t]
  | L2 c | L3 c => [c] | L4 c t => t :: ol c
  | I3 h => [h]
  | Q4 _ p | Q5 p _ | Q6 p _ | Q8 p _ _ => ol p
  | Q7 p _ x => x :: ol p
  | _ => []
  end.
Definition cn (s : st) (g : nat) : nat := ch g (map fst (opn s)).
Definition ca (s : st) (g : nat) : nat := c1 g (cs s) + c1 g (cl s) + c1 g (ci s).
Definition hsl (l : list frame) : list nat := flat_map hs l.

Lemma eq1_ne : forall g h, g <> h -> eq1 g h = 0.
Proof. intros g h N. unfold eq1. destruct (Nat.eqb_spec g h); [contradiction|reflexivity]. Qed.
Lemma eq1_eq : forall g, eq1 g g = 1.
Proof. intros g. unfold eq1. rewrite Nat.eqb_refl. reflexivity. Qed.
Lemma ch_app : forall g a b, ch g (a ++ b) = ch g a + ch g b.
Proof. induction a as [|x a IH]; intros b; cbn; [reflexivity|]. rewrite IH. lia. Qed.
Lemma kd_open : forall l h, 1 <= ch h (map fst l) <-> kd l h <> None.
Proof.
  induction l as [|[g k] l IH]; intros h; cbn; [split; [lia|congruence]|]. unfold eq1. destruct (Nat.eqb_spec g h).
  - split; [discriminate|lia].
  - apply IH.
Qed.
Lemma ch_filter : forall l h g, ch g (map fst (filter (fun p : nat * kind => negb (Nat.eqb (fst p) h)) l)) = if Nat.eqb h g then 0 else ch g (map fst l).
Proof.
  induction l as [|[x k] l IH]; intros h g; cbn; [destruct (Nat.eqb h g); reflexivity|].
  destruct (Nat.eqb_spec x h); cbn; rewrite IH; destruct (Nat.eqb_spec h g); subst; try reflexivity.
  - rewrite eq1_ne by congruence. reflexivity.
  - rewrite eq1_ne by congruence. reflexivity.
Qed.
Lemma kd_filter : forall l h g, h <> g -> kd (filter (fun p : nat * kind => negb (Nat.eqb (fst p) h)) l) g = kd l g.
Proof.
  induction l as [|[x k] l IH]; intros h g N; cbn; [reflexivity|].
  destruct (Nat.eqb_spec x h); cbn; destruct (Nat.eqb_spec x g); subst; try contradiction; try apply IH; auto.
Qed.
Fixpoint closes (s : st) (i : nat) (l : list nat) : st := match l with [] => s | h :: r => closes (close s i h) i r end.
Lemma closes_ok : forall l s i, (forall g, cn s g <= 1) -> (forall g, ch g l <= cn s g) ->
  exists o, closes s i l = w_opn s o /\ (forall g, ch g (map fst o) + ch g l = cn s g) /\ (forall g, ch g l = 0 -> kd o g = kd (opn s) g).
Proof.
  induction l as [|h l IH]; intros s i U C; cbn.
  - exists (opn s). split; [destruct s; reflexivity|]. split; [intros g; unfold cn; lia|auto].
  - assert (O : kd (opn s) h <> None) by (apply kd_open; specialize (C h); cbn in C; rewrite eq1_eq in C; unfold cn in C; lia).
    unfold close. destruct (kd (opn s) h) as [k|] eqn:K; [|contradiction].
    set (s1 := w_opn s _).
    assert (C1 : forall g, cn s1 g = if Nat.eqb h g then 0 else cn s g) by (intros g; unfold cn, s1; cbn; apply ch_filter).
    destruct (IH s1 i) as (o & E & P & Q).
    + intros g. rewrite C1. specialize (U g). destruct (Nat.eqb h g); lia.
    + intros g. rewrite C1. specialize (C g). specialize (U g). cbn in C. unfold eq1 in C. destruct (Nat.eqb h g); lia.
    + exists o. split; [rewrite E; reflexivity|]. split.
      * intros g. specialize (P g). rewrite C1 in P. specialize (C g). specialize (U g). cbn in C. unfold eq1 in *. destruct (Nat.eqb h g); lia.
      * intros g Z. unfold eq1 in Z. destruct (Nat.eqb_spec h g); [lia|]. rewrite (Q g) by lia. cbn. apply kd_filter. exact n.
Qed.

(** What one step of a call does to the handles. *)
Definition Pre (s : st) (f : frame) : Prop :=
  (forall g, cn s g <= 1) /\ (forall g, ca s g + ch g (hs f) <= cn s g) /\ (forall g, nx s <= g -> cn s g = 0).
Record Post (s : st) (i : nat) (f : frame) (s' : st) (l : list frame) : Prop := {
  p_bal : forall g, cn s' g + ca s g + ch g (hs f) = cn s g + ca s' g + ch g (hsl l);
  p_one : forall g, cn s' g <= 1;
  p_new : forall g, nx s' <= g -> cn s' g = 0;
  p_nx : nx s <= nx s';
  p_ag : ag s' = ag s;
  p_el : el s' = el s;
  p_cs : forall h, cs s = Some h -> cs s' = Some h;
  p_cl : forall h, cl s = Some h -> cl s' = Some h;
  p_ci : forall h, ci s = Some h -> ci s' = Some h;
  p_se : forall e, se s = Some e -> se s' = Some e;
  p_kd : forall g, 1 <= cn s' g -> g < nx s -> kd (opn s') g = kd (opn s) g;
  p_log : exists new, log s' = log s ++ new /\ forall j e, In (j, e) new -> j = i /\ e <> EBad }.
Ltac bools := repeat match goal with |- context [Nat.eqb ?a ?b] => destruct (Nat.eqb_spec a b); subst | H : context [Nat.eqb ?a ?b] |- _ => destruct (Nat.eqb_spec a b); subst end.
Ltac lg := first [exists []; split; [symmetry; apply app_nil_r|intros ? ? []]
  |eexists [_]; split; [reflexivity|intros ? ? [X|[]]; injection X as <- <-; split; [reflexivity|discriminate]]
  |eexists [_; _]; cbn; rewrite <- ?app_assoc; split; [reflexivity|intros ? ? [X|[X|[]]]; injection X as <- <-; split; (reflexivity || discriminate)]].
(** A step that closes [L] and then only logs. *)
Lemma post_same : forall s i f l, Pre s f -> (forall g, ch g (hs f) = ch g (hsl l)) -> Post s i f s l.
Proof.
  intros s i f l (U & C & N) H. constructor; try solve [auto]; try lia; try lg.
Qed.
Lemma ca_w_opn : forall s o g, ca (w_opn s o) g = ca s g.
Proof. reflexivity. Qed.
Lemma body_post : forall s i c f a s' c' l, Pre s f -> body s i c f a = Some (s', c', l) -> Post s i f s' l.
Proof.
  intros s i c f a s' c' l (U & C & N) E.
  assert (FR : cn s (nx s) = 0) by (apply N; lia).
  assert (CF : ca s (nx s) + ch (nx s) (hs f) <= 0) by (rewrite <- FR; apply C).
  destruct f, a; cbn in E; try discriminate;
  repeat match type of E with
    | context [match ?x with _ => _ end] => (match x with close' _ _ ?p => fail 1 | _ => idtac end); destruct x eqn:?; try discriminate
    end; injection E as <- <- <-;
  try (apply post_same; [split; [exact U|split; [exact C|exact N]]|intros g; cbn; lia]).
  all: cbn [hs ol ch] in C.
  all: unfold close'.
  all: repeat match goal with |- context [match ?p with Some _ => _ | None => _ end] => is_var p; destruct p end.
  all: cbn [hs ol ch] in C.
  all: repeat match goal with
       | |- context [close (close ?s0 ?j ?x) ?j ?y] =>
           change (close (close s0 j x) j y) with (closes s0 j [x; y]);
           destruct (closes_ok [x; y] s0 j) as (o_ & EQ & CN & KD);
             [exact U| intros g; specialize (C g); unfold cn in *; cbn in *; lia | rewrite EQ; clear EQ]
       | |- context [close ?s0 ?j ?x] =>
           change (close s0 j x) with (closes s0 j [x]);
           destruct (closes_ok [x] s0 j) as (o_ & EQ & CN & KD);
             [exact U| intros g; specialize (C g); unfold cn in *; cbn in *; lia | rewrite EQ; clear EQ]
       end.
  all: constructor;
    [ intros g; unfold cn, ca in *; cbn in *; try (specialize (CN g)); specialize (C g); unfold c1 in *;
      repeat match goal with H : ?x = Some _ |- _ => rewrite H in * | H : ?x = None |- _ => rewrite H in * end; cbn in *; rewrite ?app_nil_r in *; unfold eq1 in *; try lia
    | intros g; unfold cn, ca in *; cbn in *; try (specialize (CN g)); specialize (U g); try (unfold eq1 in *; destruct (Nat.eqb_spec (nx s) g); subst); cbn in *; try lia
    | intros g G; pose proof (N g) as NG; unfold cn in *; cbn in *; try (specialize (CN g)); try (unfold eq1 in *; destruct (Nat.eqb_spec (nx s) g); subst); cbn in *; lia
    | cbn; lia | reflexivity | reflexivity | cbn; intros; congruence | cbn; intros; congruence | cbn; intros; congruence | cbn; intros; congruence
    | intros g G1 G2; unfold cn in *; cbn in *; try (specialize (CN g)); specialize (U g); specialize (C g);
      try (apply KD; cbn; unfold eq1 in *; lia); try (destruct (Nat.eqb_spec (nx s) g); [lia|]); try reflexivity
    | cbn; try lg ].
Qed.

Lemma hsl_cons : forall f k, hsl (f :: k) = hs f ++ hsl k.
Proof. reflexivity. Qed.
Definition INV (s : st) : Prop :=
  (forall g, cn s g = ca s g + suml (fun a => ch g (hsl (stk a))) (ag s)) /\ (forall g, cn s g <= 1) /\ (forall g, nx s <= g -> cn s g = 0) /\
  (forall j, ~ In (j, EBad) (log s)) /\ (forall j e, In (j, e) (log s) -> j < length (ag s)).
Lemma inv_pre : forall s i o c f k, INV s -> nth_error (ag s) i = Some (AG o c (f :: k)) -> Pre s f.
Proof.
  intros s i o c f k (A & B & C & _) G. split; [exact B|]. split; [|exact C]. intros g. rewrite A.
  pose proof (suml_ge _ (fun a => ch g (hsl (stk a))) _ _ _ G) as X. cbn [stk] in X. rewrite hsl_cons, ch_app in X. lia.
Qed.
Lemma suml_snoc : forall A (f : A -> nat) l x, suml f (l ++ [x]) = suml f l + f x.
Proof. induction l as [|y l IH]; intros x; cbn; [lia|]. rewrite IH. lia. Qed.
Lemma hsl_app : forall a b, hsl (a ++ b) = hsl a ++ hsl b.
Proof. intros. unfold hsl. apply flat_map_app. Qed.
(** A step, opened up. *)
Lemma step_inv : forall s i a s', exec s (Step i a) = Some s' ->
  exists o c f k s1 c' l, nth_error (ag s) i = Some (AG o c (f :: k)) /\ body s i c f a = Some (s1, c', l) /\ s' = w_ag s1 (set (ag s) i (AG o c' (l ++ k))).
Proof.
  intros s i a s' E. cbn in E. destruct (nth_error (ag s) i) as [[o c [|f k]]|] eqn:G; try discriminate.
  destruct (body s i c f a) as [[[s1 c'] l]|] eqn:B; [|discriminate]. injection E as <-. exists o, c, f, k, s1, c', l. auto.
Qed.
Lemma exec_INV : forall s a s', INV s -> exec s a = Some s' -> INV s'.
Proof.
  intros s a s' I E. destruct a as [c u|i a].
  - destruct I as (A & B & C & D & F). injection E as <-. split; [|split; [exact B|split; [exact C|split; [exact D|]]]].
    + intros g. cbn [ag w_ag]. rewrite suml_snoc. pose proof (A g) as X. change (cn (w_ag s _) g) with (cn s g). change (ca (w_ag s _) g) with (ca s g). destruct c; cbn [stk entry hsl flat_map hs app ch]; lia.
    + intros j e J. cbn. rewrite app_length. cbn. specialize (F j e J). lia.
  - destruct (step_inv _ _ _ _ E) as (o & c & f & k & s1 & c' & l & G & Bd & ->). pose proof (inv_pre _ _ _ _ _ _ I G) as P.
    destruct (body_post _ _ _ _ _ _ _ _ P Bd) as [b1 b2 b3 b4 b5 b6 b7 b8 b9 b10 b11 (new & L & LN)].
    destruct I as (A & B & C & D & F). split; [|split; [exact b2|split; [exact b3|split]]].
    + intros g. cbn [ag w_ag]. change (cn (w_ag s1 _) g) with (cn s1 g). change (ca (w_ag s1 _) g) with (ca s1 g).
      pose proof (suml_set _ (fun a => ch g (hsl (stk a))) _ _ _ (AG o c' (l ++ k)) G) as X. cbn [stk] in X. rewrite hsl_app, hsl_cons, !ch_app in X.
      specialize (b1 g). specialize (A g). lia.
    + intros j J. cbn in J. rewrite L in J. apply in_app_or in J. destruct J as [J|J]; [exact (D j J)|]. destruct (LN _ _ J) as (_ & Z). congruence.
    + intros j e J. cbn in J |- *. rewrite set_length. rewrite L in J. apply in_app_or in J. destruct J as [J|J]; [exact (F j e J)|].
      destruct (LN _ _ J) as (-> & _). apply nth_error_Some. rewrite G. discriminate.
Qed.
Lemma init_INV : forall e, INV (init e).
Proof. intros e. split; [reflexivity|]. split; [intros g; cbn; lia|]. split; [reflexivity|]. split; [intros j []|intros j e0 []]. Qed.
Lemma run_INV : forall l s s', INV s -> run s l = Some s' -> INV s'.
Proof.
  induction l as [|a l IH]; intros s s' I R; cbn in R; [injection R as <-; exact I|].
  destruct (exec s a) eqn:E; [|discriminate]. eapply IH; [eapply exec_INV; eassumption|exact R].
Qed.
(** What no step changes. *)
Definition Mono (s s' : st) : Prop :=
  el s' = el s /\ (forall h, cs s = Some h -> cs s' = Some h) /\ (forall h, cl s = Some h -> cl s' = Some h) /\ (forall h, ci s = Some h -> ci s' = Some h) /\
  (forall e, se s = Some e -> se s' = Some e) /\ (exists new, log s' = log s ++ new) /\ nx s <= nx s' /\
  (forall g, 1 <= cn s g -> 1 <= cn s' g -> kd (opn s') g = kd (opn s) g).
Lemma exec_Mono : forall s a s', INV s -> exec s a = Some s' -> Mono s s'.
Proof.
  intros s a s' I E. destruct a as [c u|i a].
  - injection E as <-. do 5 (split; [auto|]). split; [exists []; symmetry; apply app_nil_r|auto].
  - destruct (step_inv _ _ _ _ E) as (o & c & f & k & s1 & c' & l & G & Bd & ->). pose proof (inv_pre _ _ _ _ _ _ I G) as P.
    destruct (body_post _ _ _ _ _ _ _ _ P Bd) as [b1 b2 b3 b4 b5 b6 b7 b8 b9 b10 b11 (new & L & LN)].
    destruct I as (_ & _ & N & _). split; [exact b6|]. split; [exact b7|]. split; [exact b8|]. split; [exact b9|]. split; [exact b10|]. split; [exists new; exact L|]. split; [exact b4|].
    intros g G1 G2. apply b11; [exact G2|]. destruct (Nat.lt_ge_cases g (nx s)) as [Lt|Ge]; [exact Lt|]. rewrite (N g Ge) in G1. lia.
Qed.
(** The kind of a cached handle, or of one that a call holds, does not change either. *)
Lemma cached_open : forall s h, INV s -> cs s = Some h \/ cl s = Some h \/ ci s = Some h -> 1 <= cn s h.
Proof. intros s h (A & _) H. rewrite A. unfold ca, c1. destruct H as [H|[H|H]]; rewrite H; rewrite eq1_eq; lia. Qed.
Lemma held_open : forall s i a h, INV s -> nth_error (ag s) i = Some a -> In h (hsl (stk a)) -> 1 <= cn s h.
Proof.
  intros s i a h (A & _) G H. rewrite A. pose proof (suml_ge _ (fun a => ch h (hsl (stk a))) _ _ _ G) as X. cbn in X.
  assert (Y : 1 <= ch h (hsl (stk a))); [|lia]. clear -H. induction (hsl (stk a)) as [|x r IH]; [destruct H|]. cbn. destruct H as [->|H]; [rewrite eq1_eq; lia|specialize (IH H); lia].
Qed.
Lemma run_Mono : forall l s s', INV s -> run s l = Some s' ->
  el s' = el s /\ (forall h, cs s = Some h -> cs s' = Some h) /\ (forall h, cl s = Some h -> cl s' = Some h) /\ (forall h, ci s = Some h -> ci s' = Some h) /\
  (forall e, se s = Some e -> se s' = Some e) /\ (exists new, log s' = log s ++ new) /\
  (forall h, cs s = Some h \/ cl s = Some h \/ ci s = Some h -> kd (opn s') h = kd (opn s) h).
Proof.
  induction l as [|a l IH]; intros s s' I R; cbn in R.
  - injection R as <-. do 5 (split; [auto|]). split; [exists []; symmetry; apply app_nil_r|auto].
  - destruct (exec s a) as [s1|] eqn:E; [|discriminate]. pose proof (exec_INV _ _ _ I E) as I1.
    destruct (exec_Mono _ _ _ I E) as (a1 & a2 & a3 & a4 & a5 & (n1 & a6) & _ & a8). destruct (IH _ _ I1 R) as (b1 & b2 & b3 & b4 & b5 & (n2 & b6) & b7).
    split; [congruence|]. split; [auto|]. split; [auto|]. split; [auto|]. split; [auto|]. split; [exists (n1 ++ n2); rewrite b6, a6, app_assoc; reflexivity|].
    intros h H. assert (H1 : cs s1 = Some h \/ cl s1 = Some h \/ ci s1 = Some h) by (destruct H as [H|[H|H]]; auto).
    rewrite (b7 h H1). apply a8; eapply cached_open; eassumption.
Qed.

(** Kinds. *)
Definition ksys (k : option kind) : Prop := exists b, k = Some (KSys b).
Definition kimp (k : option kind) : Prop := exists b, k = Some (KImp b).
Definition klim (e : elev) (k : option kind) : Prop := (e = Full /\ exists b, k = Some (KLnk b)) \/ (e = Limited /\ k = Some KCur).
Definition fk (s : st) (f : frame) : Prop :=
  match f with
  | S4 _ _ t | S5 _ _ t => ksys (kd (opn s) t)
  | L2 c => kd (opn s) c = Some KCur
  | L3 c => el s = Full
  | L4 _ t => klim (el s) (kd (opn s) t)
  | I3 h => kimp (kd (opn s) h)
  | _ => True
  end.
Definition CK (s : st) : Prop :=
  (forall h, cs s = Some h -> ksys (kd (opn s) h)) /\ (forall h, cl s = Some h -> klim (el s) (kd (opn s) h)) /\ (forall h, ci s = Some h -> kimp (kd (opn s) h)).
Definition KI (s : st) : Prop := CK s /\ forall i a f, nth_error (ag s) i = Some a -> In f (stk a) -> fk s f.
Lemma ch_in : forall h l, In h l -> 1 <= ch h l.
Proof. induction l as [|x r IH]; intros H; [destruct H|]. cbn. destruct H as [->|H]; [rewrite eq1_eq; lia|specialize (IH H); lia]. Qed.
Lemma keep : forall s i f s' l g, Pre s f -> Post s i f s' l -> 1 <= ca s' g + ch g (hsl l) -> 1 <= ca s g + ch g (hs f) -> kd (opn s') g = kd (opn s) g.
Proof.
  intros s i f s' l g (U & C & N) P X Y. apply (p_kd _ _ _ _ _ P).
  - pose proof (p_bal _ _ _ _ _ P g). specialize (C g). lia.
  - destruct (Nat.lt_ge_cases g (nx s)) as [Lt|Ge]; [exact Lt|]. specialize (C g). rewrite (N g Ge) in C. lia.
Qed.
Lemma ca_cs : forall s h, cs s = Some h -> 1 <= ca s h.
Proof. intros s h H. unfold ca, c1. rewrite H, eq1_eq. lia. Qed.
Lemma ca_cl : forall s h, cl s = Some h -> 1 <= ca s h.
Proof. intros s h H. unfold ca, c1. rewrite H, eq1_eq. lia. Qed.
Lemma ca_ci : forall s h, ci s = Some h -> 1 <= ca s h.
Proof. intros s h H. unfold ca, c1. rewrite H, eq1_eq. lia. Qed.
Lemma close_fields : forall s i h, cs (close s i h) = cs s /\ cl (close s i h) = cl s /\ ci (close s i h) = ci s /\ el (close s i h) = el s /\ se (close s i h) = se s.
Proof. intros. unfold close. destruct (kd (opn s) h); cbn; auto. Qed.
Lemma close'_fields : forall s i h, cs (close' s i h) = cs s /\ cl (close' s i h) = cl s /\ ci (close' s i h) = ci s /\ el (close' s i h) = el s /\ se (close' s i h) = se s.
Proof. intros. destruct h; [apply close_fields|cbn; auto]. Qed.
Ltac fld := rewrite ?(fun s i h => proj1 (close_fields s i h)), ?(fun s i h => proj1 (proj2 (close_fields s i h))), ?(fun s i h => proj1 (proj2 (proj2 (close_fields s i h)))),
  ?(fun s i h => proj1 (proj2 (proj2 (proj2 (close_fields s i h))))), ?(fun s i h => proj2 (proj2 (proj2 (proj2 (close_fields s i h))))),
  ?(fun s i h => proj1 (close'_fields s i h)), ?(fun s i h => proj1 (proj2 (close'_fields s i h))), ?(fun s i h => proj1 (proj2 (proj2 (close'_fields s i h)))),
  ?(fun s i h => proj1 (proj2 (proj2 (proj2 (close'_fields s i h))))), ?(fun s i h => proj2 (proj2 (proj2 (proj2 (close'_fields s i h))))).
Lemma body_kinds : forall s i c f a s' c' l, Pre s f -> CK s -> fk s f -> body s i c f a = Some (s', c', l) -> CK s' /\ forall x, In x l -> fk s' x.
Proof.
  intros s i c f a s' c' l P (K1 & K2 & K3) F E. pose proof (body_post _ _ _ _ _ _ _ _ P E) as PO.
  assert (KEEP : forall g, 1 <= ca s' g + ch g (hsl l) -> 1 <= ca s g + ch g (hs f) -> kd (opn s') g = kd (opn s) g) by (intros; eapply keep; eassumption).
  assert (CS : (forall h, cs s' = Some h -> cs s = Some h \/ ((exists x p, f = S5 x p h))) /\
               (forall h, cl s' = Some h -> cl s = Some h \/ (exists x, f = L4 x h)) /\
               (forall h, ci s' = Some h -> ci s = Some h \/ f = I3 h)).
  { clear KEEP PO P K1 K2 K3 F. destruct f, a; cbn in E; try discriminate;
    repeat match type of E with
      | context [match ?x with _ => _ end] => (match x with close' _ _ ?p => fail 1 | _ => idtac end); destruct x eqn:?; try discriminate
      end; injection E as <- <- <-; cbn; fld; cbn; fld; cbn; repeat split; intros h0 H; cbn in *;
      first [left; congruence|right; injection H as <-; eauto]. }
  destruct CS as (C1 & C2 & C3). rewrite <- (p_el _ _ _ _ _ PO) in K2. split; [split; [|split]|].
  - intros h H. rewrite KEEP; [|pose proof (ca_cs _ _ H); lia|].
    + destruct (C1 h H) as [X|(x & p & ->)]; [exact (K1 h X)|exact F].
    + destruct (C1 h H) as [X|(x & p & ->)]; [pose proof (ca_cs _ _ X); lia|]. cbn. rewrite eq1_eq. lia.
  - intros h H. rewrite KEEP; [|pose proof (ca_cl _ _ H); lia|].
    + destruct (C2 h H) as [X|(x & ->)]; [exact (K2 h X)|]. rewrite (p_el _ _ _ _ _ PO). exact F.
    + destruct (C2 h H) as [X|(x & ->)]; [pose proof (ca_cl _ _ X); lia|]. cbn. rewrite eq1_eq. lia.
  - intros h H. rewrite KEEP; [|pose proof (ca_ci _ _ H); lia|].
    + destruct (C3 h H) as [X| ->]; [exact (K3 h X)|exact F].
    + destruct (C3 h H) as [X| ->]; [pose proof (ca_ci _ _ X); lia|]. cbn. rewrite eq1_eq. lia.
  - clear KEEP PO P C1 C2 C3. destruct f, a; cbn in E; try discriminate;
    repeat match type of E with
      | context [match ?x with _ => _ end] => (match x with close' _ _ ?p => fail 1 | _ => idtac end); destruct x eqn:?; try discriminate
      end; injection E as <- <- <-; intros y X; cbn in X; repeat (destruct X as [<-|X]; [|]); try destruct X; cbn in *; rewrite ?Nat.eqb_refl; auto;
      try (eexists; reflexivity); try (left; split; [assumption|eexists; reflexivity]); try (right; split; [assumption|assumption]).
Qed.
