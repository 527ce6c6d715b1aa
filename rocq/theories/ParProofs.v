(** Specification and invariant for the parallel task runner (C61, C83, C84, C85). *)
From Coq Require Import List ZArith Bool Arith Lia Permutation.
From Verif Require Import Slots SlotsProofs Threads ParModel.
Import ListNotations.

(** * Specification *)
Definition accs (l : list event) : list nat := flat_map (fun e => match e with EAcc t _ => [t] | _ => [] end) l.
Definition pushes (l : list event) : list nat := flat_map (fun e => match e with EPush t => [t] | _ => [] end) l.
Definition takes (l : list event) : list nat := flat_map (fun e => match e with EStart t | ECan t => [t] | _ => [] end) l.
Definition starts (l : list event) : list nat := flat_map (fun e => match e with EStart t => [t] | _ => [] end) l.
Definition ends (l : list event) : list nat := flat_map (fun e => match e with EEnd t => [t] | _ => [] end) l.
(** How often the last worker left without releasing the runner. *)
Definition zeros (l : list event) : nat := suml (fun e => match e with EZero => 1 | _ => 0 end) l.
(** The number of tasks running: those started and not ended. *)
Definition running (s : st) : nat := length (starts (log s)) - length (ends (log s)).
(** Threads in Push, in Pop, in PostTask, workers running or scheduled. *)
Definition pushing (s : st) (i : nat) : Prop := exists t b o k, nth_error (ag s) i = Some (P4 t b o :: k).
Definition popping (s : st) (i : nat) : Prop := exists f k, nth_error (ag s) i = Some (f :: k) /\ (f = W3 \/ f = C1).
Definition isq (f : frame) : bool := match f with P0 _ | P1 _ | P2 _ _ | P3 _ _ _ | P4 _ _ _ | P5 _ _ | P6 _ _ | P9 | P7 | P8 => true | _ => false end.
Definition isw (f : frame) : bool := match f with W0 | W1 | W1i | W2 | W3 | W3u _ | W4 _ | W5 | W6 _ => true | _ => false end.
Definition posting (s : st) : Prop := exists i f k, nth_error (ag s) i = Some (f :: k) /\ isq f = true.
Definition working (s : st) : Prop := exists i f k, nth_error (ag s) i = Some (f :: k) /\ isw f = true.
Definition idle (s : st) : Prop := forall i k, nth_error (ag s) i = Some k -> k = [].
(** Nothing out of the ordinary happened. *)
Definition odd (e : event) : bool := match e with EInt | EFail | ENull | EFull | EAlone | EAcc _ true => true | _ => false end.
Definition calm (l : list event) : Prop := forall e, In e l -> odd e = false.

(** * Proofs *)
Definition b1 (b : bool) : nat := if b then 1 else 0.
Definition tok (f : frame) : nat := match f with P4 _ b _ | P5 b _ | P6 b _ => b1 b | P9 | P7 | P8 | W0 | W1 | W1i | W2 | W3 | W3u _ | W4 _ | W5 | W6 _ | X0 => 1 | _ => 0 end.
Definition hold (f : frame) : nat := match f with W3 | W3u _ | C1 | C2 => 1 | _ => 0 end.
Definition po (f : frame) : nat := match f with P4 _ b o | P5 b o | P6 b o => b1 (b && o) | _ => 0 end.
Definition rl (f : frame) : nat := match f with RL => 1 | _ => 0 end.
Definition dt (f : frame) : nat := match f with DT => 1 | _ => 0 end.
Definition p4t (f : frame) : list nat := match f with P4 t _ _ => [t] | _ => [] end.
Definition rut (f : frame) : list nat := match f with W3u (Some t) | W4 t => [t] | _ => [] end.
Definition cl (w : frame -> nat) (l : list (list frame)) : nat := suml (suml w) l.
Definition fm (g : frame -> list nat) (l : list (list frame)) : list nat := flat_map (flat_map g) l.
Arguments cl : simpl never.
Arguments fm : simpl never.
Arguments accs : simpl never.
Arguments takes : simpl never.
Arguments pushes : simpl never.
Arguments starts : simpl never.
Arguments ends : simpl never.
Arguments zeros : simpl never.
Definition shape (k : list frame) : Prop :=
  match k with
  | [] => True
  | f :: k =>
      match f with
      | P0 _ | P1 _ | P2 _ _ | P3 _ _ _ | P4 _ _ _ | P5 _ _ | P6 _ _ | P9 | P7 | P8 | J0 | J1 | T0 | T1 | T2 | T3 => k = []
      | W0 | W1 | W1i | W2 | W3 | W3u _ | W4 _ | W5 | W6 _ | X0 => k = [T0]
      | RL | DT => k = [] \/ k = [T0]
      | C0 | C1 | C2 => k = [] \/ k = [DT] \/ k = [DT; T0]
      end
  end.
Definition fok (h : Z) (f : frame) : Prop :=
  match f with P2 _ m => (1 <= m <= h)%Z | P3 _ m f => (1 <= m <= h)%Z /\ lk f = false | _ => True end.
Record V (s : st) : Prop := {
  v_sh : forall i k, nth_error (ag s) i = Some k -> shape k;
  v_m : (1 <= mx s <= hm s /\ hm s < PW)%Z;
  v_f : forall i k f, nth_error (ag s) i = Some k -> In f k -> fok (hm s) f;
  v_pr : pr (fl s) = Z.of_nat (cl tok (ag s));
  v_hm : (pr (fl s) <= hm s)%Z;
  v_cn : (0 <= cn (fl s) < CW)%Z;
  v_pl : cl hold (ag s) = b1 (pl (fl s));
  v_q : pushes (log s) = takes (log s) ++ q s;
  v_po : cl po (ag s) <= 1;
  v_rc : rc s + cl po (ag s) = us s + b1 (0 <? pr (fl s))%Z + cl rl (ag s) + zeros (log s);
  v_us : us s = 0 -> forall i k, nth_error (ag s) i = Some k -> user k = false;
  v_dt : cl dt (ag s) + b1 (fre s) = if Nat.eqb (rc s) 0 then 1 else 0;
  v_ua : uaf s = true -> fre s = true;
  v_ac : Permutation (accs (log s)) (pushes (log s) ++ fm p4t (ag s));
  v_ru : Permutation (starts (log s)) (ends (log s) ++ fm rut (ag s)) }.

Lemma suml_app : forall T (f : T -> nat) a b, suml f (a ++ b) = suml f a + suml f b.
Proof. induction a as [|x a IH]; intros b; cbn; [reflexivity|]. rewrite IH. lia. Qed.
Lemma cl_set : forall w l i kk kk', nth_error l i = Some kk -> cl w (set l i kk') + suml w kk = cl w l + suml w kk'.
Proof. intros w l i kk kk' N. apply (suml_set _ (suml w) _ _ _ kk' N). Qed.
Lemma cl_add : forall w l k, cl w (l ++ [k]) = cl w l + suml w k.
Proof. intros w l k. unfold cl. rewrite suml_app. cbn. lia. Qed.
Lemma cl_ge : forall w l i kk, nth_error l i = Some kk -> suml w kk <= cl w l.
Proof. intros w l i kk N. apply (suml_ge _ (suml w) _ _ _ N). Qed.
Lemma cl_le : forall w w', (forall f, w f <= w' f) -> forall l, cl w l <= cl w' l.
Proof. intros w w' H. unfold cl. induction l as [|k l IH]; cbn; [lia|]. assert (suml w k <= suml w' k) by (clear -H; induction k as [|f k IH]; cbn; [lia|]; specialize (H f); lia). lia. Qed.
Lemma fm_set : forall g l i kk kk', nth_error l i = Some kk -> exists a b, fm g l = a ++ flat_map g kk ++ b /\ fm g (set l i kk') = a ++ flat_map g kk' ++ b.
Proof.
  intros g. unfold fm. induction l as [|x l IH]; intros [|i] kk kk' N; cbn in N; try discriminate.
  - injection N as ->. exists [], (flat_map (flat_map g) l). auto.
  - destruct (IH _ _ kk' N) as (a & b & E1 & E2). exists (flat_map g x ++ a), b. cbn. rewrite E1, E2, <- !app_assoc. auto.
Qed.
Lemma fm_same : forall g l i kk kk', nth_error l i = Some kk -> flat_map g kk' = flat_map g kk -> fm g (set l i kk') = fm g l.
Proof. intros g l i kk kk' N H. destruct (fm_set g _ _ _ kk' N) as (a & b & -> & ->). rewrite H. reflexivity. Qed.
Lemma fm_add : forall g l k, fm g (l ++ [k]) = fm g l ++ flat_map g k.
Proof. intros g l k. unfold fm. rewrite flat_map_app. cbn. rewrite app_nil_r. reflexivity. Qed.
Lemma fm_in : forall g l i kk kk' t, nth_error l i = Some kk -> flat_map g kk' = t :: flat_map g kk -> Permutation (fm g (set l i kk')) (t :: fm g l).
Proof. intros g l i kk kk' t N H. destruct (fm_set g _ _ _ kk' N) as (a & b & -> & ->). rewrite H. cbn. symmetry. apply Permutation_middle. Qed.
Lemma fm_out : forall g l i kk kk' t, nth_error l i = Some kk -> flat_map g kk = t :: flat_map g kk' -> Permutation (fm g l) (t :: fm g (set l i kk')).
Proof. intros g l i kk kk' t N H. destruct (fm_set g _ _ _ kk' N) as (a & b & -> & ->). rewrite H. cbn. symmetry. apply Permutation_middle. Qed.
Lemma accs_app : forall a b, accs (a ++ b) = accs a ++ accs b. Proof. intros. apply flat_map_app. Qed.
Lemma takes_app : forall a b, takes (a ++ b) = takes a ++ takes b. Proof. intros. apply flat_map_app. Qed.
Lemma pushes_app : forall a b, pushes (a ++ b) = pushes a ++ pushes b. Proof. intros. apply flat_map_app. Qed.
Lemma starts_app : forall a b, starts (a ++ b) = starts a ++ starts b. Proof. intros. apply flat_map_app. Qed.
Lemma ends_app : forall a b, ends (a ++ b) = ends a ++ ends b. Proof. intros. apply flat_map_app. Qed.
Lemma zeros_app : forall a b, zeros (a ++ b) = zeros a + zeros b. Proof. intros. apply suml_app. Qed.
Lemma feq_eq : forall a b, feq a b = true -> a = b.
Proof.
  intros [a1 a2 a3 a4 a5 a6] [b1' b2 b3 b4 b5 b6] H. unfold feq in H. cbn in H. repeat (apply andb_true_iff in H; destruct H as [H ?H]). apply eqb_prop in H, H0, H1, H2, H3, H4 || idtac.
  repeat match goal with H : Bool.eqb _ _ = true |- _ => apply eqb_prop in H | H : (_ =? _)%Z = true |- _ => apply Z.eqb_eq in H end. congruence.
Qed.
(** The steps, one case for each branch. *)
Ltac cases E :=
  match type of E with step ?s ?i ?f ?k = Some ?s' =>
    destruct f; cbn [step] in E; unfold look, posted, done in E; cbv zeta in E;
    try match type of E with context [feq (fl s) ?g] => let FE := fresh "FE" in destruct (feq (fl s) g) eqn:FE; [apply feq_eq in FE; subst g|] end;
    repeat match type of E with context [if ?b then _ else _] => let B := fresh "B" in destruct b eqn:B; try discriminate | context [match ?x with _ => _ end] => let B := fresh "B" in destruct x eqn:B; try discriminate end;
    injection E as <-
  end.
Ltac un := cbn [fl q mx hm us rc fre uaf ag log put add say w_fl w_q w_rc w_us] in *.

Lemma tok_pos : forall s i f k, V s -> nth_error (ag s) i = Some (f :: k) -> tok f = 1 -> (1 <= pr (fl s) < PW)%Z.
Proof. intros s i f k I N T. pose proof (cl_ge tok _ _ _ N) as Q. cbn in Q. pose proof (v_pr _ I). pose proof (v_hm _ I). pose proof (v_m _ I). lia. Qed.
Lemma pr_dec : forall s i f k, V s -> nth_error (ag s) i = Some (f :: k) -> tok f = 1 -> ((pr (fl s) - 1) mod PW = pr (fl s) - 1)%Z.
Proof. intros s i f k I N T. pose proof (tok_pos _ _ _ _ I N T). apply Z.mod_small. lia. Qed.
Lemma rc_us : forall s, V s -> us s <= rc s.
Proof.
  intros s I. pose proof (v_rc _ I) as R. pose proof (v_po _ I) as P. pose proof (v_pr _ I) as T. assert (L : cl po (ag s) <= cl tok (ag s)) by (apply cl_le; intros [| | | |? [] []|[] []|[] []| | | | | | | | | | | | | | | | | | | | | | | |]; cbn; lia).
  destruct (Z.ltb_spec 0 (pr (fl s))); cbn in R; lia.
Qed.
Lemma more_lt : forall f m, more f m = true -> (pr f < m)%Z.
Proof. intros f m H. unfold more in H. apply andb_true_iff in H. destruct H as [H _]. apply Z.ltb_lt in H. assumption. Qed.
Ltac prep I N := 
  let SH := fresh "SH" in pose proof (v_sh _ I _ _ N) as SH; cbn [shape] in SH;
  try (match type of SH with ?k = _ => subst k end).
Ltac cnt N w := match goal with |- context [cl w (set ?l ?i ?kk')] => let Q := fresh "Q" in pose proof (cl_set w l i _ kk' N) as Q; cbn [suml w] in Q end.
Lemma step_pr : forall s i f k s', V s -> nth_error (ag s) i = Some (f :: k) -> step s i f k = Some s' -> pr (fl s') = Z.of_nat (cl tok (ag s')) /\ (pr (fl s') <= hm s)%Z /\ hm s' = hm s /\ mx s' = mx s.
Proof.
  intros s i f k s' I N E. pose proof (v_pr _ I) as PR. pose proof (v_hm _ I) as HM. pose proof (v_m _ I) as M. assert (PD := pr_dec s i f k I N). assert (TP := tok_pos s i f k I N).
  pose proof (v_f _ I _ _ f N (or_introl eq_refl)) as FK.
  cases E; un; cbn [tok fok] in *; rewrite ?cl_add; cnt N tok; cbn [pr w_lk w_sp w_it w_pl w_cn w_pr bump sunk suml tok b1] in *;
  try (specialize (PD eq_refl); specialize (TP eq_refl)); try (rewrite PD in *); try solve [repeat split; lia].
  all: match goal with H : more _ _ = true |- _ => apply more_lt in H end; rewrite Z.mod_small by lia; cbn [b1] in *; repeat split; lia.
Qed.
Lemma nth_put : forall (l : list (list frame)) i kk' j k, nth_error (set l i kk') j = Some k -> k = kk' \/ nth_error l j = Some k.
Proof. intros l i kk' j k Q. apply nth_set in Q. destruct Q as [[_ ->]|[_ Q]]; auto. Qed.
Lemma nth_add : forall (l : list (list frame)) x j k, nth_error (l ++ [x]) j = Some k -> k = x \/ nth_error l j = Some k.
Proof. intros l x j k Q. destruct (Nat.lt_ge_cases j (length l)) as [L|L]; [rewrite nth_error_app1 in Q by assumption; auto|rewrite nth_error_app2 in Q by assumption; apply nth_error_In in Q; destruct Q as [<-|[]]; auto]. Qed.
Lemma step_nth : forall s i f k s', step s i f k = Some s' -> exists kk' new, ag s' = set (ag s) i kk' ++ new /\ (new = [] \/ new = [[W0; T0]]).
Proof. intros s i f k s' E. cases E; un; eexists; first [exists []; rewrite app_nil_r; split; [reflexivity|left; reflexivity]|exists [[W0; T0]]; split; [reflexivity|right; reflexivity]]. Qed.
Lemma done_pr : forall s i g k, V s -> nth_error (ag s) i = Some (W6 g :: k) -> feq (fl s) g = true -> leave g = false -> (pr (sunk g) =? 0)%Z = false.
Proof. intros s i g k I N F L. apply feq_eq in F. subst g. pose proof (tok_pos _ _ _ _ I N eq_refl). apply Z.eqb_neq. cbn. lia. Qed.
Lemma step_sh : forall s i f k s', V s -> nth_error (ag s) i = Some (f :: k) -> step s i f k = Some s' -> forall j kk, nth_error (ag s') j = Some kk -> shape kk.
Proof.
  intros s i f k s' I N E j kk Q. pose proof (v_sh _ I _ _ N) as SH. cbn [shape] in SH. assert (TP := tok_pos s i f k I N).
  assert (O : forall kk', ag s' = set (ag s) i kk' \/ ag s' = set (ag s) i kk' ++ [[W0; T0]] -> shape kk' -> shape kk).
  { intros kk' [A|A] SK; rewrite A in Q; [|apply nth_add in Q; destruct Q as [->|Q]; [reflexivity|]]; apply nth_put in Q; (destruct Q as [->|Q]; [assumption|apply (v_sh _ I _ _ Q)]). }
  cases E; un; try (eapply O; [left; reflexivity|]); try (eapply O; [right; reflexivity|]); try (cbn [shape]; solve [assumption|auto|(destruct SH as [->|[->| ->]]; cbn; auto)|(destruct SH as [->| ->]; cbn; auto)|(rewrite SH; cbn; auto)]).
  exfalso. cbn [tok] in TP. specialize (TP eq_refl). match goal with H : (pr (sunk _) =? 0)%Z = true |- _ => apply Z.eqb_eq in H; cbn in H end. lia.
Qed.
Lemma step_f : forall s i f k s', V s -> nth_error (ag s) i = Some (f :: k) -> step s i f k = Some s' -> forall j kk g, nth_error (ag s') j = Some kk -> In g kk -> fok (hm s) g.
Proof.
  intros s i f k s' I N E j kk g Q J. pose proof (v_f _ I _ _ f N (or_introl eq_refl)) as FK. pose proof (v_m _ I) as M. assert (FT : forall x, In x k -> fok (hm s) x) by (intros x X; apply (v_f _ I _ _ x N); right; assumption).
  assert (O : forall kk', ag s' = set (ag s) i kk' \/ ag s' = set (ag s) i kk' ++ [[W0; T0]] -> (forall x, In x kk' -> fok (hm s) x) -> fok (hm s) g).
  { intros kk' [A|A] SK; rewrite A in Q; [|apply nth_add in Q; destruct Q as [->|Q]; [destruct J as [<-|[<-|[]]]; exact Logic.I|]]; apply nth_put in Q; (destruct Q as [->|Q]; [auto|apply (v_f _ I _ _ _ Q J)]). }
  cases E; un; cbn [fok] in FK; try (eapply O; [left; reflexivity|]); try (eapply O; [right; reflexivity|]); try assumption; intros x X;
  repeat (destruct X as [<-|X]; [try exact Logic.I; cbn [fok]; try tauto; try lia|]); try (apply FT; assumption); auto.
Qed.
Lemma mod_rng : forall c, (0 <= c mod CW < CW)%Z.
Proof. intros c. apply Z.mod_pos_bound. reflexivity. Qed.
Lemma step_cn : forall s i f k s', V s -> step s i f k = Some s' -> (0 <= cn (fl s') < CW)%Z.
Proof. intros s i f k s' I E. pose proof (v_cn _ I) as C. cases E; un; cbn [cn w_lk w_sp w_it w_pl w_cn w_pr bump sunk]; try assumption; try apply mod_rng. split; [lia|reflexivity]. Qed.
Lemma step_pl : forall s i f k s', V s -> nth_error (ag s) i = Some (f :: k) -> step s i f k = Some s' -> cl hold (ag s') = b1 (pl (fl s')).
Proof.
  intros s i f k s' I N E. pose proof (v_pl _ I) as P. cases E; un; rewrite ?cl_add; cnt N hold; cbn [pl w_lk w_sp w_it w_pl w_cn w_pr bump sunk suml hold b1] in *; try lia;
  try (match goal with H : pl (fl s) = _ |- _ => rewrite H in *; cbn [b1] in *; lia end); pose proof (cl_ge hold _ _ _ N) as G; cbn [suml hold] in G; destruct (pl (fl s)); cbn [b1] in *; lia.
Qed.
Lemma step_q : forall s i f k s', V s -> step s i f k = Some s' -> pushes (log s') = takes (log s') ++ q s'.
Proof.
  intros s i f k s' I E. pose proof (v_q _ I) as P. cases E; un; rewrite ?pushes_app, ?takes_app; cbn [pushes takes flat_map app]; try assumption;
  change (pushes []) with (@nil nat); change (takes []) with (@nil nat); rewrite P; try (match goal with H : q s = _ |- _ => rewrite H end); cbn; rewrite <- ?app_assoc, ?app_nil_r; reflexivity.
Qed.
Lemma po_tok : forall l, cl po l <= cl tok l.
Proof. intros l. apply cl_le. intros [| | | |? [] []|[] []|[] []| | | | | | | | | | | | | | | | | | | | | | | |]; cbn; lia. Qed.
Lemma step_po : forall s i f k s', V s -> nth_error (ag s) i = Some (f :: k) -> step s i f k = Some s' -> cl po (ag s') <= 1.
Proof.
  intros s i f k s' I N E. pose proof (v_po _ I) as P. pose proof (v_pr _ I) as PR. pose proof (po_tok (ag s)) as L. cases E; un; rewrite ?cl_add; cnt N po; cbn [suml po b1 andb] in *; try lia; destruct (Z.eqb_spec (pr (fl s)) 0); cbn [b1] in *; lia.
Qed.
Lemma step_rc : forall s i f k s', V s -> nth_error (ag s) i = Some (f :: k) -> step s i f k = Some s' -> rc s' + cl po (ag s') = us s' + b1 (0 <? pr (fl s'))%Z + cl rl (ag s') + zeros (log s').
Proof.
  intros s i f k s' I N E. pose proof (v_rc _ I) as R. pose proof (v_pr _ I) as PR. assert (PD := pr_dec s i f k I N). assert (TP := tok_pos s i f k I N). pose proof (v_po _ I) as PO. pose proof (rc_us _ I) as RU. pose proof (v_hm _ I) as HM. pose proof (v_m _ I) as M.
  pose proof (v_f _ I _ _ f N (or_introl eq_refl)) as FK.
  cases E; un; rewrite ?cl_add, ?zeros_app; cnt N po; cnt N rl; cbn [fok tok suml po rl b1 andb pr w_lk w_sp w_it w_pl w_cn w_pr bump sunk] in *; change (zeros []) with 0;
  try (specialize (PD eq_refl); specialize (TP eq_refl)); try (rewrite PD in *); rewrite ?Nat.add_0_r; try (cbn [zeros suml]; lia);
  pose proof (po_tok (ag s)) as PT; pose proof (cl_ge rl _ _ _ N) as GR; cbn [suml rl] in GR;
  try (match goal with H : more _ _ = true |- _ => apply more_lt in H end; rewrite Z.mod_small by lia); change (zeros [EZero]) with 1;
  repeat match goal with |- context [(?a <? ?b)%Z] => destruct (Z.ltb_spec a b) | H : context [(?a <? ?b)%Z] |- _ => destruct (Z.ltb_spec a b) | H : context [(?a =? ?b)%Z] |- _ => destruct (Z.eqb_spec a b) | |- context [(?a =? ?b)%Z] => destruct (Z.eqb_spec a b) | H : Nat.eqb _ _ = true |- _ => apply Nat.eqb_eq in H | H : Nat.eqb _ _ = false |- _ => apply Nat.eqb_neq in H end; cbn [b1] in *; try discriminate; try lia.
Qed.
Lemma step_us : forall s i f k s', V s -> nth_error (ag s) i = Some (f :: k) -> step s i f k = Some s' -> us s' = us s /\ (us s = 0 -> forall j kk, nth_error (ag s') j = Some kk -> user kk = false).
Proof.
  intros s i f k s' I N E. pose proof (v_sh _ I _ _ N) as SH. cbn [shape] in SH. split; [cases E; reflexivity|]. intros U j kk Q. pose proof (v_us _ I U _ _ N) as UN.
  assert (O : forall kk', ag s' = set (ag s) i kk' \/ ag s' = set (ag s) i kk' ++ [[W0; T0]] -> user kk' = false -> user kk = false).
  { intros kk' [A|A] SK; rewrite A in Q; [|apply nth_add in Q; destruct Q as [->|Q]; [reflexivity|]]; apply nth_put in Q; (destruct Q as [->|Q]; [assumption|apply (v_us _ I U _ _ Q)]). }
  cases E; un; try (eapply O; [left; reflexivity|]); try (eapply O; [right; reflexivity|]); first [subst k|destruct SH as [->|[->| ->]]|destruct SH as [->| ->]]; cbn in UN |- *; try discriminate; reflexivity.
Qed.
Lemma step_dt : forall s i f k s', V s -> fre s = false -> nth_error (ag s) i = Some (f :: k) -> step s i f k = Some s' -> cl dt (ag s') + b1 (fre s') = if Nat.eqb (rc s') 0 then 1 else 0.
Proof.
  intros s i f k s' I FR N E. pose proof (v_dt _ I) as D. rewrite FR in D. assert (UP : us s = 0 -> f <> P6 true true) by (intros U ->; pose proof (v_us _ I U _ _ N) as X; pose proof (v_sh _ I _ _ N) as SH; cbn in SH; subst k; discriminate).
  pose proof (rc_us _ I) as RU. pose proof (cl_ge dt _ _ _ N) as G.
  cases E; un; rewrite ?cl_add, ?FR; cnt N dt; cbn [suml dt b1] in *; repeat match goal with |- context [Nat.eqb ?a ?b] => destruct (Nat.eqb_spec a b) | H : context [Nat.eqb ?a ?b] |- _ => destruct (Nat.eqb_spec a b) end; try discriminate; try lia.
  all: destruct (Nat.eq_dec (us s) 0) as [U|U]; [contradiction (UP U); reflexivity|lia].
Qed.
Lemma perm_in : forall (a p x x' : list nat) t, Permutation a (p ++ x) -> Permutation x' (t :: x) -> Permutation (a ++ [t]) (p ++ x').
Proof. intros a p x x' t A X. eapply Permutation_trans; [symmetry; apply Permutation_cons_append|]. eapply Permutation_trans; [apply perm_skip, A|]. eapply Permutation_trans; [apply Permutation_middle|]. apply Permutation_app_head. symmetry. exact X. Qed.
Lemma perm_out : forall (a p x x' : list nat) t, Permutation a (p ++ x) -> Permutation x (t :: x') -> Permutation a ((p ++ [t]) ++ x').
Proof. intros a p x x' t A X. rewrite A, X, <- app_assoc. reflexivity. Qed.
Lemma step_ac : forall s i f k s', V s -> nth_error (ag s) i = Some (f :: k) -> step s i f k = Some s' -> Permutation (accs (log s')) (pushes (log s') ++ fm p4t (ag s')).
Proof.
  intros s i f k s' I N E. pose proof (v_ac _ I) as A.
  cases E; un; rewrite ?fm_add, ?accs_app, ?pushes_app; cbn [flat_map p4t app]; rewrite ?app_nil_r;
  try solve [match goal with |- context [fm p4t (set ?l ?j ?kk')] => rewrite (fm_same p4t l j _ kk' N) by (cbn; reflexivity) end; cbn; rewrite ?app_nil_r; assumption].
  1,2,3,4: change (pushes (EAcc t (sp (fl s)) :: [EFull])) with (@nil nat); change (pushes [EAcc t (sp (fl s))]) with (@nil nat); rewrite ?app_nil_r; apply (perm_in _ _ _ _ t A); eapply fm_in; [exact N|reflexivity].
  change (accs [EPush t]) with (@nil nat). rewrite ?app_nil_r. apply (perm_out _ _ _ _ t A). eapply fm_out; [exact N|reflexivity].
Qed.
Lemma step_ru : forall s i f k s', V s -> nth_error (ag s) i = Some (f :: k) -> step s i f k = Some s' -> Permutation (starts (log s')) (ends (log s') ++ fm rut (ag s')).
Proof.
  intros s i f k s' I N E. pose proof (v_ru _ I) as A.
  cases E; un; rewrite ?fm_add, ?starts_app, ?ends_app; cbn [flat_map rut app]; rewrite ?app_nil_r;
  try solve [match goal with |- context [fm rut (set ?l ?j ?kk')] => rewrite (fm_same rut l j _ kk' N) by (cbn; reflexivity) end; cbn; rewrite ?app_nil_r; assumption].
  - change (ends [EStart n]) with (@nil nat). rewrite ?app_nil_r. apply (perm_in _ _ _ _ n A). eapply fm_in; [exact N|reflexivity].
  - change (starts [EEnd t]) with (@nil nat). rewrite ?app_nil_r. apply (perm_out _ _ _ _ t A). eapply fm_out; [exact N|reflexivity].
Qed.
Lemma step_ua : forall s i f k s', step s i f k = Some s' -> uaf s' = uaf s.
Proof. intros s i f k s' E. cases E; reflexivity. Qed.
Lemma step_V : forall s i f k s', V s -> fre s = false -> nth_error (ag s) i = Some (f :: k) -> step s i f k = Some s' -> V s'.
Proof.
  intros s i f k s' I FR N E. destruct (step_pr _ _ _ _ _ I N E) as (A1 & A2 & A3 & A4). destruct (step_us _ _ _ _ _ I N E) as (B1 & B2). pose proof (v_m _ I) as M.
  split; rewrite ?A3, ?A4; try assumption.
  - eapply step_sh; eauto.
  - eapply step_f; eauto.
  - eapply step_cn; eauto.
  - eapply step_pl; eauto.
  - eapply step_q; eauto.
  - eapply step_po; eauto.
  - eapply step_rc; eauto.
  - rewrite B1. assumption.
  - eapply step_dt; eauto.
  - rewrite (step_ua _ _ _ _ _ E). intros U. rewrite (v_ua _ I U) in FR. discriminate.
  - eapply step_ac; eauto.
  - eapply step_ru; eauto.
Qed.
(** A thread begins a call. *)
Lemma add_V : forall s k, V s -> us s <> 0 -> shape k -> (forall f, In f k -> fok (hm s) f) -> suml tok k = 0 -> suml hold k = 0 -> suml po k = 0 -> suml rl k = 0 -> suml dt k = 0 -> flat_map p4t k = [] -> flat_map rut k = [] -> V (add s k).
Proof.
  intros s k I U SH FK H1 H2 H3 H4 H5 H6 H7. destruct I as [a b c d e g h j l m n o p q0 r]. split; un; rewrite ?cl_add, ?fm_add, ?H1, ?H2, ?H3, ?H4, ?H5, ?H6, ?H7, ?Nat.add_0_r, ?app_nil_r; try assumption; try contradiction.
  - intros i kk Q. apply nth_add in Q. destruct Q as [->|Q]; eauto.
  - intros i kk f Q. apply nth_add in Q. destruct Q as [->|Q]; eauto.
Qed.
Lemma exec_V : forall s a s', V s -> exec s a = Some s' -> V s'.
Proof.
  intros s a s' I E. destruct a as [i|t| | |i|m| |]; cbn [exec] in E.
  - destruct (nth_error (ag s) i) as [[|f k]|] eqn:N; try discriminate. destruct (fre s) eqn:FR; [|eapply step_V; eauto]. injection E as <-. pose proof (v_dt _ I) as D. rewrite FR in D. destruct I as [a b c d e g h j l m n o p q0 r]. split; un; auto.
  - destruct (Nat.eqb_spec (us s) 0) as [U|U]; [discriminate|]. injection E as <-. apply add_V; auto; try reflexivity. intros f [<-|[]]. exact Logic.I.
  - destruct (Nat.eqb_spec (us s) 0) as [U|U]; [discriminate|]. injection E as <-. apply add_V; auto; try reflexivity. intros f [<-|[]]. exact Logic.I.
  - destruct (Nat.eqb_spec (us s) 0) as [U|U]; [discriminate|]. injection E as <-. destruct I as [a b c d e g h j l m n o p q0 r]. split; un; rewrite ?pushes_app, ?takes_app, ?accs_app, ?starts_app, ?ends_app, ?zeros_app; cbn; rewrite ?app_nil_r, ?Nat.add_0_r; try assumption.
  - destruct (nth_error (ag s) i) as [[|[] k]|] eqn:N; try discriminate. injection E as <-. pose proof (v_sh _ I _ _ N) as SH. cbn in SH. subst k. pose proof (v_f _ I) as FK. destruct I as [a b c d e g h j l m n o p q0 r].
    split; un; rewrite ?pushes_app, ?takes_app, ?accs_app, ?starts_app, ?ends_app, ?zeros_app, ?(fm_same p4t _ _ _ [P7] N eq_refl), ?(fm_same rut _ _ _ [P7] N eq_refl); try (cbn; rewrite ?app_nil_r; assumption);
    try (cnt N tok; lia); try (cnt N hold; lia); try (cnt N po; lia); try (cnt N dt; lia).
    + intros x kk Q. apply nth_put in Q. destruct Q as [->|Q]; [reflexivity|eauto].
    + intros x kk f Q J. apply nth_put in Q. destruct Q as [->|Q]; [destruct J as [<-|[]]; exact Logic.I|eauto].
    + cnt N po. cnt N rl. change (zeros [EFail]) with 0. lia.
    + intros U x kk Q. pose proof (n U _ _ N) as X. discriminate.
  - destruct (Nat.eqb (us s) 0 || _) eqn:B; [discriminate|]. apply orb_false_iff in B. destruct B as [_ B]. apply negb_false_iff in B. apply andb_true_iff in B. destruct B as [B1 B2]. apply Z.leb_le in B1. apply Z.ltb_lt in B2. injection E as <-. destruct I as [a b c d e g h j l m' n o p q0 r].
    split; un; try assumption; try lia. intros i k f Q J. specialize (c _ _ _ Q J). destruct f; cbn in *; try exact Logic.I; [lia|split; [lia|apply c]].
  - destruct (Nat.eqb_spec (us s) 0) as [U|U]; [discriminate|]. injection E as <-. pose proof (rc_us _ I) as RU. destruct I as [a b c d e g h j l m n o p q0 r]. split; un; try assumption; try lia. rewrite o. destruct (Nat.eqb_spec (rc s) 0); [lia|reflexivity].
  - pose proof (rc_us _ I) as RU. destruct (us s) as [|[|n]] eqn:U; [discriminate| |].
    + destruct (existsb user (ag s)) eqn:EX; [discriminate|].
      assert (NU : forall j k, nth_error (ag s) j = Some k -> user k = false).
      { intros j k N. destruct (user k) eqn:X; [|reflexivity]. rewrite <- EX. symmetry. apply existsb_exists. exists k. split; [apply (nth_error_In _ _ N)|assumption]. }
      destruct (Nat.eqb_spec (rc s) 1) as [R|R]; injection E as <-; destruct I as [a b c d e g h j l m n o p q0 r]; split; un; rewrite ?cl_add, ?fm_add; cbn; rewrite ?Nat.add_0_r, ?app_nil_r; try assumption; try lia; auto.
      * intros i kk Q. apply nth_add in Q. destruct Q as [->|Q]; [cbn; auto|eauto].
      * intros i kk f Q J. apply nth_add in Q. destruct Q as [->|Q]; [destruct J as [<-|[<-|[]]]; exact Logic.I|eauto].
      * intros _ i kk Q. apply nth_add in Q. destruct Q as [->|Q]; [reflexivity|eauto].
      * rewrite R in o. cbn in o. destruct (fre s); cbn in *; lia.
      * rewrite o. destruct (Nat.eqb_spec (rc s) 0), (Nat.eqb_spec (rc s - 1) 0); try lia.
    + injection E as <-. destruct I as [a b c d e g h j l m n' o p q0 r]. split; un; try assumption; try lia. rewrite o. destruct (Nat.eqb_spec (rc s) 0), (Nat.eqb_spec (rc s - 1) 0); lia.
Qed.
Lemma init_V : forall m, (1 <= m < PW)%Z -> V (init m).
Proof. intros m M. change PW with 4294967296%Z in M. split; cbn; try discriminate; try lia; try reflexivity; try (intros [|i]; discriminate); try (intros _ [|i]; discriminate); try (split; [lia|reflexivity]); try apply Permutation_refl. apply Nat.le_0_l. Qed.
Lemma run_V : forall l s s', V s -> run s l = Some s' -> V s'.
Proof. induction l as [|a l IH]; intros s s' I H; cbn in H; [injection H as <-; assumption|]. destruct (exec s a) as [s1|] eqn:E; [|discriminate]. eapply IH; [|exact H]. eapply exec_V; eauto. Qed.
Lemma reach_V : forall m l s, (1 <= m < PW)%Z -> run (init m) l = Some s -> V s.
Proof. intros m l s M H. eapply run_V; [apply init_V; exact M|exact H]. Qed.

(** The executions without anything odd, while the user holds the runner. *)
Definition p4 (f : frame) : nat := match f with P4 _ _ _ => 1 | _ => 0 end.
Definition oo (f : frame) : nat := match f with W3u (Some _) | W4 _ | W5 | W6 _ => 1 | _ => 0 end.
Definition cf (f : frame) : nat := match f with C0 | C1 | C2 | DT => 1 | _ => 0 end.
Definition xx (f : frame) : nat := match f with X0 | P7 | P8 | W3u None => 1 | _ => 0 end.
Definition t3 (f : frame) : nat := match f with T3 => 1 | _ => 0 end.
Record G (s : st) : Prop := {
  g_cn : cn (fl s) = Z.of_nat (length (q s) + cl p4 (ag s) + cl oo (ag s));
  g_lo : (1 <= cn (fl s) -> 1 <= pr (fl s))%Z;
  g_hi : (pr (fl s) <= cn (fl s) < 2 ^ 27)%Z;
  g_cf : 0 < cl cf (ag s) -> sp (fl s) = true /\ cn (fl s) = 0%Z;
  g_it : it (fl s) = true -> sp (fl s) = true /\ cn (fl s) = 0%Z;
  g_xx : cl xx (ag s) = 0;
  g_t3 : 0 < cl t3 (ag s) -> sp (fl s) = true;
  g_can : takes (log s) = starts (log s) }.
Definition good (s : st) : Prop := us s <> 0 /\ calm (log s).
Lemma calm_app : forall a b, calm (a ++ b) -> calm a /\ calm b.
Proof. intros a b H. split; intros e J; apply H; apply in_or_app; auto. Qed.
Lemma calm_one : forall e l, calm (e :: l) -> odd e = false /\ calm l.
Proof. intros e l H. split; [apply H; left; reflexivity|intros x J; apply H; right; assumption]. Qed.
Lemma G_mv : forall s s' i kk kk', G s -> nth_error (ag s) i = Some kk -> ag s' = set (ag s) i kk' ->
  (cn (fl s') + Z.of_nat (length (q s) + suml p4 kk + suml oo kk) = cn (fl s) + Z.of_nat (length (q s') + suml p4 kk' + suml oo kk'))%Z ->
  (1 <= cn (fl s') -> 1 <= pr (fl s'))%Z -> (pr (fl s') <= cn (fl s') < 2 ^ 27)%Z ->
  ((sp (fl s') = true /\ cn (fl s') = 0%Z) \/ (suml cf kk' <= suml cf kk /\ (sp (fl s) = true -> cn (fl s) = 0%Z -> sp (fl s') = true /\ cn (fl s') = 0%Z))) ->
  ((sp (fl s') = true /\ cn (fl s') = 0%Z) \/ (it (fl s') = it (fl s) /\ (it (fl s) = true -> sp (fl s) = true -> cn (fl s) = 0%Z -> sp (fl s') = true /\ cn (fl s') = 0%Z))) ->
  suml xx kk' <= suml xx kk -> (sp (fl s') = true \/ (suml t3 kk' <= suml t3 kk /\ sp (fl s') = sp (fl s))) -> takes (log s') = starts (log s') -> G s'.
Proof.
  intros s s' i kk kk' R N EA H1 H2 H3 H4 H5 H6 H7 H8. destruct R as [A1 A2 A3 A4 A5 A6 A7 A8]. split; rewrite ?EA; try assumption.
  - cnt N p4. cnt N oo. cbn [suml] in *. lia.
  - cnt N cf. intros X. destruct H4 as [H4|[H4 H4']]; [assumption|]. destruct A4; [lia|auto].
  - intros X. destruct H5 as [H5|[H5 H5']]; [assumption|]. rewrite H5 in X. destruct (A5 X). auto.
  - cnt N xx. lia.
  - cnt N t3. intros X. destruct H7 as [H7|[H7 H7']]; [assumption|]. rewrite H7'. apply A7. lia.
Qed.
Lemma bump_facts : forall f, (0 <= cn f < CW)%Z -> (scn (bump f) <=? 0)%Z = false -> ((cn f + 1) mod CW = cn f + 1 /\ cn f + 1 < 2 ^ 27 /\ scn (bump f) = cn f + 1)%Z.
Proof.
  intros f C B. apply Z.leb_gt in B. unfold scn in *. cbn [cn bump w_lk w_cn] in *. change CW with 268435456%Z in *. change (2 ^ 27)%Z with 134217728%Z in *.
  assert (M : ((cn f + 1) mod 268435456 = cn f + 1)%Z). { destruct (Z.eq_dec (cn f + 1) 268435456) as [E|E]; [rewrite E in B; cbn in B; lia|apply Z.mod_small; lia]. }
  rewrite M in *. destruct (Z.ltb_spec (cn f + 1) 134217728); lia.
Qed.
Lemma more_false : forall f m, (1 <= m)%Z -> (0 <= pr f <= cn f)%Z -> (cn f < 2 ^ 27)%Z -> scn (bump f) = (cn f + 1)%Z -> more f m = false -> (1 <= pr f)%Z.
Proof.
  intros f m M P L S H. unfold more, spr in H. rewrite S in H. change (2 ^ 27)%Z with 134217728%Z in *. change (2 ^ 31)%Z with 2147483648%Z in *. destruct (Z.ltb_spec (pr f) 2147483648); [|lia]. apply andb_false_iff in H. destruct H as [H|H]; [apply Z.ltb_ge in H; lia|apply Z.leb_gt in H; lia].
Qed.
Lemma sunk_facts : forall f, (1 <= cn f)%Z -> (0 <= pr f <= cn f)%Z -> (cn f < 2 ^ 27)%Z -> ((cn f - 1) mod CW = cn f - 1)%Z /\ leave f = (cn f - 1 <? pr f)%Z.
Proof.
  intros f C P L. unfold leave, scn, spr. cbn [cn sunk w_cn]. change CW with 268435456%Z in *. change (2 ^ 27)%Z with 134217728%Z in *. change (2 ^ 31)%Z with 2147483648%Z in *.
  rewrite Z.mod_small by lia. split; [reflexivity|]. destruct (Z.ltb_spec (cn f - 1) 134217728); [|lia]. destruct (Z.ltb_spec (pr f) 2147483648); [reflexivity|lia].
Qed.
Lemma step_G : forall s i f k s', V s -> G s -> good s' -> nth_error (ag s) i = Some (f :: k) -> step s i f k = Some s' -> G s'.
Proof.
  intros s i f k s' I R [GU GC] N E. pose proof (g_cn _ R) as A1. pose proof (g_lo _ R) as A2. pose proof (g_hi _ R) as A3. pose proof (g_it _ R) as A5. pose proof (g_xx _ R) as A6. pose proof (g_can _ R) as A8.
  assert (TP := tok_pos s i f k I N). pose proof (v_cn _ I) as CN. pose proof (v_f _ I _ _ f N (or_introl eq_refl)) as FK. pose proof (v_rc _ I) as RC. pose proof (v_pr _ I) as PR. pose proof (v_po _ I) as PO. pose proof (po_tok (ag s)) as PT.
  pose proof (cl_ge xx _ _ _ N) as XG. assert (CG : 1 <= suml cf (f :: k) -> sp (fl s) = true /\ cn (fl s) = 0%Z) by (intros Q; apply (g_cf _ R); pose proof (cl_ge cf _ _ _ N); lia). assert (TG : 1 <= t3 f -> sp (fl s) = true) by (intros Q; apply (g_t3 _ R); pose proof (cl_ge t3 _ _ _ N) as X; cbn in X; lia).
  pose proof (cl_ge oo _ _ _ N) as OG. pose proof (cl_ge rl _ _ _ N) as RG.
  cases E; un; cbn [suml xx cf t3 oo rl tok fok] in XG, CG, TG, OG, RG, TP, FK; try lia;
  try (apply calm_app in GC; destruct GC as [_ GC]; apply calm_one in GC; destruct GC as [GC GC']; cbn in GC; try discriminate);
  try (match goal with H : (scn (bump (fl s)) <=? 0)%Z = true |- _ => apply calm_one in GC'; destruct GC' as [GC' _]; discriminate end);
  try (match goal with H : (scn (bump (fl s)) <=? 0)%Z = false |- _ => destruct (bump_facts _ CN H) as (Y1 & Y2 & Y3); assert (SPF : sp (fl s) = false) by (destruct (sp (fl s)); [discriminate|reflexivity]) end);
  try (match goal with H : more _ _ = true |- _ => apply more_lt in H; assert (Y4 : ((pr (fl s) + 1) mod PW = pr (fl s) + 1)%Z) by (apply Z.mod_small; pose proof (v_m _ I); lia) end);
  try (match goal with H : more _ _ = false |- _ => apply more_false in H; [|lia|lia|lia|assumption] end);
  try (match goal with H : leave (fl s) = _ |- _ => destruct (sunk_facts (fl s)) as (Y1 & Y2); [lia|lia|lia|]; rewrite Y2 in H; pose proof (pr_dec _ _ _ _ I N eq_refl) as Y4; first [apply Z.ltb_lt in H|apply Z.ltb_ge in H] end);
  try (eapply (G_mv s _ i _ _ R N); [cbn [ag put say w_fl w_q w_rc]; reflexivity|..]; un; cbn [lk sp it pl cn pr w_lk w_sp w_it w_pl w_cn w_pr bump sunk suml p4 oo cf xx t3 length] in *; rewrite ?app_length; cbn [length]; rewrite ?Y1, ?Y4;
    try solve [lia | assumption | reflexivity | (right; split; [lia|auto]) | (right; split; [reflexivity|auto]) | (right; split; [lia|reflexivity]) | (left; auto) | (right; split; [lia|intros; exfalso; first [congruence|lia]]) | (right; split; [reflexivity|intros; exfalso; first [congruence|lia]]) | (rewrite ?takes_app, ?starts_app, A8; reflexivity) | (match goal with H : q s = _ |- _ => rewrite H in *; cbn [length] in * end; lia) ]).
  - (* a worker is started *)
    assert (R1 : G (put s i k)) by (eapply (G_mv s _ i _ _ R N); [reflexivity|..]; un; cbn [suml p4 oo cf xx t3]; try solve [lia|assumption|(right; split; [lia|auto])|(right; split; [reflexivity|auto])|(right; split; [lia|reflexivity])]).
    destruct R1 as [a b c d e g h j]. split; un; rewrite ?cl_add; cbn [suml p4 oo cf xx t3]; rewrite ?Nat.add_0_r; assumption.
  - destruct (Nat.eqb_spec (rc s) 1); [|discriminate]. exfalso. destruct (Z.ltb_spec 0 (pr (fl s))); cbn [b1] in RC; lia.
  - left. split; [apply TG; lia|apply Z.eqb_eq; assumption].
Qed.
Lemma alive : forall s, V s -> us s <> 0 -> fre s = false /\ uaf s = false /\ cl dt (ag s) = 0.
Proof.
  intros s I U. pose proof (rc_us _ I) as R. pose proof (v_dt _ I) as D. destruct (Nat.eqb_spec (rc s) 0); [lia|]. destruct (fre s) eqn:F; cbn [b1] in D; [lia|]. pose proof (v_ua _ I) as A. destruct (uaf s); [rewrite F in A; specialize (A eq_refl); discriminate|]. repeat split; lia.
Qed.
Lemma step_log : forall s i f k s', step s i f k = Some s' -> us s' = us s /\ exists e, log s' = log s ++ e.
Proof. intros s i f k s' E. cases E; un; (split; [reflexivity|eexists; try reflexivity; symmetry; apply app_nil_r]). Qed.
Lemma exec_log : forall s a s', exec s a = Some s' -> (us s' <> 0 -> us s <> 0) /\ exists e, log s' = log s ++ e.
Proof.
  intros s a s' E. destruct a as [i|t| | |i|m| |]; cbn [exec] in E.
  - destruct (nth_error (ag s) i) as [[|f k]|]; try discriminate. destruct (fre s); [injection E as <-; un; split; [auto|exists []; symmetry; apply app_nil_r]|]. apply step_log in E. destruct E as [-> E]. auto.
  - destruct (Nat.eqb_spec (us s) 0); [discriminate|]. injection E as <-. un. split; [auto|exists []; symmetry; apply app_nil_r].
  - destruct (Nat.eqb_spec (us s) 0); [discriminate|]. injection E as <-. un. split; [auto|exists []; symmetry; apply app_nil_r].
  - destruct (Nat.eqb_spec (us s) 0); [discriminate|]. injection E as <-. un. split; [auto|eexists; reflexivity].
  - destruct (nth_error (ag s) i) as [[|[] k]|]; try discriminate. injection E as <-. un. split; [auto|eexists; reflexivity].
  - destruct (Nat.eqb_spec (us s) 0); [discriminate|]. destruct (_ || _); [discriminate|]. injection E as <-. un. split; [auto|exists []; symmetry; apply app_nil_r].
  - destruct (Nat.eqb_spec (us s) 0); [discriminate|]. injection E as <-. un. split; [auto|exists []; symmetry; apply app_nil_r].
  - destruct (us s) as [|[|n]]; [discriminate| |].
    + destruct (existsb user (ag s)); [discriminate|]. destruct (Nat.eqb _ 1); injection E as <-; un; (split; [congruence|exists []; symmetry; apply app_nil_r]).
    + injection E as <-. un. split; [congruence|exists []; symmetry; apply app_nil_r].
Qed.
Lemma exec_good : forall s a s', exec s a = Some s' -> good s' -> good s.
Proof. intros s a s' E [G1 G2]. destruct (exec_log _ _ _ E) as (M1 & e & M2). split; [auto|]. rewrite M2 in G2. apply (calm_app _ _ G2). Qed.
Lemma exec_G : forall s a s', V s -> G s -> good s' -> exec s a = Some s' -> G s'.
Proof.
  intros s a s' I H GD E. destruct a as [i|t| | |i|m| |]; cbn [exec] in E.
  - destruct (nth_error (ag s) i) as [[|f k]|] eqn:N; try discriminate. destruct (fre s) eqn:F; [|eapply step_G; eauto]. injection E as <-. destruct GD as [U _]. un. destruct (alive _ I U) as [A _]. congruence.
  - destruct (Nat.eqb_spec (us s) 0); [discriminate|]. injection E as <-. destruct H as [a b c d e g h j]. split; un; rewrite ?cl_add; cbn [suml p4 oo cf xx t3]; rewrite ?Nat.add_0_r; assumption.
  - destruct (Nat.eqb_spec (us s) 0); [discriminate|]. injection E as <-. destruct H as [a b c d e g h j]. split; un; rewrite ?cl_add; cbn [suml p4 oo cf xx t3]; rewrite ?Nat.add_0_r; assumption.
  - destruct (Nat.eqb_spec (us s) 0); [discriminate|]. injection E as <-. destruct GD as [_ C]. un. apply calm_app in C. destruct C as [_ C]. specialize (C _ (or_introl eq_refl)). discriminate.
  - destruct (nth_error (ag s) i) as [[|[] k]|]; try discriminate. injection E as <-. destruct GD as [_ C]. un. apply calm_app in C. destruct C as [_ C]. specialize (C _ (or_introl eq_refl)). discriminate.
  - destruct (Nat.eqb (us s) 0 || _); [discriminate|]. injection E as <-. destruct H as [a b c d e g h j]. split; un; assumption.
  - destruct (Nat.eqb_spec (us s) 0); [discriminate|]. injection E as <-. destruct H as [a b c d e g h j]. split; un; assumption.
  - destruct (us s) as [|[|n]]; [discriminate| |].
    + exfalso. destruct GD as [U _]. destruct (existsb user (ag s)); [discriminate|]. destruct (Nat.eqb _ 1); injection E as <-; un; congruence.
    + injection E as <-. destruct H as [a b c d e g h j]. split; un; assumption.
Qed.
Lemma init_G : forall m, G (init m).
Proof. intros m. split; try reflexivity; try discriminate; cbn; try lia; intros Q; cbv in Q; lia. Qed.
Lemma run_app : forall a b s, run s (a ++ b) = match run s a with Some s' => run s' b | None => None end.
Proof. induction a as [|x a IH]; intros b s; cbn; [reflexivity|]. destruct (exec s x); auto. Qed.
Lemma run_snoc : forall l a s s', run s (l ++ [a]) = Some s' -> exists s1, run s l = Some s1 /\ exec s1 a = Some s'.
Proof. intros l a s s' H. rewrite run_app in H. destruct (run s l) as [s1|]; [|discriminate]. exists s1. cbn in H. destruct (exec s1 a); [injection H as <-; auto|discriminate]. Qed.
Lemma reach_G : forall m l s, (1 <= m < PW)%Z -> run (init m) l = Some s -> good s -> G s.
Proof.
  intros m l s M. revert s. induction l as [|a l IH] using rev_ind; intros s H GD; [cbn in H; injection H as <-; apply init_G|].
  apply run_snoc in H. destruct H as (s1 & H & E). eapply exec_G; [eapply reach_V; eauto|apply IH; [assumption|eapply exec_good; eauto]|exact GD|exact E].
Qed.

(** The lock of Push, as long as no clean-up has reset it. *)
Definition p45 (f : frame) : nat := match f with P4 _ _ _ | P5 _ _ => 1 | _ => 0 end.
Lemma step_lk : forall s i f k s', V s -> (~ In ECln (log s) -> cl p45 (ag s) = b1 (lk (fl s))) -> nth_error (ag s) i = Some (f :: k) -> step s i f k = Some s' -> ~ In ECln (log s') -> cl p45 (ag s') = b1 (lk (fl s')).
Proof.
  intros s i f k s' I L N E C. destruct (step_log _ _ _ _ _ E) as (_ & e & LE). assert (C1 : ~ In ECln (log s)) by (intros Q; apply C; rewrite LE; apply in_or_app; auto). specialize (L C1).
  pose proof (v_f _ I _ _ f N (or_introl eq_refl)) as FK. pose proof (cl_ge p45 _ _ _ N) as PG. pose proof (v_sh _ I _ _ N) as SH. cbn [shape] in SH.
  cases E; un; cbn [suml p45 fok lk sp it pl cn pr w_lk w_sp w_it w_pl w_cn w_pr bump sunk] in *; try (exfalso; apply C; apply in_or_app; right; left; reflexivity); rewrite ?cl_add; cnt N p45; cbn [suml p45] in *; try lia.
  all: try (destruct FK as [_ FK]; rewrite FK in L; cbn [b1] in *; lia).
  all: try (match goal with B : lk _ = _ |- _ => rewrite B in * end; lia).
  destruct (lk (fl s)); cbn [b1] in *; lia.
Qed.
Lemma exec_lk : forall s a s', V s -> (~ In ECln (log s) -> cl p45 (ag s) = b1 (lk (fl s))) -> exec s a = Some s' -> ~ In ECln (log s') -> cl p45 (ag s') = b1 (lk (fl s')).
Proof.
  intros s a s' I L E C. destruct (exec_log _ _ _ E) as (_ & e & LE). assert (C1 : ~ In ECln (log s)) by (intros Q; apply C; rewrite LE; apply in_or_app; auto). pose proof (L C1) as L1. destruct a as [i|t| | |i|m| |]; cbn [exec] in E.
  - destruct (nth_error (ag s) i) as [[|f k]|] eqn:N; try discriminate. destruct (fre s); [injection E as <-; exact L1|eapply step_lk; eauto].
  - destruct (Nat.eqb_spec (us s) 0); [discriminate|]. injection E as <-. un. rewrite cl_add. cbn [suml p45]. lia.
  - destruct (Nat.eqb_spec (us s) 0); [discriminate|]. injection E as <-. un. rewrite cl_add. cbn [suml p45]. lia.
  - destruct (Nat.eqb_spec (us s) 0); [discriminate|]. injection E as <-. exact L1.
  - destruct (nth_error (ag s) i) as [[|[] k]|] eqn:N; try discriminate. injection E as <-. un. cnt N p45. cbn [suml p45] in *. lia.
  - destruct (Nat.eqb (us s) 0 || _); [discriminate|]. injection E as <-. exact L1.
  - destruct (Nat.eqb_spec (us s) 0); [discriminate|]. injection E as <-. exact L1.
  - destruct (us s) as [|[|n]]; [discriminate| |injection E as <-; exact L1]. destruct (existsb user (ag s)); [discriminate|]. destruct (Nat.eqb _ 1); injection E as <-; un; rewrite ?cl_add; cbn [suml p45]; lia.
Qed.
Lemma reach_lk : forall m l s, (1 <= m < PW)%Z -> run (init m) l = Some s -> ~ In ECln (log s) -> cl p45 (ag s) = b1 (lk (fl s)).
Proof.
  intros m l s M. revert s. induction l as [|a l IH] using rev_ind; intros s H; [cbn in H; injection H as <-; reflexivity|].
  apply run_snoc in H. destruct H as (s1 & H & E). eapply exec_lk; [eapply reach_V; eauto|apply IH; exact H|exact E].
Qed.
