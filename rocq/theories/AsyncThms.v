(** Properties C50, C51, C80: asynchronous operations. *)
From Coq Require Import List Arith ZArith Bool Lia.
From Verif Require Import Slots SlotsProofs Threads AsyncModel.
Import ListNotations.

(** * Specification
    [aph]: 0 open, 1 decided, 2 handlers being called, 3 all called; [aout] how it was decided; [aL] the
    handlers accepted and not yet called; [atok] cancellation was requested by the token; [acs] the calls
    made so far. *)
Record abs := AA { aph : nat; aout : option out; aL : list nat; atok : bool; acs : list call }.
(** [completes t c o]: call [c] may end the operation with outcome [o]. *)
Inductive completes (t : bool) : call -> out -> Prop :=
| c_resolve : forall v, completes t (OResolve v) (OUT Completed S_OK None (Some v))
| c_token : forall v, t = true -> completes t (OResolve v) (OUT Canceled E_CANCELLED None None)
| c_cancel : completes t OCancel (OUT Canceled E_CANCELLED None None)
| c_error : forall e c, c <> S_OK -> c <> E_PENDING -> (e <> S_OK -> e <> E_PENDING -> c = e) -> completes t (OError e) (OUT Error c None None)
| c_exc : forall p e c, c <> S_OK -> c <> E_PENDING -> (e <> S_OK -> e <> E_PENDING -> c = e) -> completes t (OExc p e) (OUT Error c (Some p) None).
(** What GetResult may return or throw. *)
Definition got (o : option out) (t : bool) (r : seen) : Prop :=
  match r with
  | GVal x => exists c, o = Some c /\ o_st c = Completed /\ x = o_rs c
  | GExn p => exists c, o = Some c /\ o_st c = Error /\ o_ep c = Some p
  | GCode e => exists c, o = Some c /\ o_st c = Error /\ o_ep c = None /\ e = o_hr c
  | GCancel | GFail => t = true \/ exists c, o = Some c /\ o_st c = Canceled
  | GBad => False
  end.
Inductive astep : abs -> event -> abs -> Prop :=
| a_start : forall ph o L t cs c, astep (AA ph o L t cs) (EStart c) (AA ph o L t (c :: cs))
| a_tok : forall ph o L t cs, astep (AA ph o L t cs) ETok (AA ph o L true cs)
| a_decide : forall L t cs c o, In c cs -> completes t c o -> astep (AA 0 None L t cs) (EDecide o) (AA 1 (Some o) L t cs)
| a_fin : forall o t cs r, (r = false -> o_st o = Canceled) -> astep (AA 2 (Some o) [] t cs) (EFin r) (AA 3 (Some o) [] t cs)
| a_lose : forall ph o L t cs, 1 <= ph -> astep (AA ph o L t cs) ELose (AA ph o L t cs)
| a_add : forall ph o L t cs h, ph <= 1 -> ~ In h L -> astep (AA ph o L t cs) (EAdd h false true) (AA ph o (L ++ [h]) t cs)
| a_add_no : forall ph o L t cs h late, 1 <= ph \/ In h L -> astep (AA ph o L t cs) (EAdd h late false) (AA ph o L t cs)
| a_rem : forall ph o L t cs h, ph <= 1 -> In h L -> astep (AA ph o L t cs) (ERem h true) (AA ph o (remove Nat.eq_dec h L) t cs)
| a_rem_no : forall ph o L t cs h, 2 <= ph \/ ~ In h L -> astep (AA ph o L t cs) (ERem h false) (AA ph o L t cs)
| a_move : forall o L t cs, astep (AA 1 o L t cs) EMove (AA 2 o L t cs)
| a_call : forall o L t cs h, astep (AA 2 (Some o) (h :: L) t cs) (ECall h (o_st o)) (AA 2 (Some o) L t cs)
| a_see : forall ph o L t cs h late dn x ep e,
    (x <> Started -> exists c, o = Some c /\ x = o_st c) ->
    (late = false \/ dn = true -> exists c, o = Some c /\ x = o_st c /\ ep = o_ep c /\ e = o_hr c) ->
    astep (AA ph o L t cs) (ESee h late dn x ep e) (AA ph o L t cs)
| a_get : forall ph o L t cs w sp r, (sp = false -> got o t r) -> astep (AA ph o L t cs) (EGet w sp r) (AA ph o L t cs).
Inductive replay : abs -> list event -> abs -> Prop :=
| r_nil : forall a, replay a [] a
| r_snoc : forall a l b e c, replay a l b -> astep b e c -> replay a (l ++ [e]) c.
Definition fresh : abs := AA 0 None [] false [].
Definition nadd (h : nat) (l : list event) : nat := length (filter (fun e => match e with EAdd x _ true => x =? h | _ => false end) l).
Definition nrem (h : nat) (l : list event) : nat := length (filter (fun e => match e with ERem x true => x =? h | _ => false end) l).
Definition ncall (h : nat) (l : list event) : nat := length (filter (fun e => match e with ECall x _ => x =? h | _ => false end) l).
Definition nwon (l : list event) : nat := length (filter (fun e => match e with EFin true => true | _ => false end) l).
Definition nfin (l : list event) : nat := length (filter (fun e => match e with EFin _ => true | _ => false end) l).
Definition ndec (l : list event) : nat := length (filter (fun e => match e with EDecide _ => true | _ => false end) l).

(** * Proofs *)
Lemma isin_iff : forall h l, isin h l = true <-> In h l.
Proof.
  intros h l. unfold isin. rewrite existsb_exists. split; [intros (x & I & E); apply Nat.eqb_eq in E; subst; assumption|].
  intros I. exists h. split; [assumption|apply Nat.eqb_refl].
Qed.
Lemma isin_no : forall h l, isin h l = false <-> ~ In h l.
Proof. intros h l. rewrite <- isin_iff. destruct (isin h l); split; congruence. Qed.
Lemma is_eq : forall a b, is a b = true <-> a = b.
Proof. intros [] []; cbn; split; congruence. Qed.
Lemma is_ne : forall a b, is a b = false <-> a <> b.
Proof. intros [] []; cbn; split; congruence. Qed.
Lemma norm_ok : forall e, norm e <> S_OK /\ norm e <> E_PENDING /\ (e <> S_OK -> e <> E_PENDING -> norm e = e).
Proof.
  intros e. unfold norm. destruct (Z.eqb_spec e E_PENDING); [|destruct (Z.eqb_spec e S_OK)]; cbn.
  - split; [discriminate|]. split; [discriminate|]. congruence.
  - split; [discriminate|]. split; [discriminate|]. congruence.
  - auto.
Qed.

Definition bf (f : frame) : nat :=
  match f with VWr _ | PWr _ _ | N1 _ _ | NLock _ | NMove _ | NRel _ _ | NLoop _ _ => 1 | _ => 0 end.
Definition bfn (ph : nat) : nat := match ph with 1 | 2 | 3 | 4 => 1 | _ => 0 end.
Definition af (f : frame) : nat := match f with AAdd _ _ _ => 1 | _ => 0 end.
Definition ins (f : frame) : bool :=
  match f with AChk _ _ _ | AAdd _ _ _ | ARel _ _ _ | DRem _ | DRel | NMove _ | NRel _ _ => true | _ => false end.
Definition insn (f : frame) : nat := if ins f then 1 else 0.
Definition low (f : frame) : Prop := match f with Script _ | NLoop _ _ => True | _ => False end.
Definition aphs (ph : nat) : nat := match ph with 0 => 0 | 1 | 2 | 3 => 1 | 4 => 2 | _ => 3 end.
Definition fok (ph : nat) (o : out) (L : list nat) (t : bool) (cs : list call) (f : frame) : Prop :=
  match f with
  | IsC _ (KRes v) => In (OResolve v) cs
  | VCas v => In (OResolve v) cs
  | VWr v => ph = 1 /\ o_rs o = Some v /\ o_ep o = None /\ o_hr o = S_OK
  | XCas true => In OCancel cs
  | XCas false => (exists v, In (OResolve v) cs) /\ (t = true \/ 1 <= ph)
  | ECas e => In (OError e) cs
  | PCas p e => In (OExc p e) cs
  | PWr p e => ph = 1 /\ o_ep o = Some p /\ o_rs o = None /\ o_hr o = norm e
  | N1 c r => ph = 2 /\ c = o_hr o /\ (r = false -> o_st o = Canceled)
  | NLock r | NMove r => ph = 3 /\ (r = false -> o_st o = Canceled)
  | NRel l r | NLoop l r => ph = 4 /\ l = L /\ (r = false -> o_st o = Canceled)
  | ALock _ _ late | AChk _ _ late => late = true -> 1 <= ph
  | AAdd _ _ late => late = false /\ ph <= 3
  | TEp _ late x dn => (late = false -> dn = true) /\ (dn = true -> 3 <= ph /\ x = o_st o) /\ (x <> Started -> 1 <= ph /\ x = o_st o)
  | THr _ late x dn ep => (late = false -> dn = true) /\ (dn = true -> 3 <= ph /\ x = o_st o /\ ep = o_ep o) /\ (x <> Started -> 1 <= ph /\ x = o_st o)
  | GStat _ sp => sp = false -> 3 <= ph
  | GEp _ sp => sp = false -> 3 <= ph /\ o_st o = Error
  | GHr _ sp => sp = false -> 3 <= ph /\ o_st o = Error /\ o_ep o = None
  | GRes _ sp => sp = false -> 3 <= ph /\ o_st o = Completed
  | Script _ => 4 <= ph
  | _ => True
  end.
Lemma fok_mono : forall ph o L t cs f ph' o' L' t' cs', fok ph o L t cs f -> ph <= ph' -> (1 <= ph -> o' = o) -> (t = true -> t' = true) -> incl cs cs' ->
  (bf f = 0 \/ (ph' = ph /\ o' = o /\ (ph = 4 -> L' = L))) -> (ph' <= 3 \/ af f = 0) -> fok ph' o' L' t' cs' f.
Proof.
  intros ph o L t cs f ph' o' L' t' cs' F P O T C B A.
  destruct f as [n [v|w|w]|v|v|[]|e|p e|p e|c r|r|r|l r|l r|h x late|h x late|h x late|h x b|h|h| |h|h late x dn|h late x dn ep|w|w sp|w sp|w sp|w sp|l]; cbn in *;
    try exact Logic.I; try (apply C; assumption).
  - destruct B as [B|(-> & -> & _)]; [discriminate|assumption].
  - destruct F as [(v & V) [F|F]]; (split; [exists v; apply C; assumption|]); [left; auto|right; lia].
  - destruct B as [B|(-> & -> & _)]; [discriminate|assumption].
  - destruct B as [B|(-> & -> & _)]; [discriminate|assumption].
  - destruct B as [B|(-> & -> & _)]; [discriminate|assumption].
  - destruct B as [B|(-> & -> & _)]; [discriminate|assumption].
  - destruct B as [B|(-> & -> & E)]; [discriminate|]. destruct F as (-> & -> & F). rewrite E by reflexivity. auto.
  - destruct B as [B|(-> & -> & E)]; [discriminate|]. destruct F as (-> & -> & F). rewrite E by reflexivity. auto.
  - intros E. specialize (F E). lia.
  - intros E. specialize (F E). lia.
  - destruct A as [A|A]; [|discriminate]. destruct F. auto.
  - destruct F as (F1 & F2 & F3). split; [assumption|]. split.
    + intros E. destruct (F2 E) as [G1 G2]. rewrite O by lia. split; [lia|assumption].
    + intros E. destruct (F3 E) as [G1 G2]. rewrite O by lia. split; [lia|assumption].
  - destruct F as (F1 & F2 & F3). split; [assumption|]. split.
    + intros E. destruct (F2 E) as (G1 & G2 & G3). rewrite O by lia. split; [lia|auto].
    + intros E. destruct (F3 E) as [G1 G2]. rewrite O by lia. split; [lia|assumption].
  - intros E. specialize (F E). lia.
  - intros E. destruct (F E) as [G1 G2]. rewrite O by lia. split; [lia|assumption].
  - intros E. destruct (F E) as (G1 & G2 & G3). rewrite O by lia. split; [lia|auto].
  - intros E. destruct (F E) as [G1 G2]. rewrite O by lia. split; [lia|assumption].
  - lia.
Qed.
Section Proofs.
Variable prog : nat -> list call.
Notation exec := (exec prog).
Notation run := (run prog).

Record MemOK (x : mem) (ph : nat) (o : out) (L : list nat) (t : bool) : Prop := {
  m_st : stt x = if ph =? 0 then Started else o_st o;
  m_hr : hr x = if 3 <=? ph then o_hr o else E_PENDING;
  m_ep : ept x = if 2 <=? ph then o_ep o else None;
  m_rs : res x = if 2 <=? ph then o_rs o else None;
  m_tok : tok x = t;
  m_dl : dl x = if ph <=? 3 then L else [];
  m_o : 1 <= ph -> o_st o <> Started /\ o_hr o <> E_PENDING }.
Definition lk (w : option nat) : nat := match w with Some _ => 1 | None => 0 end.
Definition absof (ph : nat) (o : out) (L : list nat) (t : bool) (cs : list call) : abs := AA (aphs ph) (if ph =? 0 then None else Some o) L t cs.
Record Inv (s : st) (ph : nat) (o : out) (L : list nat) (t : bool) (cs : list call) : Prop := {
  v_log : replay fresh (log s) (absof ph o L t cs);
  v_mem : MemOK (m s) ph o L t;
  v_bf : suml (suml bf) (ag s) = bfn ph;
  v_f : forall i k f, nth_error (ag s) i = Some k -> In f k -> fok ph o L t cs f;
  v_lk : suml (suml insn) (ag s) = lk (own (m s));
  v_in : forall i k f, nth_error (ag s) i = Some k -> In f k -> ins f = true -> own (m s) = Some i;
  v_tl : forall i k, nth_error (ag s) i = Some k -> forall f, In f (tl k) -> low f;
  v_ph : ph <= 5 }.
Lemma suml_in : forall A (f : A -> nat) l x, In x l -> f x <= suml f l.
Proof. intros A f l x I. apply In_nth_error in I. destruct I as [i N]. apply (suml_ge _ _ _ _ _ N). Qed.
Lemma bfn_1 : forall ph, bfn ph <= 1.
Proof. intros [|[|[|[|[|]]]]]; cbn; lia. Qed.
Lemma bf_other : forall s ph o L t cs i j k k' f, Inv s ph o L t cs -> i <> j -> nth_error (ag s) i = Some k -> nth_error (ag s) j = Some k' -> 0 < suml bf k -> In f k' -> bf f = 0.
Proof.
  intros s ph o L t cs i j k k' f I NE N M P J. pose proof (v_bf _ _ _ _ _ _ I) as C. pose proof (suml_two _ (suml bf) _ _ _ _ _ NE N M). pose proof (suml_in _ bf _ _ J). pose proof (bfn_1 ph). lia.
Qed.
Lemma bf_tail : forall s ph o L t cs i f k g, Inv s ph o L t cs -> nth_error (ag s) i = Some (f :: k) -> 0 < bf f -> In g k -> bf g = 0.
Proof.
  intros s ph o L t cs i f k g I N P J. pose proof (v_bf _ _ _ _ _ _ I) as C. pose proof (suml_ge _ (suml bf) _ _ _ N) as G. cbn [suml] in G. pose proof (suml_in _ bf _ _ J). pose proof (bfn_1 ph). lia.
Qed.
Lemma Inv_put : forall s ph o L t cs i f k k' s' ph' o' L' t' cs',
  Inv s ph o L t cs -> nth_error (ag s) i = Some (f :: k) -> ag s' = set (ag s) i (k' ++ k) ->
  replay fresh (log s') (absof ph' o' L' t' cs') -> MemOK (m s') ph' o' L' t' -> ph' <= 5 ->
  suml bf k' + bfn ph = bf f + bfn ph' ->
  suml insn k' + lk (own (m s)) = insn f + lk (own (m s')) ->
  (forall g, In g k' -> ins g = true -> own (m s') = Some i) ->
  (forall j, i <> j -> own (m s) = Some j -> own (m s') = Some j) ->
  (forall g, In g k' -> fok ph' o' L' t' cs' g) ->
  (forall g, In g (tl k') -> low g) ->
  ph <= ph' -> (1 <= ph -> o' = o) -> (t = true -> t' = true) -> incl cs cs' ->
  (bf f = 1 \/ (ph' = ph /\ o' = o /\ (ph = 4 -> L' = L)) \/ ph = 0) -> (ph' <= 3 \/ 4 <= ph \/ own (m s) = Some i) -> Inv s' ph' o' L' t' cs'.
Proof.
  intros s ph o L t cs i f k k' s' ph' o' L' t' cs' I N EA R M5 P5 B K I1 I2 F T P O TT C BB AA.
  assert (LT : i < length (ag s)) by (apply nth_error_Some; congruence).
  assert (SP : forall g, suml g (k' ++ k) = suml g k' + suml g k) by (intros g; clear; induction k'; cbn; lia).
  assert (INS0 : forall g, In g k -> ins g = false).
  { intros g J. pose proof (v_tl _ _ _ _ _ _ I _ _ N g J) as Q. destruct g; cbn in Q; contradiction || reflexivity. }
  assert (MN : forall j d g, nth_error (ag s) j = Some d -> In g d -> (j = i -> In g k) -> fok ph' o' L' t' cs' g).
  { intros j d g M J JK. eapply fok_mono; [apply (v_f _ _ _ _ _ _ I _ _ _ M J)|assumption|assumption|assumption|assumption| |].
    - destruct BB as [BB|[BB|BB]]; [left|right; assumption|left].
      + destruct (Nat.eq_dec j i) as [->|NE]; [eapply bf_tail; [exact I|exact N|lia|auto]|]. eapply bf_other; [exact I| |exact N|exact M|cbn; lia|exact J]. congruence.
      + pose proof (v_bf _ _ _ _ _ _ I) as Q. subst ph. cbn in Q. pose proof (suml_ge _ (suml bf) _ _ _ M). pose proof (suml_in _ bf _ _ J). lia.
    - destruct AA as [AA|[AA|AA]]; [left; assumption|right|right].
      + pose proof (v_f _ _ _ _ _ _ I _ _ _ M J) as Q. destruct g; cbn in *; try reflexivity. lia.
      + destruct g; try reflexivity. pose proof (v_in _ _ _ _ _ _ I _ _ _ M J eq_refl) as Q. assert (j = i) by congruence. specialize (INS0 _ (JK H)). discriminate. }
  split; auto.
  - rewrite EA. pose proof (suml_set _ (suml bf) _ _ _ (k' ++ k) N) as Q. rewrite SP in Q. cbn [suml] in Q. pose proof (v_bf _ _ _ _ _ _ I). lia.
  - intros j d g. rewrite EA. intros M J. apply nth_set in M. destruct M as [[<- ->]|[NE M]].
    + apply in_app_or in J. destruct J as [J|J]; [auto|]. apply (MN i (f :: k) g N); [right; assumption|auto].
    + apply (MN j d g M J). congruence.
  - rewrite EA. pose proof (suml_set _ (suml insn) _ _ _ (k' ++ k) N) as Q. rewrite SP in Q. cbn [suml] in Q. pose proof (v_lk _ _ _ _ _ _ I). lia.
  - intros j d g. rewrite EA. intros M J G. apply nth_set in M. destruct M as [[<- ->]|[NE M]].
    + apply in_app_or in J. destruct J as [J|J]; [eapply I1; eassumption|]. rewrite (INS0 g J) in G. discriminate.
    + apply I2; [assumption|]. apply (v_in _ _ _ _ _ _ I _ _ _ M J G).
  - intros j d. rewrite EA. intros M g J. apply nth_set in M. destruct M as [[<- ->]|[NE M]]; [|apply (v_tl _ _ _ _ _ _ I _ _ M g J)].
    destruct k' as [|x k']; cbn [app tl] in J.
    + apply (v_tl _ _ _ _ _ _ I _ _ N g). destruct k; [contradiction|right; assumption].
    + apply in_app_or in J. destruct J as [J|J]; [apply T; assumption|]. apply (v_tl _ _ _ _ _ _ I _ _ N g J).
Qed.

Lemma enter_ok : forall s ph o L t cs c, MemOK (m s) ph o L t -> fok ph o L t (c :: cs) (enter s c) /\ bf (enter s c) = 0 /\ ins (enter s c) = false.
Proof.
  intros s ph o L t cs c M. assert (Q : negb (is (stt (m s)) Started) = true -> 1 <= ph).
  { intros Q. rewrite (m_st _ _ _ _ _ M) in Q. destruct ph; [discriminate|lia]. }
  destruct c; cbn; auto 6.
Qed.
Lemma linked_low : forall s ph o L t cs h, Inv s ph o L t cs -> ph <= 3 -> linked s h = isin h L.
Proof.
  intros s ph o L t cs h I P. unfold linked. rewrite (m_dl _ _ _ _ _ (v_mem _ _ _ _ _ _ I)). destruct (Nat.leb_spec ph 3); [|lia]. replace (existsb _ (ag s)) with false; [apply orb_false_r|]. symmetry.
  destruct (existsb _ (ag s)) eqn:E; [|reflexivity]. exfalso. apply existsb_exists in E. destruct E as (k & J & E). apply existsb_exists in E. destruct E as (f & J' & E).
  apply In_nth_error in J. destruct J as [i N]. pose proof (v_f _ _ _ _ _ _ I _ _ _ N J') as F. destruct f; cbn in E, F; try discriminate; lia.
Qed.
(** A step that changes only the frames and the log. *)
Lemma Inv_pc : forall s ph o L t cs i f k k' s', Inv s ph o L t cs -> nth_error (ag s) i = Some (f :: k) -> ag s' = set (ag s) i (k' ++ k) -> m s' = m s ->
  (log s' = log s \/ exists e, log s' = log s ++ [e] /\ astep (absof ph o L t cs) e (absof ph o L t cs)) ->
  suml bf k' = bf f -> suml insn k' = insn f -> (forall g, In g k' -> fok ph o L t cs g) -> (forall g, In g (tl k') -> low g) -> Inv s' ph o L t cs.
Proof.
  intros s ph o L t cs i f k k' s' I N EA EM EL B K F T.
  eapply Inv_put; [exact I|exact N|exact EA| |rewrite EM; apply I|apply I|lia|rewrite EM; lia| | |exact F|exact T|lia|auto|auto|apply incl_refl|auto|].
  - destruct EL as [->|(e & -> & A)]; [apply I|]. eapply r_snoc; [apply I|exact A].
  - intros g J G. rewrite EM. pose proof (suml_in _ insn _ _ J) as Q. unfold insn in Q at 1. rewrite G in Q. apply (v_in _ _ _ _ _ _ I _ _ f N); [left; reflexivity|]. rewrite K in Q. unfold insn in Q. destruct (ins f); [reflexivity|lia].
  - intros j NE O. rewrite EM. assumption.
  - destruct (le_lt_dec ph 3); [left; lia|right; left; lia].
Qed.
Lemma MemOK_own : forall x ph o L t w, MemOK x ph o L t -> MemOK (w_own x w) ph o L t.
Proof. intros x ph o L t w []. split; assumption. Qed.
Lemma Inv_acq : forall s ph o L t cs i f k g s', Inv s ph o L t cs -> nth_error (ag s) i = Some (f :: k) -> ag s' = set (ag s) i (g :: k) -> own (m s) = None -> m s' = w_own (m s) (Some i) ->
  log s' = log s -> bf g = bf f -> ins f = false -> ins g = true -> fok ph o L t cs g -> Inv s' ph o L t cs.
Proof.
  intros s ph o L t cs i f k g s' I N EA O EM EL B I1 I2 F.
  eapply (Inv_put s ph o L t cs i f k [g]); [exact I|exact N|exact EA|rewrite EL; apply I|rewrite EM; apply MemOK_own; apply I|apply I|cbn; lia| | | | | |lia|auto|auto|apply incl_refl|auto|].
  - rewrite EM, O. unfold insn. cbn. rewrite I1, I2. reflexivity.
  - intros x _ _. rewrite EM. reflexivity.
  - intros j NE Q. congruence.
  - intros x [<-|[]]. assumption.
  - intros x [].
  - destruct (le_lt_dec ph 3); [left; lia|right; left; lia].
Qed.
Lemma Inv_rel : forall s ph o L t cs i f k k' s', Inv s ph o L t cs -> nth_error (ag s) i = Some (f :: k) -> ag s' = set (ag s) i (k' ++ k) -> m s' = w_own (m s) None ->
  log s' = log s -> suml bf k' = bf f -> ins f = true -> (forall g, In g k' -> ins g = false) -> (forall g, In g k' -> fok ph o L t cs g) -> (forall g, In g (tl k') -> low g) -> Inv s' ph o L t cs.
Proof.
  intros s ph o L t cs i f k k' s' I N EA EM EL B I1 I2 F T. pose proof (v_in _ _ _ _ _ _ I _ _ f N (or_introl eq_refl) I1) as O.
  assert (Q : suml insn k' = 0) by (clear - I2; induction k' as [|x k' IH]; cbn; [reflexivity|]; rewrite IH by (intros g J; apply I2; right; assumption); unfold insn; rewrite (I2 x) by (left; reflexivity); reflexivity).
  eapply Inv_put; [exact I|exact N|exact EA|rewrite EL; apply I|rewrite EM; apply MemOK_own; apply I|apply I|lia| | | |exact F|exact T|lia|auto|auto|apply incl_refl|auto|].
  - rewrite EM, O. unfold insn at 2. rewrite I1. cbn. lia.
  - intros g J G. rewrite (I2 g J) in G. discriminate.
  - intros j NE R. congruence.
  - destruct (le_lt_dec ph 3); [left; lia|right; left; lia].
Qed.
(** The compare-exchange. *)
Lemma Inv_decide : forall s ph o L t cs i f k r c g, Inv s ph o L t cs -> nth_error (ag s) i = Some (f :: k) -> bf f = 0 -> ins f = false -> bf g = 1 -> ins g = false ->
  (stt (m s) = Started -> In c cs /\ completes t c r) -> r <> r \/ (exists q, (q = 1 \/ q = 2) /\ fok q r L t cs g /\ (q = 2 -> o_ep r = None /\ o_rs r = None)) ->
  o_st r <> Started -> o_hr r <> E_PENDING ->
  exists ph' o' L', Inv (decide s i k r g) ph' o' L' t cs.
Proof.
  intros s ph o L t cs i f k r c g I N B1 I1 B2 I2 C Q NS NP. pose proof (v_mem _ _ _ _ _ _ I) as M. unfold decide. destruct (is (stt (m s)) Started) eqn:S.
  - apply is_eq in S. destruct (C S) as [C1 C2]. assert (ph = 0).
    { destruct ph; [reflexivity|]. rewrite (m_st _ _ _ _ _ M) in S. cbn in S. destruct (m_o _ _ _ _ _ M); [lia|contradiction]. }
    subst ph. destruct Q as [Q|(q & Q & F & E)]; [contradiction|]. exists q, r, L.
    eapply (Inv_put s 0 o L t cs i f k [g]); [exact I|exact N|reflexivity| | |lia| | | | | |intros ? []|lia|lia|auto|apply incl_refl|auto|lia].
    + cbn. eapply r_snoc; [apply I|]. unfold absof. destruct Q as [->| ->]; cbn; econstructor; eassumption.
    + destruct M as [M1 M2 M3 M4 M5 M6 M7]. cbn in *. destruct Q as [->| ->]; split; cbn; auto. 1-2: rewrite ?M3, ?M4; symmetry; apply E; reflexivity.
    + cbn. destruct Q as [->| ->]; cbn; lia.
    + cbn. unfold insn. rewrite I1, I2. lia.
    + intros x [<-|[]] G. congruence.
    + auto.
    + intros x [<-|[]]. assumption.
  - exists ph, o, L. apply is_ne in S. eapply (Inv_pc s ph o L t cs i f k []); [exact I|exact N|reflexivity|reflexivity| |cbn; lia|cbn; unfold insn; rewrite I1; reflexivity|intros ? []|intros ? []].
    right. exists ELose. split; [reflexivity|]. constructor. rewrite (m_st _ _ _ _ _ M) in S. destruct ph as [|[|[|[|[|]]]]]; cbn in *; try lia. contradiction.
Qed.
Lemma step_inv : forall s ph o L t cs i f k s', Inv s ph o L t cs -> nth_error (ag s) i = Some (f :: k) -> step prog s i f k = Some s' -> exists ph' o' L' cs', Inv s' ph' o' L' t cs'.
Proof.
  intros s ph o L t cs i f k s' I N E. pose proof (v_mem _ _ _ _ _ _ I) as M. pose proof (v_f _ _ _ _ _ _ I _ _ f N (or_introl eq_refl)) as F.
  assert (S0 : stt (m s) <> Started -> 1 <= ph /\ stt (m s) = o_st o).
  { rewrite (m_st _ _ _ _ _ M). destruct ph; cbn; [congruence|]. intros _. split; [lia|reflexivity]. }
  assert (S1 : 1 <= ph -> stt (m s) = o_st o) by (intros P; rewrite (m_st _ _ _ _ _ M); destruct ph; [lia|reflexivity]).
  assert (AO : 1 <= ph -> absof ph o L t cs = AA (aphs ph) (Some o) L t cs) by (intros P; unfold absof; destruct ph; [lia|reflexivity]).
  assert (H3 : (hr (m s) =? E_PENDING)%Z = false -> 3 <= ph).
  { rewrite (m_hr _ _ _ _ _ M). destruct (Nat.leb_spec 3 ph); [auto|]. rewrite Z.eqb_refl. discriminate. }
  assert (DC : forall r c g, bf f = 0 -> ins f = false -> bf g = 1 -> ins g = false ->
    (stt (m s) = Started -> In c cs /\ completes t c r) -> (exists q, (q = 1 \/ q = 2) /\ fok q r L t cs g /\ (q = 2 -> o_ep r = None /\ o_rs r = None)) ->
    o_st r <> Started -> o_hr r <> E_PENDING -> Some (decide s i k r g) = Some s' -> exists ph' o' L' cs', Inv s' ph' o' L' t cs').
  { intros r c g A1 A2 A3 A4 A5 A6 A7 A8 A9. injection A9 as <-. destruct (Inv_decide s ph o L t cs i f k r c g I N A1 A2 A3 A4 A5 (or_intror A6) A7 A8) as (a1 & a2 & a3 & A). exists a1, a2, a3, cs. exact A. }
  destruct f as [n q|v|v|r|e|p e|p e|c r|r|r|l r|l r|h x late|h x late|h x late|h x b|h|h| |h|h late x dn|h late x dn ep|w|w sp|w sp|w sp|w sp|l]; cbn [step] in E.
  - (* IsC *)
    assert (AN : forall b, (b = true -> t = true \/ stt (m s) = Canceled) -> Inv (answer s i k q b) ph o L t cs).
    { intros b B. assert (B' : b = true -> t = true \/ 1 <= ph) by (intros E'; destruct (B E') as [B0|B0]; [auto|right; apply S0; rewrite B0; discriminate]).
      destruct q as [v|w|w]; destruct b; cbn [answer].
      + eapply (Inv_pc s ph o L t cs i _ k [XCas false]); [exact I|exact N|reflexivity|reflexivity|left; reflexivity|reflexivity|reflexivity| |intros ? []]. intros g [<-|[]]. cbn. split; [exists v; exact F|auto].
      + eapply (Inv_pc s ph o L t cs i _ k [VCas v]); [exact I|exact N|reflexivity|reflexivity|left; reflexivity|reflexivity|reflexivity| |intros ? []]. intros g [<-|[]]. exact F.
      + eapply (Inv_pc s ph o L t cs i _ k []); [exact I|exact N|reflexivity|reflexivity|right|reflexivity|reflexivity|intros ? []|intros ? []]. eexists. split; [reflexivity|]. constructor. intros _. cbn. destruct (B eq_refl) as [B0|B0]; [left; assumption|right].
        destruct S0 as [P Q]; [rewrite B0; discriminate|]. exists o. destruct ph; [lia|]. split; [reflexivity|congruence].
      + eapply (Inv_pc s ph o L t cs i _ k [_]); [exact I|exact N|reflexivity|reflexivity|left; reflexivity|reflexivity|reflexivity| |intros ? []]. intros g [<-|[]]. exact Logic.I.
      + eapply (Inv_pc s ph o L t cs i _ k []); [exact I|exact N|reflexivity|reflexivity|right|reflexivity|reflexivity|intros ? []|intros ? []]. eexists. split; [reflexivity|]. constructor. intros _. cbn. destruct (B eq_refl) as [B0|B0]; [left; assumption|right].
        destruct S0 as [P Q]; [rewrite B0; discriminate|]. exists o. destruct ph; [lia|]. split; [reflexivity|congruence].
      + eapply (Inv_pc s ph o L t cs i _ k [_]); [exact I|exact N|reflexivity|reflexivity|left; reflexivity|reflexivity|reflexivity| |intros ? []]. intros g [<-|[]]. exact Logic.I. }
    exists ph, o, L, cs. destruct n as [|[|n]].
    + destruct (is (stt (m s)) Completed); injection E as <-; [apply AN; discriminate|].
      eapply (Inv_pc s ph o L t cs i _ k [IsC 1 q]); [exact I|exact N|reflexivity|reflexivity|left; reflexivity|reflexivity|reflexivity| |intros ? []]. intros g [<-|[]]. exact F.
    + destruct (is (stt (m s)) Canceled) eqn:Q; injection E as <-; [apply AN; intros _; right; apply is_eq; exact Q|].
      eapply (Inv_pc s ph o L t cs i _ k [IsC 2 q]); [exact I|exact N|reflexivity|reflexivity|left; reflexivity|reflexivity|reflexivity| |intros ? []]. intros g [<-|[]]. exact F.
    + injection E as <-. apply AN. rewrite (m_tok _ _ _ _ _ M). auto.
  - (* VCas *) cbn in F. eapply (DC _ (OResolve v)); [reflexivity|reflexivity| | | | | | |exact E]; try reflexivity; try discriminate; [intros _; split; [exact F|constructor]|]. exists 1. cbn. split; [auto|]. split; [auto|discriminate].
  - (* VWr *) destruct F as (-> & F1 & F2 & F3). injection E as <-. exists 2, o, L, cs.
    eapply (Inv_put s 1 o L t cs i (VWr v) k [_]); [exact I|exact N|reflexivity|apply I| |lia|reflexivity|reflexivity| |auto| |intros ? []|lia|auto|auto|apply incl_refl|auto|lia].
    + destruct M as [M1 M2 M3 M4 M5 M6 M7]. cbn in *. split; cbn; auto. congruence.
    + intros g [<-|[]] G. discriminate.
    + intros g [<-|[]]. cbn. split; [reflexivity|]. split; [auto|discriminate].
  - (* XCas *) destruct r; cbn in F.
    + eapply (DC _ OCancel); [reflexivity|reflexivity| | | | | | |exact E]; try reflexivity; try discriminate; [intros _; split; [exact F|constructor]|]. exists 2. cbn. split; [auto|]. split; [|auto]. auto.
    + destruct F as [[v F] G]. eapply (DC _ (OResolve v)); [reflexivity|reflexivity| | | | | | |exact E]; try reflexivity; try discriminate.
      * intros S. split; [exact F|]. constructor. destruct G as [G|G]; [assumption|]. rewrite S1 in S by assumption. destruct (m_o _ _ _ _ _ M); [assumption|contradiction].
      * exists 2. cbn. auto 6.
  - (* ECas *) cbn in F. destruct (norm_ok e) as (K1 & K2 & K3). eapply (DC _ (OError e)); [reflexivity|reflexivity| | | | | | |exact E]; try reflexivity; try discriminate; [intros _; split; [exact F|constructor; assumption]| |exact K2]. exists 2. cbn. split; [auto|]. split; [|auto]. split; [auto|]. split; [auto|discriminate].
  - (* PCas *) cbn in F. destruct (norm_ok e) as (K1 & K2 & K3). eapply (DC _ (OExc p e)); [reflexivity|reflexivity| | | | | | |exact E]; try reflexivity; try discriminate; [intros _; split; [exact F|constructor; assumption]| |exact K2]. exists 1. cbn. split; [auto|]. split; [auto|discriminate].
  - (* PWr *) destruct F as (-> & F1 & F2 & F3). injection E as <-. exists 2, o, L, cs.
    eapply (Inv_put s 1 o L t cs i (PWr p e) k [_]); [exact I|exact N|reflexivity|apply I| |lia|reflexivity|reflexivity| |auto| |intros ? []|lia|auto|auto|apply incl_refl|auto|lia].
    + destruct M as [M1 M2 M3 M4 M5 M6 M7]. cbn in *. split; cbn; auto. congruence.
    + intros g [<-|[]] G. discriminate.
    + intros g [<-|[]]. cbn. split; [reflexivity|]. split; [auto|discriminate].
  - (* N1 *) destruct F as (-> & -> & F). injection E as <-. exists 3, o, L, cs.
    eapply (Inv_put s 2 o L t cs i (N1 (o_hr o) r) k [_]); [exact I|exact N|reflexivity|apply I| |lia|reflexivity|reflexivity| |auto| |intros ? []|lia|auto|auto|apply incl_refl|auto|lia].
    + destruct M as [M1 M2 M3 M4 M5 M6 M7]. cbn in *. split; cbn; auto.
    + intros g [<-|[]] G. discriminate.
    + intros g [<-|[]]. cbn. auto.
  - (* NLock *) destruct (own (m s)) eqn:O; [discriminate|]. injection E as <-. exists ph, o, L, cs. eapply Inv_acq; [exact I|exact N|reflexivity|exact O|reflexivity|reflexivity|reflexivity|reflexivity|reflexivity|exact F].
  - (* NMove *) destruct F as (-> & F). injection E as <-. exists 4, o, L, cs. pose proof (v_in _ _ _ _ _ _ I _ _ _ N (or_introl eq_refl) eq_refl) as O.
    eapply (Inv_put s 3 o L t cs i (NMove r) k [_]); [exact I|exact N|reflexivity| | |lia|reflexivity|reflexivity| |auto| |intros ? []|lia|auto|auto|apply incl_refl|auto|auto].
    + cbn. eapply r_snoc; [apply I|]. constructor.
    + destruct M as [M1 M2 M3 M4 M5 M6 M7]. cbn in *. split; cbn; auto.
    + intros g [<-|[]] G. exact O.
    + intros g [<-|[]]. cbn. split; [reflexivity|]. split; [|assumption]. apply (m_dl _ _ _ _ _ M).
  - (* NRel *) injection E as <-. exists ph, o, L, cs. eapply (Inv_rel s ph o L t cs i _ k [_]); [exact I|exact N|reflexivity|reflexivity|reflexivity|reflexivity|reflexivity| | |intros ? []]; intros g [<-|[]]; [reflexivity|exact F].
  - (* NLoop *) destruct F as (-> & -> & F). destruct L as [|h L]; injection E as <-.
    + exists 5, o, [], cs. eapply (Inv_put s 4 o [] t cs i (NLoop [] r) k []); [exact I|exact N|reflexivity| | |lia|reflexivity|reflexivity|intros ? []|auto|intros ? []|intros ? []|lia|auto|auto|apply incl_refl|auto|auto].
      * cbn. eapply r_snoc; [apply I|]. constructor. assumption.
      * destruct M as [M1 M2 M3 M4 M5 M6 M7]. cbn in *. split; cbn; auto.
    + exists 4, o, L, cs. rewrite (S1 ltac:(lia)). assert (D : hr (m s) = o_hr o) by apply (m_hr _ _ _ _ _ M). destruct (m_o _ _ _ _ _ M ltac:(lia)) as [G1 G2].
      assert (D' : negb (hr (m s) =? E_PENDING)%Z = true) by (rewrite D; destruct (Z.eqb_spec (o_hr o) E_PENDING); [contradiction|reflexivity]).
      rewrite D'.
      match goal with |- Inv (say (put _ _ (?f :: _)) _) _ _ _ _ _ => set (f0 := f) end.
      assert (Q : bf f0 = 0 /\ ins f0 = false /\ fok 4 o L t cs f0).
      { unfold f0. destruct (is (o_st o) Completed); cbn; auto. split; [reflexivity|]. split; [reflexivity|]. split; [auto|]. split; intros _; (split; [lia|reflexivity]). }
      destruct Q as (Q1 & Q2 & Q3).
      eapply (Inv_put s 4 o (h :: L) t cs i _ k [f0; Script (prog h); NLoop L r]); [exact I|exact N|reflexivity| | |lia| | | | | | |lia|auto|auto|apply incl_refl|auto|auto].
      * cbn. eapply r_snoc; [apply I|]. unfold absof. cbn. constructor.
      * destruct M as [M1 M2 M3 M4 M5 M6 M7]. cbn in *. split; cbn; auto.
      * cbn. lia.
      * cbn [suml insn ins]. unfold insn. rewrite Q2. reflexivity.
      * intros g [<-|[<-|[<-|[]]]] G; congruence || discriminate.
      * auto.
      * intros g [<-|[<-|[<-|[]]]]; [exact Q3|cbn; lia|cbn; auto].
      * intros g [<-|[<-|[]]]; exact Logic.I.
  - (* ALock *) destruct (own (m s)) eqn:O; [discriminate|]. injection E as <-. exists ph, o, L, cs. eapply Inv_acq; [exact I|exact N|reflexivity|exact O|reflexivity|reflexivity|reflexivity|reflexivity|reflexivity|exact F].
  - (* AChk *) exists ph, o, L, cs. destruct (is (stt (m s)) Started) eqn:S; injection E as <-.
    + apply is_eq in S. assert (ph = 0) by (destruct ph; [reflexivity|]; rewrite S1 in S by lia; destruct (m_o _ _ _ _ _ M); [lia|contradiction]). subst ph.
      eapply (Inv_pc s 0 o L t cs i _ k [_]); [exact I|exact N|reflexivity|reflexivity|left; reflexivity|reflexivity|reflexivity| |intros ? []]. intros g [<-|[]]. cbn in *. split; [|lia]. destruct late; [specialize (F eq_refl); lia|reflexivity].
    + apply is_ne in S. destruct (S0 S) as [P _]. eapply (Inv_pc s ph o L t cs i _ k [_]); [exact I|exact N|reflexivity|reflexivity|right|reflexivity|reflexivity| |intros ? []]; [|intros g [<-|[]]; exact Logic.I].
      eexists. split; [reflexivity|]. constructor. left. destruct ph as [|[|[|[|[|]]]]]; cbn; lia.
  - (* AAdd *) destruct F as [-> P]. rewrite (linked_low _ _ _ _ _ _ h I P) in E. pose proof (m_dl _ _ _ _ _ M) as D. destruct (Nat.leb_spec ph 3) as [_|]; [|lia]. rewrite D in E. destruct (isin h L) eqn:HL.
    + assert (E' : s' = say (put s i (ARel h x false :: k)) (EAdd h false false)) by (destruct L as [|? [|? ?]]; congruence). clear E. subst s'. exists ph, o, L, cs.
      eapply (Inv_pc s ph o L t cs i _ k [_]); [exact I|exact N|reflexivity|reflexivity|right|reflexivity|reflexivity| |intros ? []]; [|intros g [<-|[]]; exact Logic.I].
      eexists. split; [reflexivity|]. constructor. right. apply isin_iff. assumption.
    + injection E as <-. exists ph, o, (L ++ [h]), cs. pose proof (v_in _ _ _ _ _ _ I _ _ _ N (or_introl eq_refl) eq_refl) as O.
      eapply (Inv_put s ph o L t cs i _ k [_]); [exact I|exact N|reflexivity| | |apply I|reflexivity|reflexivity| |auto| |intros ? []|lia|auto|auto|apply incl_refl|right; left; split; [reflexivity|split; [reflexivity|lia]]|auto].
      * cbn. eapply r_snoc; [apply I|]. constructor; [|apply isin_no; assumption]. destruct ph as [|[|[|[|]]]]; cbn; lia.
      * destruct M as [M1 M2 M3 M4 M5 M6 M7]. cbn in *. split; cbn; auto. destruct (Nat.leb_spec ph 3); [reflexivity|lia].
      * intros g [<-|[]] G. exact O.
      * intros g [<-|[]]. exact Logic.I.
  - (* ARel *) injection E as <-. exists ph, o, L, cs. destruct (x && negb b).
    + eapply (Inv_rel s ph o L t cs i _ k [_]); [exact I|exact N|reflexivity|reflexivity|reflexivity|reflexivity|reflexivity| | |intros ? []]; intros g [<-|[]]; [reflexivity|exact Logic.I].
    + eapply (Inv_rel s ph o L t cs i _ k []); [exact I|exact N|reflexivity|reflexivity|reflexivity|reflexivity|reflexivity| | |intros ? []]; intros g [].
  - (* DLock *) destruct (own (m s)) eqn:O; [discriminate|]. injection E as <-. exists ph, o, L, cs. eapply Inv_acq; [exact I|exact N|reflexivity|exact O|reflexivity|reflexivity|reflexivity|reflexivity|reflexivity|exact F].
  - (* DRem *) injection E as <-. pose proof (m_dl _ _ _ _ _ M) as D. pose proof (v_in _ _ _ _ _ _ I _ _ _ N (or_introl eq_refl) eq_refl) as O. destruct (Nat.leb_spec ph 3) as [P|P]; rewrite D.
    + exists ph, o, (remove Nat.eq_dec h L), cs.
      eapply (Inv_put s ph o L t cs i _ k [_]); [exact I|exact N|reflexivity| | |apply I|reflexivity|reflexivity| |auto| |intros ? []|lia|auto|auto|apply incl_refl|right; left; split; [reflexivity|split; [reflexivity|lia]]|auto].
      * cbn. eapply r_snoc; [apply I|]. unfold absof. destruct (isin h L) eqn:HL.
        -- constructor; [|apply isin_iff; assumption]. destruct ph as [|[|[|[|]]]]; cbn; lia.
        -- apply isin_no in HL. rewrite notin_remove by assumption. constructor. auto.
      * destruct M as [M1 M2 M3 M4 M5 M6 M7]. cbn in *. split; cbn; auto. destruct (Nat.leb_spec ph 3); [reflexivity|lia].
      * intros g [<-|[]] G. exact O.
      * intros g [<-|[]]. exact Logic.I.
    + exists ph, o, L, cs. eapply (Inv_put s ph o L t cs i _ k [_]); [exact I|exact N|reflexivity| | |apply I|reflexivity|reflexivity| |auto| |intros ? []|lia|auto|auto|apply incl_refl|auto|auto].
      * cbn. eapply r_snoc; [apply I|]. constructor. left. destruct ph as [|[|[|[|[|]]]]]; cbn; lia.
      * destruct M as [M1 M2 M3 M4 M5 M6 M7]. cbn in *. split; cbn; auto. destruct (Nat.leb_spec ph 3); [lia|reflexivity].
      * intros g [<-|[]] G. exact O.
      * intros g [<-|[]]. exact Logic.I.
  - (* DRel *) injection E as <-. exists ph, o, L, cs. eapply (Inv_rel s ph o L t cs i _ k []); [exact I|exact N|reflexivity|reflexivity|reflexivity|reflexivity|reflexivity| | |intros ? []]; intros g [].
  - (* TStat *) injection E as <-. exists ph, o, L, cs. eapply (Inv_pc s ph o L t cs i _ k [_]); [exact I|exact N|reflexivity|reflexivity|left; reflexivity| | | |intros ? []].
    + destruct (is _ _); reflexivity.
    + destruct (is _ _); reflexivity.
    + intros g [<-|[]]. destruct (is (stt (m s)) Completed); cbn; [exact Logic.I|]. split; [discriminate|]. split; [|exact S0]. intros G. apply negb_true_iff in G. specialize (H3 G). split; [assumption|apply S1; lia].
  - (* TEp *) injection E as <-. exists ph, o, L, cs. eapply (Inv_pc s ph o L t cs i _ k [_]); [exact I|exact N|reflexivity|reflexivity|left; reflexivity|reflexivity|reflexivity| |intros ? []].
    intros g [<-|[]]. destruct F as (F1 & F2 & F3). cbn. split; [assumption|]. split; [|assumption]. intros G. destruct (F2 G) as [G1 G2]. split; [assumption|]. split; [assumption|]. rewrite (m_ep _ _ _ _ _ M). destruct (Nat.leb_spec 2 ph); [reflexivity|lia].
  - (* THr *) injection E as <-. exists ph, o, L, cs. eapply (Inv_pc s ph o L t cs i _ k []); [exact I|exact N|reflexivity|reflexivity|right|reflexivity|reflexivity|intros ? []|intros ? []].
    eexists. split; [reflexivity|]. destruct F as (F1 & F2 & F3). constructor.
    + intros G. destruct (F3 G) as [G1 G2]. exists o. split; [destruct ph; [lia|reflexivity]|assumption].
    + intros G. assert (DN : dn = true) by (destruct G; auto). destruct (F2 DN) as (G1 & G2 & G3). exists o. split; [destruct ph; [lia|reflexivity]|]. split; [assumption|]. split; [assumption|]. rewrite (m_hr _ _ _ _ _ M). destruct (Nat.leb_spec 3 ph); [reflexivity|lia].
  - (* GWait *) destruct (hr (m s) =? E_PENDING)%Z eqn:Q; [discriminate|]. injection E as <-. exists ph, o, L, cs. eapply (Inv_pc s ph o L t cs i _ k [_]); [exact I|exact N|reflexivity|reflexivity|left; reflexivity|reflexivity|reflexivity| |intros ? []].
    intros g [<-|[]] _. auto.
  - (* GStat *) exists ph, o, L, cs. destruct (stt (m s)) eqn:S; injection E as <-.
    + eapply (Inv_pc s ph o L t cs i _ k []); [exact I|exact N|reflexivity|reflexivity|right|reflexivity|reflexivity|intros ? []|intros ? []]. eexists. split; [reflexivity|]. constructor. intros Q. specialize (F Q). exfalso. pose proof (S1 ltac:(lia)) as S2. destruct (m_o _ _ _ _ _ M ltac:(lia)) as [G _]. apply G. congruence.
    + eapply (Inv_pc s ph o L t cs i _ k [_]); [exact I|exact N|reflexivity|reflexivity|left; reflexivity|reflexivity|reflexivity| |intros ? []]. intros g [<-|[]]. cbn in *. intros Q. specialize (F Q). rewrite <- S1 by lia. auto.
    + eapply (Inv_pc s ph o L t cs i _ k []); [exact I|exact N|reflexivity|reflexivity|right|reflexivity|reflexivity|intros ? []|intros ? []]. eexists. split; [reflexivity|]. constructor. intros _. right. exists o. rewrite <- S1 by (apply S0; discriminate). destruct S0; [discriminate|]. destruct ph; [lia|auto].
    + eapply (Inv_pc s ph o L t cs i _ k [_]); [exact I|exact N|reflexivity|reflexivity|left; reflexivity|reflexivity|reflexivity| |intros ? []]. intros g [<-|[]]. cbn in *. intros Q. specialize (F Q). rewrite <- S1 by lia. auto.
  - (* GEp *) exists ph, o, L, cs. pose proof (m_ep _ _ _ _ _ M) as G. destruct (ept (m s)) as [p|] eqn:Q; injection E as <-.
    + eapply (Inv_pc s ph o L t cs i _ k []); [exact I|exact N|reflexivity|reflexivity|right|reflexivity|reflexivity|intros ? []|intros ? []]. eexists. split; [reflexivity|]. constructor. intros W. destruct (F W) as [F1 F2]. exists o. destruct ph as [|[|ph]]; [lia|lia|]. cbn in G. auto.
    + eapply (Inv_pc s ph o L t cs i _ k [_]); [exact I|exact N|reflexivity|reflexivity|left; reflexivity|reflexivity|reflexivity| |intros ? []]. intros g [<-|[]]. cbn in *. intros W. destruct (F W) as [F1 F2]. destruct ph as [|[|ph]]; [lia|lia|]. cbn in G. auto.
  - (* GHr *) injection E as <-. exists ph, o, L, cs. eapply (Inv_pc s ph o L t cs i _ k []); [exact I|exact N|reflexivity|reflexivity|right|reflexivity|reflexivity|intros ? []|intros ? []]. eexists. split; [reflexivity|]. constructor. intros W. destruct (F W) as (F1 & F2 & F3). exists o. pose proof (m_hr _ _ _ _ _ M) as G. destruct ph as [|[|[|ph]]]; [lia|lia|lia|]. cbn in G. auto.
  - (* GRes *) injection E as <-. exists ph, o, L, cs. eapply (Inv_pc s ph o L t cs i _ k []); [exact I|exact N|reflexivity|reflexivity|right|reflexivity|reflexivity|intros ? []|intros ? []]. eexists. split; [reflexivity|]. constructor. intros W. destruct (F W) as (F1 & F2). exists o. pose proof (m_rs _ _ _ _ _ M) as G. destruct ph as [|[|[|ph]]]; [lia|lia|lia|]. cbn in G. auto.
  - (* Script *) destruct l as [|c l]; injection E as <-.
    + exists ph, o, L, cs. eapply (Inv_pc s ph o L t cs i _ k []); [exact I|exact N|reflexivity|reflexivity|left; reflexivity|reflexivity|reflexivity|intros ? []|intros ? []].
    + exists ph, o, L, (c :: cs). destruct (enter_ok s ph o L t cs c M) as (E1 & E2 & E3).
      eapply (Inv_put s ph o L t cs i _ k [_; _]); [exact I|exact N|reflexivity| |exact M|apply I| | | |auto| | |lia|auto|auto|apply incl_tl; apply incl_refl|auto|].
      * cbn. eapply r_snoc; [apply I|]. constructor.
      * cbn. lia.
      * cbn. unfold insn. rewrite E3. reflexivity.
      * intros g [<-|[<-|[]]] G; congruence || discriminate.
      * intros g [<-|[<-|[]]]; [assumption|exact F].
      * intros g [<-|[]]. exact Logic.I.
      * cbn in F. auto.
Qed.
Lemma exec_inv : forall s ph o L t cs a s', Inv s ph o L t cs -> exec s a = Some s' -> exists ph' o' L' t' cs', Inv s' ph' o' L' t' cs'.
Proof.
  intros s ph o L t cs [i c|i|i|] s' I E; cbn [AsyncModel.exec] in E.
  - destruct (nth_error (ag s) i) as [[|? ?]|] eqn:N; try discriminate. injection E as <-. destruct (enter_ok s ph o L t cs c (v_mem _ _ _ _ _ _ I)) as (E1 & E2 & E3).
    exists ph, o, L, t, (c :: cs). split; cbn.
    + eapply r_snoc; [apply I|]. constructor.
    + apply I.
    + pose proof (suml_set _ (suml bf) _ _ _ [enter s c] N) as Q. cbn [suml] in Q. rewrite E2 in Q. pose proof (v_bf _ _ _ _ _ _ I). lia.
    + intros j d f M J. apply nth_set in M. destruct M as [[<- ->]|[NE M]]; [destruct J as [<-|[]]; assumption|].
      eapply fok_mono; [apply (v_f _ _ _ _ _ _ I _ _ _ M J)|lia|auto|auto|apply incl_tl; apply incl_refl|auto|]. pose proof (v_f _ _ _ _ _ _ I _ _ _ M J) as F. destruct f; cbn in *; auto. left. apply F.
    + pose proof (suml_set _ (suml insn) _ _ _ [enter s c] N) as Q. assert (Z0 : insn (enter s c) = 0) by (unfold insn; rewrite E3; reflexivity). cbn [suml] in Q. rewrite Z0 in Q. pose proof (v_lk _ _ _ _ _ _ I). lia.
    + intros j d f M J G. apply nth_set in M. destruct M as [[<- ->]|[NE M]]; [destruct J as [<-|[]]; congruence|]. apply (v_in _ _ _ _ _ _ I _ _ _ M J G).
    + intros j d M f J. apply nth_set in M. destruct M as [[<- ->]|[NE M]]; [destruct J|]. apply (v_tl _ _ _ _ _ _ I _ _ M f J).
    + apply I.
  - destruct (nth_error (ag s) i) as [[|f k]|] eqn:N; try discriminate. destruct (step_inv _ _ _ _ _ _ _ _ _ _ I N E) as (a1 & a2 & a3 & a4 & A). exists a1, a2, a3, t, a4. exact A.
  - destruct (nth_error (ag s) i) as [[|[] k]|] eqn:N; try discriminate. injection E as <-. exists ph, o, L, t, cs.
    eapply (Inv_pc s ph o L t cs i _ k [_]); [exact I|exact N|reflexivity|reflexivity|left; reflexivity|reflexivity|reflexivity| |intros ? []]. intros g [<-|[]]. discriminate.
  - injection E as <-. exists ph, o, L, true, cs. destruct I as [I1 I2 I3 I4 I5 I6 I7 I8]. split; cbn; auto.
    + eapply r_snoc; [exact I1|]. constructor.
    + destruct I2. split; cbn; auto.
    + intros j d f M J. eapply fok_mono; [apply (I4 _ _ _ M J)|lia|auto|auto|apply incl_refl|auto|]. pose proof (I4 _ _ _ M J) as F. destruct f; cbn in *; auto. left. apply F.
Qed.
Lemma init_inv : forall n, Inv (init n) 0 (OUT Started 0 None None) [] false [].
Proof.
  intros n. assert (Q : forall i k, nth_error (repeat (@nil frame) n) i = Some k -> k = []) by (intros i k N; apply nth_error_In in N; apply repeat_spec in N; assumption).
  split; cbn; auto.
  - constructor.
  - split; cbn; auto. lia.
  - apply suml_repeat. reflexivity.
  - intros i k f N J. rewrite (Q _ _ N) in J. contradiction.
  - apply suml_repeat. reflexivity.
  - intros i k f N J. rewrite (Q _ _ N) in J. contradiction.
  - intros i k N f J. rewrite (Q _ _ N) in J. contradiction.
  - lia.
Qed.
Lemma run_inv : forall l s ph o L t cs s', Inv s ph o L t cs -> run s l = Some s' -> exists ph' o' L' t' cs', Inv s' ph' o' L' t' cs'.
Proof.
  induction l as [|a l IH]; intros s ph o L t cs s' I H; cbn [AsyncModel.run] in H; [injection H as <-; eauto 8|].
  destruct (exec s a) as [s1|] eqn:E; [|discriminate]. destruct (exec_inv _ _ _ _ _ _ _ _ I E) as (a1 & a2 & a3 & a4 & a5 & I1). eapply IH; eassumption.
Qed.
Lemma reach_inv : forall n l s, run (init n) l = Some s -> exists ph o L t cs, Inv s ph o L t cs.
Proof. intros n l s H. eapply run_inv; [apply init_inv|exact H]. Qed.
(** ** Termination *)
Definition W (h : nat) : nat := 20 * length (prog h) + 13.
Definition wq (q : kont) : nat := match q with KRes _ => 7 | KGet1 _ => 8 | KGet2 _ => 5 end.
Definition wt (f : frame) : nat :=
  match f with
  | IsC n q => match n with 0 => 3 | 1 => 2 | _ => 1 end + wq q
  | VCas _ | XCas _ | ECas _ | PCas _ _ => 7
  | VWr _ | PWr _ _ => 6 | N1 _ _ => 5 | NLock _ => 4 | NMove _ => 3
  | NRel l _ => 2 + suml W l | NLoop l _ => 1 + suml W l
  | ALock h _ late => 16 + (if late then 0 else W h) | AChk h _ late => 15 + (if late then 0 else W h) | AAdd h _ _ => 14 + W h
  | ARel _ _ _ => 13 | DLock _ => 3 | DRem _ => 2 | DRel => 1
  | TStat _ => 12 | TEp _ _ _ _ => 2 | THr _ _ _ _ _ => 1
  | GWait _ => 5 | GStat _ _ => 4 | GEp _ _ => 3 | GHr _ _ => 2 | GRes _ _ => 1
  | Script l => 1 + 20 * length l
  end.
Definition measure (s : st) : nat := suml (suml wt) (ag s) + suml W (dl (m s)).
Lemma suml_remove : forall (f : nat -> nat) h l, suml f (remove Nat.eq_dec h l) <= suml f l.
Proof. intros f h l. induction l as [|x l IH]; cbn; [lia|]. destruct (Nat.eq_dec h x); cbn; lia. Qed.
Lemma suml_snoc : forall (f : nat -> nat) l x, suml f (l ++ [x]) = suml f l + f x.
Proof. intros f l x. induction l; cbn; lia. Qed.
Lemma step_measure : forall s ph o L t cs i f k s', Inv s ph o L t cs -> nth_error (ag s) i = Some (f :: k) -> step prog s i f k = Some s' -> measure s' < measure s.
Proof.
  intros s ph o L t cs i f k s' I N E.
  assert (G : forall k', suml (suml wt) (set (ag s) i k') + (wt f + suml wt k) = suml (suml wt) (ag s) + suml wt k') by (intros k'; apply (suml_set _ (suml wt) _ _ _ k' N)).
  pose proof (v_f _ _ _ _ _ _ I _ _ f N (or_introl eq_refl)) as F. pose proof (v_mem _ _ _ _ _ _ I) as M. unfold measure.
  assert (PU : forall k' s1, ag s1 = set (ag s) i k' -> dl (m s1) = dl (m s) -> suml wt k' < wt f + suml wt k -> suml (suml wt) (ag s1) + suml W (dl (m s1)) < suml (suml wt) (ag s) + suml W (dl (m s))).
  { intros k' s1 -> -> Q. specialize (G k'). lia. }
  assert (DC : forall r g, 7 = wt f -> wt g <= 6 -> s' = decide s i k r g -> suml (suml wt) (ag s') + suml W (dl (m s')) < suml (suml wt) (ag s) + suml W (dl (m s))).
  { intros r g Q1 Q2 ->. unfold decide. destruct (is (stt (m s)) Started); [apply (PU (g :: k))|apply (PU k)]; try reflexivity; cbn [suml]; lia. }
  assert (AN : forall q b, wq q < wt f -> s' = answer s i k q b -> suml (suml wt) (ag s') + suml W (dl (m s')) < suml (suml wt) (ag s) + suml W (dl (m s))).
  { intros q b Q ->. destruct q, b; cbn [answer wq] in *; [apply (PU (XCas false :: k))|apply (PU (VCas v :: k))|apply (PU k)|apply (PU (IsC 0 (KGet2 w) :: k))|apply (PU k)|apply (PU (GWait w :: k))]; try reflexivity; cbn [suml wt wq]; lia. }
  destruct f as [n q|v|v|r|e|p e|p e|c r|r|r|l r|l r|h x late|h x late|h x late|h x b|h|h| |h|h late x dn|h late x dn ep|w|w sp|w sp|w sp|w sp|l]; cbn [step] in E; cbn [fok] in F.
  - destruct n as [|[|n]].
    + destruct (is (stt (m s)) Completed); injection E as <-; [eapply AN; [|reflexivity]; cbn [wt]; lia|]. apply (PU (IsC 1 q :: k)); try reflexivity. cbn [suml wt]. lia.
    + destruct (is (stt (m s)) Canceled); injection E as <-; [eapply AN; [|reflexivity]; cbn [wt]; lia|]. apply (PU (IsC 2 q :: k)); try reflexivity. cbn [suml wt]. lia.
    + injection E as <-. eapply AN; [|reflexivity]. cbn [wt]. lia.
  - injection E as <-. eapply DC; [| |reflexivity]; cbn [wt]; lia.
  - injection E as <-. eapply PU; try reflexivity. cbn [suml wt]. lia.
  - injection E as <-. eapply DC; [| |reflexivity]; cbn [wt]; lia.
  - injection E as <-. eapply DC; [| |reflexivity]; cbn [wt]; lia.
  - injection E as <-. eapply DC; [| |reflexivity]; cbn [wt]; lia.
  - injection E as <-. eapply PU; try reflexivity. cbn [suml wt]. lia.
  - injection E as <-. eapply PU; try reflexivity. cbn [suml wt]. lia.
  - destruct (own (m s)); [discriminate|]. injection E as <-. eapply PU; try reflexivity. cbn [suml wt]. lia.
  - injection E as <-. cbn [say put setm w_dl m ag dl suml]. specialize (G (NRel (dl (m s)) r :: k)). cbn [suml wt] in G. lia.
  - injection E as <-. eapply PU; try reflexivity. cbn [suml wt]. lia.
  - destruct l as [|h l]; injection E as <-; eapply PU; try reflexivity; cbn [suml wt]; [lia|]. unfold W at 2. destruct (is (stt (m s)) Completed); cbn [wt wq]; lia.
  - destruct (own (m s)); [discriminate|]. injection E as <-. eapply PU; try reflexivity. cbn [suml wt]. lia.
  - destruct (is (stt (m s)) Started) eqn:S; injection E as <-; (eapply PU; try reflexivity; cbn [suml wt]); [|destruct late; lia].
    destruct late; [|lia]. specialize (F eq_refl). apply is_eq in S. rewrite (m_st _ _ _ _ _ M) in S. destruct ph; [lia|]. destruct (m_o _ _ _ _ _ M F). contradiction.
  - destruct (linked s h).
    + assert (E' : s' = say (put s i (ARel h x false :: k)) (EAdd h late false)) by (destruct (dl (m s)) as [|? [|? ?]]; congruence). subst s'. eapply PU; try reflexivity. cbn [suml wt]. lia.
    + injection E as <-. cbn [say put setm w_dl m ag dl]. rewrite suml_snoc. specialize (G (ARel h x true :: k)). cbn [suml wt] in G. lia.
  - injection E as <-. eapply PU; try reflexivity. destruct (x && negb b); cbn [suml wt]; lia.
  - destruct (own (m s)); [discriminate|]. injection E as <-. eapply PU; try reflexivity. cbn [suml wt]. lia.
  - injection E as <-. cbn [say put setm w_dl m ag dl]. specialize (G (DRel :: k)). cbn [suml wt] in G. pose proof (suml_remove W h (dl (m s))). lia.
  - injection E as <-. eapply PU; try reflexivity. cbn [suml wt]. lia.
  - injection E as <-. eapply PU; try reflexivity. destruct (is (stt (m s)) Completed); cbn [suml wt wq]; lia.
  - injection E as <-. eapply PU; try reflexivity. cbn [suml wt]. lia.
  - injection E as <-. eapply PU; try reflexivity. cbn [suml wt]. lia.
  - destruct (hr (m s) =? E_PENDING)%Z; [discriminate|]. injection E as <-. eapply PU; try reflexivity. cbn [suml wt]. lia.
  - destruct (stt (m s)); injection E as <-; (eapply PU; try reflexivity; cbn [suml wt]; lia).
  - destruct (ept (m s)); injection E as <-; (eapply PU; try reflexivity; cbn [suml wt]; lia).
  - injection E as <-. eapply PU; try reflexivity. cbn [suml wt]. lia.
  - injection E as <-. eapply PU; try reflexivity. cbn [suml wt]. lia.
  - destruct l as [|c l]; injection E as <-; (eapply PU; try reflexivity; cbn [suml wt length]); [lia|].
    assert (S : is (stt (m s)) Started = false) by (apply is_ne; rewrite (m_st _ _ _ _ _ M); destruct ph; [lia|]; apply (m_o _ _ _ _ _ M); lia).
    destruct c; cbn [enter wt wq]; rewrite ?S; cbn [negb]; lia.
Qed.
Definition isstep (a : act) : bool := match a with Step _ | Spur _ => true | _ => false end.
Definition isstart (a : act) : bool := match a with Start _ _ => true | _ => false end.
Lemma steps_bound : forall l s ph o L t cs s', Inv s ph o L t cs -> existsb isstart l = false -> run s l = Some s' -> length (filter isstep l) <= measure s.
Proof.
  induction l as [|a l IH]; intros s ph o L t cs s' I Q H; cbn [AsyncModel.run filter existsb] in *; [cbn; lia|]. apply orb_false_iff in Q. destruct Q as [Q1 Q2].
  destruct (exec s a) as [s1|] eqn:E; [|discriminate]. destruct (exec_inv _ _ _ _ _ _ _ _ I E) as (a1 & a2 & a3 & a4 & a5 & I1). specialize (IH _ _ _ _ _ _ _ I1 Q2 H).
  destruct a as [i c|i|i|]; cbn [isstart isstep AsyncModel.exec] in *; [discriminate| | |].
  - destruct (nth_error (ag s) i) as [[|f k]|] eqn:N; try discriminate. pose proof (step_measure _ _ _ _ _ _ _ _ _ _ I N E). cbn [length]. lia.
  - destruct (nth_error (ag s) i) as [[|[] k]|] eqn:N; try discriminate. injection E as <-. unfold measure in IH at 1. cbn [put ag m length] in *. pose proof (suml_set _ (suml wt) _ _ _ (GStat w true :: k) N) as G. cbn [suml wt] in G. unfold measure. lia.
  - injection E as <-. exact IH.
Qed.
(** ** Progress *)
Definition stuck (s : st) : Prop := forall i, exec s (Step i) = None.
(** A thread that adds a handler which is the only one registered (excluded, see the model). *)
Definition readd (s : st) : Prop := exists i h x late k, nth_error (ag s) i = Some (AAdd h x late :: k) /\ dl (m s) = [h].
Lemma own_top : forall s ph o L t cs j, Inv s ph o L t cs -> own (m s) = Some j -> exists f k, nth_error (ag s) j = Some (f :: k) /\ ins f = true.
Proof.
  intros s ph o L t cs j I O. pose proof (v_lk _ _ _ _ _ _ I) as K. rewrite O in K. cbn in K. destruct (suml_pos _ (suml insn) (ag s)) as (i & k & N & P); [lia|].
  destruct (suml_pos _ insn k P) as (x & f & N' & P'). unfold insn in P'. destruct (ins f) eqn:G; [|lia]. apply nth_error_In in N'. pose proof (v_in _ _ _ _ _ _ I _ _ _ N N' G) as O'. assert (i = j) by congruence. subst i.
  destruct k as [|g k]; [destruct N'|]. destruct N' as [->|J]; [exists f, k; auto|]. exfalso. pose proof (v_tl _ _ _ _ _ _ I _ _ N f J) as T. destruct f; cbn in T, G; try contradiction; discriminate.
Qed.
Lemma stuck_lock : forall s ph o L t cs, Inv s ph o L t cs -> stuck s -> own (m s) <> None -> readd s.
Proof.
  intros s ph o L t cs I S O. destruct (own (m s)) as [j|] eqn:O'; [|contradiction]. destruct (own_top _ _ _ _ _ _ _ I O') as (f & k & N & G). specialize (S j). cbn [AsyncModel.exec] in S. rewrite N in S. pose proof (v_f _ _ _ _ _ _ I _ _ f N (or_introl eq_refl)) as F.
  destruct f; cbn [step ins] in S, G; try discriminate; [destruct (is (stt (m s)) Started); discriminate|].
  destruct F as [-> P]. rewrite (linked_low _ _ _ _ _ _ h I P) in S. destruct (isin h L) eqn:HL; [|discriminate]. pose proof (m_dl _ _ _ _ _ (v_mem _ _ _ _ _ _ I)) as D. destruct (Nat.leb_spec ph 3); [|lia].
  rewrite D in S. destruct L as [|x [|? ?]]; try discriminate. apply isin_iff in HL. destruct HL as [->|[]]. exists j, h, t0, false, k. split; [assumption|congruence].
Qed.
Lemma stuck_frames : forall s ph o L t cs i f k, Inv s ph o L t cs -> stuck s -> ~ readd s -> nth_error (ag s) i = Some (f :: k) -> exists w, f = GWait w /\ hr (m s) = E_PENDING.
Proof.
  intros s ph o L t cs i f k I S R N. assert (O : own (m s) = None) by (destruct (own (m s)) eqn:O; [exfalso; apply R; eapply stuck_lock; [exact I|exact S|congruence]|reflexivity]).
  pose proof (S i) as E. cbn [AsyncModel.exec] in E. rewrite N in E.
  assert (NI : ins f = false) by (destruct (ins f) eqn:G; [|reflexivity]; pose proof (v_in _ _ _ _ _ _ I _ _ f N (or_introl eq_refl) G); congruence).
  destruct f as [n q|v|v|r|e|p e|p e|c r|r|r|l r|l r|h x late|h x late|h x late|h x b|h|h| |h|h late x dn|h late x dn ep|w|w sp|w sp|w sp|w sp|l]; cbn [step ins] in E, NI; try discriminate;
    try (rewrite O in E; discriminate).
  - destruct n as [|[|n]]; [destruct (is (stt (m s)) Completed)|destruct (is (stt (m s)) Canceled)|]; discriminate.
  - destruct l; discriminate.
  - destruct (Z.eqb_spec (hr (m s)) E_PENDING); [eauto|discriminate].
  - destruct (stt (m s)); discriminate.
  - destruct (ept (m s)); discriminate.
  - destruct l; discriminate.
Qed.
Lemma stuck_open : forall s ph o L t cs i f k, Inv s ph o L t cs -> stuck s -> ~ readd s -> nth_error (ag s) i = Some (f :: k) -> ph = 0.
Proof.
  intros s ph o L t cs i f k I S R N. destruct (stuck_frames _ _ _ _ _ _ _ _ _ I S R N) as (w & -> & H). pose proof (v_mem _ _ _ _ _ _ I) as M. rewrite (m_hr _ _ _ _ _ M) in H.
  destruct (le_lt_dec 3 ph) as [P|P]; [destruct (Nat.leb_spec 3 ph); [|lia]; destruct (m_o _ _ _ _ _ M); [lia|contradiction]|].
  destruct (Nat.eq_dec ph 0); [assumption|]. exfalso. pose proof (v_bf _ _ _ _ _ _ I) as B. assert (B1 : bfn ph = 1) by (destruct ph as [|[|[|]]]; [lia|reflexivity|reflexivity|lia]).
  destruct (suml_pos _ (suml bf) (ag s)) as (j & k' & N' & Q); [lia|]. destruct k' as [|g k']; [cbn in Q; lia|]. destruct (stuck_frames _ _ _ _ _ _ _ _ _ I S R N') as (w' & -> & _). cbn in Q.
  destruct (suml_pos _ bf k' Q) as (x & g & N2 & Q'). apply nth_error_In in N2. pose proof (v_tl _ _ _ _ _ _ I _ _ N' g N2) as T. pose proof (v_f _ _ _ _ _ _ I _ _ g N' (or_intror N2)) as F. destruct g; cbn in T, F, Q'; try contradiction; lia.
Qed.
End Proofs.

(** ** What every log of the specification satisfies *)
Definition ch (h : nat) (L : list nat) : nat := count_occ Nat.eq_dec L h.
Record RI (l : list event) (a : abs) : Prop := {
  q_nd : NoDup (aL a);
  q_ct : forall h, nadd h l = nrem h l + ncall h l + ch h (aL a);
  q_c1 : forall h, ncall h l + ch h (aL a) <= 1;
  q_c0 : aph a <= 1 -> forall h, ncall h l = 0;
  q_dc : ndec l = (if aph a =? 0 then 0 else 1);
  q_fn : nfin l = (if aph a =? 3 then 1 else 0);
  q_wn : nwon l <= nfin l;
  q_L3 : aph a = 3 -> aL a = [];
  q_o : forall o, In (EDecide o) l <-> aout a = Some o;
  q_o0 : aph a = 0 <-> aout a = None;
  q_cs : forall c, In c (acs a) -> In (EStart c) l;
  q_tk : atok a = true -> In ETok l;
  q_cm : forall o, In (EDecide o) l -> exists c t, In (EStart c) l /\ completes t c o /\ (t = true -> In ETok l);
  q_cl : forall h x, In (ECall h x) l -> exists o, In (EDecide o) l /\ x = o_st o;
  q_ls : In ELose l -> ndec l = 1;
  q_ff : In (EFin false) l -> exists o, In (EDecide o) l /\ o_st o = Canceled;
  q_ad : forall h b, In (EAdd h true b) l -> b = false;
  q_se : forall h late dn x ep e, In (ESee h late dn x ep e) l ->
    (x <> Started -> exists o, In (EDecide o) l /\ x = o_st o) /\
    (late = false \/ dn = true -> exists o, In (EDecide o) l /\ x = o_st o /\ ep = o_ep o /\ e = o_hr o);
  q_gt : forall w r, In (EGet w false r) l -> exists o t, (forall c, o = Some c -> In (EDecide c) l) /\ (t = true -> In ETok l) /\ got o t r
}.
Lemma nlen : forall (p : event -> bool) l e, length (filter p (l ++ [e])) = length (filter p l) + (if p e then 1 else 0).
Proof. intros p l e. rewrite filter_app, app_length. cbn. destruct (p e); reflexivity. Qed.
Lemma count_remove : forall h x L, ch h (remove Nat.eq_dec x L) = if h =? x then 0 else ch h L.
Proof.
  unfold ch. induction L as [|y L IH]; cbn; [destruct (h =? x); reflexivity|]. destruct (Nat.eq_dec x y) as [->|NE].
  - rewrite IH. destruct (Nat.eqb_spec h y) as [->|N2]; [reflexivity|]. destruct (Nat.eq_dec y h); [congruence|reflexivity].
  - cbn. rewrite IH. destruct (Nat.eqb_spec h x) as [->|N2]; [|reflexivity]. destruct (Nat.eq_dec y x); [congruence|reflexivity].
Qed.
Lemma NoDup_rem : forall x L, NoDup L -> NoDup (remove Nat.eq_dec x L).
Proof.
  induction 1 as [|y L NI ND IH]; cbn; [constructor|]. destruct (Nat.eq_dec x y); [assumption|]. constructor; [|assumption]. intros J. apply in_remove in J. tauto.
Qed.
Lemma NoDup_end : forall (x : nat) L, ~ In x L -> NoDup L -> NoDup (L ++ [x]).
Proof.
  induction L as [|y L IH]; cbn; intros NI ND; [repeat constructor; auto|]. inversion ND; subst. constructor; [|apply IH; tauto].
  rewrite in_app_iff. cbn. intros [J|[J|[]]]; [contradiction|]. subst. tauto.
Qed.
Lemma ch_le1 : forall h L, NoDup L -> ch h L <= 1.
Proof. intros h L ND. apply (proj1 (NoDup_count_occ Nat.eq_dec L)). assumption. Qed.
Lemma ch_in : forall h L, NoDup L -> In h L -> ch h L = 1.
Proof. intros h L ND J. apply (proj1 (NoDup_count_occ' Nat.eq_dec L)); assumption. Qed.
Lemma ch_no : forall h L, ~ In h L -> ch h L = 0.
Proof. intros h L J. apply count_occ_not_In. assumption. Qed.
Lemma ch_app : forall h L x, ch h (L ++ [x]) = ch h L + (if h =? x then 1 else 0).
Proof. intros h L x. unfold ch. rewrite count_occ_app. cbn. destruct (Nat.eq_dec x h) as [->|NE]; [rewrite Nat.eqb_refl; reflexivity|]. destruct (Nat.eqb_spec h x); [congruence|reflexivity]. Qed.
Lemma in_snoc : forall (x e : event) l, In x (l ++ [e]) <-> In x l \/ x = e.
Proof. intros. rewrite in_app_iff. cbn. intuition. Qed.
Lemma RI_step : forall l a e b, RI l a -> astep a e b -> RI (l ++ [e]) b.
Proof.
  intros l a e b R A.
  destruct R as [q_nd0 q_ct0 q_c10 q_c00 q_dc0 q_fn0 q_wn0 q_L30 q_o1 q_o00 q_cs0 q_tk0 q_cm0 q_cl0 q_ls0 q_ff0 q_ad0 q_se0 q_gt0].
  unfold nadd, nrem, ncall, ndec, nfin, nwon in *.
  assert (OUTP : forall o, In (EDecide o) l -> In (EDecide o) (l ++ [e])) by (intros; apply in_snoc; auto).
  assert (CM : (forall o, In (EDecide o) l -> exists c t, In (EStart c) (l ++ [e]) /\ completes t c o /\ (t = true -> In ETok (l ++ [e])))).
  { intros o J. destruct (q_cm0 o J) as (c & t & C1 & C2 & C3). exists c, t. rewrite !in_snoc. auto 6. }
  assert (CL : forall h x, In (ECall h x) l -> exists o, In (EDecide o) (l ++ [e]) /\ x = o_st o) by (intros h x J; destruct (q_cl0 h x J) as (o & C1 & C2); eauto).
  assert (FF : In (EFin false) l -> exists o, In (EDecide o) (l ++ [e]) /\ o_st o = Canceled) by (intros J; destruct (q_ff0 J) as (o & C1 & C2); eauto).
  assert (SE : forall h late dn x ep c, In (ESee h late dn x ep c) l ->
    (x <> Started -> exists o, In (EDecide o) (l ++ [e]) /\ x = o_st o) /\
    (late = false \/ dn = true -> exists o, In (EDecide o) (l ++ [e]) /\ x = o_st o /\ ep = o_ep o /\ c = o_hr o)).
  { intros h late dn x ep c J. destruct (q_se0 _ _ _ _ _ _ J) as [S1 S2]. split; intros G; [destruct (S1 G) as (o & G1)|destruct (S2 G) as (o & G1)]; exists o; destruct G1; auto. }
  assert (GT : forall w r, In (EGet w false r) l -> exists o t, (forall c, o = Some c -> In (EDecide c) (l ++ [e])) /\ (t = true -> In ETok (l ++ [e])) /\ got o t r).
  { intros w r J. destruct (q_gt0 _ _ J) as (o & t & G1 & G2 & G3). exists o, t. split; [auto|]. split; [|assumption]. intros T. apply in_snoc. auto. }
  destruct A; cbn [aph aout aL atok acs] in *;
    (split; cbn [aph aout aL atok acs]; unfold nadd, nrem, ncall, ndec, nfin, nwon;
     [ | intros h0; rewrite !nlen; specialize (q_ct0 h0); specialize (q_c10 h0) | intros h0; rewrite !nlen; specialize (q_ct0 h0); specialize (q_c10 h0) | intros P0 h0; rewrite !nlen
     | rewrite !nlen | rewrite !nlen | rewrite !nlen | | intros o0; rewrite in_snoc | | intros c0 J0; rewrite in_snoc | intros J0; rewrite in_snoc
     | intros o0 J0; rewrite in_snoc in J0 | intros h0 x0 J0; rewrite in_snoc in J0 | intros J0; rewrite in_snoc in J0; rewrite !nlen | intros J0; rewrite in_snoc in J0 | intros h0 b0 J0; rewrite in_snoc in J0
     | intros h0 late0 dn0 x0 ep0 e0 J0; rewrite in_snoc in J0 | intros w0 r0 J0; rewrite in_snoc in J0 ]);
    try (destruct J0 as [J0|J0]; [|discriminate J0]); try rewrite !Nat.add_0_r;
    try (assumption || (apply q_nd0) || (apply q_ct0) || (apply q_c10) || (apply q_c00; assumption) || (apply CM; assumption) || (eapply CL; eassumption) || (apply FF; assumption) || (eapply SE; eassumption) || (eapply GT; eassumption) || (eapply q_ad0; eassumption) || (eapply q_ls0; eassumption) || (left; apply q_cs0; assumption) || (left; apply q_tk0; assumption) || tauto || lia || discriminate).
  all: try (rewrite q_o1; split; [intros [K|K]; [assumption|discriminate]|auto]; fail).

  - destruct J0 as [<-|J0]; [right; reflexivity|left; apply q_cs0; assumption].
  - apply q_c00. lia.
  - cbn in *. lia.
  - rewrite q_o1. split; [intros [K|K]; [discriminate|congruence]|]. intros [= ->]. right. reflexivity.
  - split; discriminate.
  - destruct J0 as [J0|J0]; [apply CM; assumption|]. injection J0 as ->. exists c, t. rewrite !in_snoc. auto 6.
  - cbn in *. lia.
  - cbn in *. lia.
  - cbn in *. lia.
  - destruct r; lia.
  - split; discriminate.
  - destruct J0 as [J0|J0]; [apply FF; assumption|]. injection J0 as <-. exists o. rewrite in_snoc. split; [left; apply q_o1; reflexivity|auto].
  - rewrite q_dc0. destruct ph; [lia|reflexivity].
  - apply NoDup_end; assumption.
  - rewrite ch_app. rewrite (Nat.eqb_sym h0 h). destruct (h =? h0); lia.
  - rewrite ch_app. specialize (q_c00 ltac:(lia) h0). destruct (Nat.eqb_spec h0 h) as [->|NE]; [rewrite ch_no by assumption|]; lia.
  - destruct J0 as [J0|J0]; [eapply q_ad0; eassumption|]. injection J0 as _ _ ->. reflexivity.
  - apply NoDup_rem. assumption.
  - rewrite count_remove. rewrite (Nat.eqb_sym h0 h). destruct (Nat.eqb_spec h h0) as [->|NE]; [rewrite (ch_in h0 L) in q_ct0 by assumption|]; lia.
  - rewrite count_remove. destruct (h0 =? h); lia.
  - split; [discriminate|]. intros K. apply q_o00 in K. discriminate.
  - inversion q_nd0; assumption.
  - unfold ch in *. cbn in *. destruct (Nat.eq_dec h h0) as [->|NE]; [rewrite Nat.eqb_refl; lia|]. destruct (Nat.eqb_spec h h0); [contradiction|lia].
  - unfold ch in *. cbn in *. destruct (Nat.eq_dec h h0) as [->|NE]; [rewrite Nat.eqb_refl; lia|]. destruct (Nat.eqb_spec h h0); [contradiction|lia].
  - destruct J0 as [J0|J0]; [eapply CL; eassumption|]. injection J0 as -> ->. exists o. split; [apply OUTP; apply q_o1; reflexivity|reflexivity].
  - destruct J0 as [J0|J0]; [eapply SE; eassumption|]. injection J0 as -> -> -> -> -> ->. split; intros G.
    + destruct (H G) as (c & -> & K). exists c. split; [apply OUTP; apply q_o1; reflexivity|assumption].
    + destruct (H0 G) as (c & -> & K). exists c. split; [apply OUTP; apply q_o1; reflexivity|assumption].
  - destruct J0 as [J0|J0]; [eapply GT; eassumption|]. injection J0 as -> <- ->. exists o, t. split; [intros c ->; apply OUTP; apply q_o1; reflexivity|]. split; [|apply H; reflexivity]. intros T. apply in_snoc. auto.
Qed.
Lemma RI_fresh : RI [] fresh.
Proof. split; cbn; auto; try lia; try (intros; contradiction); try discriminate; try (constructor; fail); try (split; auto; fail). intros o. split; [intros []|discriminate]. Qed.
Lemma replay_RI : forall a l b, replay a l b -> a = fresh -> RI l b.
Proof. induction 1 as [a|a l b e c R IH A]; intros E; [subst; apply RI_fresh|]. eapply RI_step; [apply IH; assumption|exact A]. Qed.

(** * Theorems *)
(** ** C50 *)
(** Every interleaving of any number of threads is a run of the specification. *)
Theorem C50_refines : forall prog n l s, run prog (init n) l = Some s -> exists b, replay fresh (log s) b.
Proof. intros prog n l s H. destruct (reach_inv _ _ _ _ H) as (ph & o & L & t & cs & I). eexists. apply (v_log _ _ _ _ _ _ I). Qed.
(** At most one of the competing calls decides, by its own outcome; no handler is called twice, and only
    with the status decided; an accepted handler is called at most once unless removed; late handlers are
    refused; a call that reports failure lost against a decision or cancelled. *)
Theorem C50_once : forall prog n l s, run prog (init n) l = Some s ->
  ndec (log s) <= 1 /\ nwon (log s) <= nfin (log s) <= ndec (log s) /\
  (forall h, ncall h (log s) <= 1 /\ ncall h (log s) + nrem h (log s) <= nadd h (log s)) /\
  (forall o, In (EDecide o) (log s) -> exists c t, In (EStart c) (log s) /\ completes t c o /\ (t = true -> In ETok (log s))) /\
  (forall o h x, In (EDecide o) (log s) -> In (ECall h x) (log s) -> x = o_st o) /\
  (In ELose (log s) -> ndec (log s) = 1) /\
  (forall h b, In (EAdd h true b) (log s) -> b = false).
Proof.
  intros prog n l s H. destruct (reach_inv _ _ _ _ H) as (ph & o & L & t & cs & I). pose proof (replay_RI _ _ _ (v_log _ _ _ _ _ _ I) eq_refl) as R.
  split; [rewrite (q_dc _ _ R); destruct (_ =? 0); lia|].
  split; [split; [apply R|]; rewrite (q_dc _ _ R), (q_fn _ _ R); destruct (aph _) as [|[|[|[|]]]]; cbn; lia|].
  split; [intros h; pose proof (q_ct _ _ R h); pose proof (q_c1 _ _ R h); lia|].
  split; [apply R|]. split; [|split; apply R].
  intros o1 h x J K. destruct (q_cl _ _ R _ _ K) as (o2 & J' & E). apply (q_o _ _ R) in J, J'. congruence.
Qed.
(** When no thread is inside a call and the operation was decided, every handler was called as often as
    it was accepted and not removed. *)
Theorem C50_all : forall prog n l s, run prog (init n) l = Some s -> (forall i k, nth_error (ag s) i = Some k -> k = []) -> ndec (log s) = 1 ->
  nfin (log s) = 1 /\ forall h, ncall h (log s) + nrem h (log s) = nadd h (log s).
Proof.
  intros prog n l s H Q D. destruct (reach_inv _ _ _ _ H) as (ph & o & L & t & cs & I). pose proof (replay_RI _ _ _ (v_log _ _ _ _ _ _ I) eq_refl) as R.
  assert (B : suml (suml bf) (ag s) = 0).
  { destruct (suml (suml bf) (ag s)) eqn:E; [reflexivity|]. destruct (suml_pos _ (suml bf) (ag s)) as (i & k & N & P); [lia|]. rewrite (Q _ _ N) in P. cbn in P. lia. }
  rewrite (v_bf _ _ _ _ _ _ I) in B. pose proof (v_ph _ _ _ _ _ _ I) as P. rewrite (q_dc _ _ R) in D. cbn [absof aph] in D.
  assert (ph = 5) by (destruct ph as [|[|[|[|[|[|]]]]]]; cbn in B, D; lia). subst ph. split; [rewrite (q_fn _ _ R); reflexivity|].
  intros h. pose proof (q_ct _ _ R h) as C. rewrite (q_L3 _ _ R eq_refl) in C. cbn in C. lia.
Qed.
(** The calls in progress take a bounded number of steps, however they are interleaved. *)
Theorem C50_bounded : forall prog n l s, run prog (init n) l = Some s ->
  exists b, forall l' s', existsb isstart l' = false -> run prog s l' = Some s' -> length (filter isstep l') <= b.
Proof.
  intros prog n l s H. destruct (reach_inv _ _ _ _ H) as (ph & o & L & t & cs & I). exists (measure prog s). intros l' s' Q E. eapply steps_bound; eassumption.
Qed.
(** Unless a thread adds the only registered handler again: when nothing can proceed, the threads that
    are inside a call all wait in GetResult for an operation nobody has decided. *)
Theorem C50_progress : forall prog n l s i f k, run prog (init n) l = Some s -> stuck prog s -> ~ readd s -> nth_error (ag s) i = Some (f :: k) ->
  (exists w, f = GWait w) /\ ndec (log s) = 0.
Proof.
  intros prog n l s i f k H S R N. destruct (reach_inv _ _ _ _ H) as (ph & o & L & t & cs & I). destruct (stuck_frames _ _ _ _ _ _ _ _ _ _ I S R N) as (w & -> & _). split; [eauto|].
  pose proof (stuck_open _ _ _ _ _ _ _ _ _ _ I S R N) as P. subst ph. rewrite (q_dc _ _ (replay_RI _ _ _ (v_log _ _ _ _ _ _ I) eq_refl)). reflexivity.
Qed.
Print Assumptions C50_refines.
Print Assumptions C50_once.
Print Assumptions C50_all.
Print Assumptions C50_bounded.
Print Assumptions C50_progress.
(** ** C51 *)
(** A continuation called by the completing thread, or one attached when the error code was already
    written, sees status, exception and error code of the operation. *)
Theorem C51_partial : forall prog n l s h late dn x ep e o, run prog (init n) l = Some s -> In (ESee h late dn x ep e) (log s) -> In (EDecide o) (log s) ->
  (x <> Started -> x = o_st o) /\ (late = false \/ dn = true -> x = o_st o /\ ep = o_ep o /\ e = o_hr o).
Proof.
  intros prog n l s h late dn x ep e o H J D. destruct (reach_inv _ _ _ _ H) as (ph & o1 & L & t & cs & I). pose proof (replay_RI _ _ _ (v_log _ _ _ _ _ _ I) eq_refl) as R.
  destruct (q_se _ _ R _ _ _ _ _ _ J) as [S1 S2]. apply (q_o _ _ R) in D. split; intros G.
  - destruct (S1 G) as (o2 & D2 & E). apply (q_o _ _ R) in D2. congruence.
  - destruct (S2 G) as (o2 & D2 & E). apply (q_o _ _ R) in D2. assert (o2 = o) by congruence. subst. assumption.
Qed.
(** A continuation attached between the decision and the writing of the exception sees neither the
    exception nor the error code. *)
Theorem C51_refuted : forall prog p e, exists l s, run prog (init 2) l = Some s /\
  In (EDecide (OUT Error (norm e) (Some p) None)) (log s) /\ In (ESee 0 true false Error None E_PENDING) (log s).
Proof.
  intros prog p e. eexists [Start 0 (OExc p e); Step 0; Start 1 (OThen 0); Step 1; Step 1; Step 1; Step 1; Step 1; Step 1]. eexists. split; [reflexivity|]. cbn. auto 8.
Qed.
Print Assumptions C51_partial.
Print Assumptions C51_refuted.
(** ** C80 *)
(** GetResult without a spurious wake-up: a value only if the operation was completed, with that value,
    exceptions and error codes only those of the operation. *)
Theorem C80_partial : forall prog n l s w r, run prog (init n) l = Some s -> In (EGet w false r) (log s) ->
  match r with
  | GVal x => exists v o, x = Some v /\ In (EDecide o) (log s) /\ o_st o = Completed /\ o_rs o = Some v /\ In (EStart (OResolve v)) (log s)
  | GExn p => exists o e, In (EDecide o) (log s) /\ o_st o = Error /\ o_ep o = Some p /\ In (EStart (OExc p e)) (log s)
  | GCode c => exists o, In (EDecide o) (log s) /\ o_st o = Error /\ o_ep o = None /\ c = o_hr o /\ c <> S_OK /\ c <> E_PENDING
  | GCancel | GFail => In ETok (log s) \/ exists o, In (EDecide o) (log s) /\ o_st o = Canceled
  | GBad => False
  end.
Proof.
  intros prog n l s w r H J. destruct (reach_inv _ _ _ _ H) as (ph & o1 & L & t & cs & I). pose proof (replay_RI _ _ _ (v_log _ _ _ _ _ _ I) eq_refl) as R.
  destruct (q_gt _ _ R _ _ J) as (o & t' & G1 & G2 & G3). destruct r as [x|p|c| | |]; cbn in G3.
  - destruct G3 as (c & -> & G & ->). specialize (G1 _ eq_refl). destruct (q_cm _ _ R _ G1) as (cl & t0 & C1 & C2 & _). inversion C2; subst; cbn in *; try discriminate. eauto 8.
  - destruct G3 as (c & -> & G & E). specialize (G1 _ eq_refl). destruct (q_cm _ _ R _ G1) as (cl & t0 & C1 & C2 & _). inversion C2; subst; cbn in *; try discriminate. injection E as ->. eauto 8.
  - destruct G3 as (o2 & -> & G & E & ->). specialize (G1 _ eq_refl). destruct (q_cm _ _ R _ G1) as (cl & t0 & C1 & C2 & _). inversion C2; subst; cbn in *; try discriminate. eauto 8.
  - destruct G3 as [G|(c & -> & G)]; [left; auto|right; eauto].
  - destruct G3 as [G|(c & -> & G)]; [left; auto|right; eauto].
  - contradiction.
Qed.
(** With a spurious wake-up GetResult returns an object that was never constructed, or runs into the
    branch for an operation that has not finished. *)
Theorem C80_refuted : forall prog v,
  (exists l s, run prog (init 2) l = Some s /\ In (EDecide (OUT Completed S_OK None (Some v))) (log s) /\ In (EGet 7 true (GVal None)) (log s)) /\
  (exists l s, run prog (init 1) l = Some s /\ In (EGet 7 true GBad) (log s) /\ ndec (log s) = 0).
Proof.
  intros prog v. split.
  - exists [Start 1 (OGet 7); Step 1; Step 1; Step 1; Step 1; Step 1; Step 1; Start 0 (OResolve v); Step 0; Step 0; Step 0; Step 0; Spur 1; Step 1; Step 1]. eexists. split; [reflexivity|]. cbn. auto 8.
  - exists [Start 0 (OGet 7); Step 0; Step 0; Step 0; Step 0; Step 0; Step 0; Spur 0; Step 0]. eexists. split; [reflexivity|]. cbn. auto 8.
Qed.
(** After Cancel has won, GetResult and Resolve do not wait, even while the cancelling thread is still
    notifying: GetResult fails as cancelled after two reads, Resolve loses after three. *)
Theorem C80_prompt : forall prog n l s i w v, run prog (init n) l = Some s -> In (EDecide (OUT Canceled E_CANCELLED None None)) (log s) -> nth_error (ag s) i = Some [] ->
  (exists s', run prog s [Start i (OGet w); Step i; Step i] = Some s' /\ nth_error (ag s') i = Some [] /\ log s' = log s ++ [EStart (OGet w); EGet w false GCancel]) /\
  (exists s', run prog s [Start i (OResolve v); Step i; Step i; Step i] = Some s' /\ nth_error (ag s') i = Some [] /\ m s' = m s /\ log s' = log s ++ [EStart (OResolve v); ELose]).
Proof.
  intros prog n l s i w v H D N. destruct (reach_inv _ _ _ _ H) as (ph & o1 & L & t & cs & I). pose proof (replay_RI _ _ _ (v_log _ _ _ _ _ _ I) eq_refl) as R.
  assert (E : stt (m s) = Canceled).
  { apply (q_o _ _ R) in D. unfold absof in D. cbn in D. rewrite (m_st _ _ _ _ _ (v_mem _ _ _ _ _ _ I)). destruct (ph =? 0); [discriminate|]. injection D as ->. reflexivity. }
  assert (LT : i < length (ag s)) by (apply nth_error_Some; congruence).
  assert (SS : forall a k, nth_error (set (set (ag s) i a) i k) i = Some k) by (intros; rewrite set_set; apply nth_set_eq; assumption).
  assert (SS1 : forall k, nth_error (set (ag s) i k) i = Some k) by (intros; apply nth_set_eq; assumption).
  split; eexists; (split; [cbn [run exec]; rewrite N; cbn [run exec say put enter ag m log]; rewrite SS1; cbn [step m say put]; rewrite E; cbn [is exec say put ag]; rewrite SS; cbn [step m say put]; rewrite E; cbn [is answer say put ag exec run]; rewrite ?set_set, ?SS1; unfold step, decide; cbn [m say put]; rewrite ?E; cbn [is]; reflexivity|]); cbn [ag m log say put]; rewrite ?set_set, <- ?app_assoc; auto.
Qed.
Print Assumptions C80_partial.
Print Assumptions C80_prompt.
Print Assumptions C80_refuted.

(** * Examples *)
(** Two handlers; thread 0 resolves while thread 1 tries to set an error and thread 2 waits. *)
Definition ex_run : list act :=
  [Start 0 (OAdd 3); Step 0; Step 0; Step 0; Step 0; Start 1 (OThen 4); Step 1; Step 1; Step 1; Step 1;
   Start 2 (OGet 9); Step 2; Step 2; Step 2; Step 2; Step 2; Step 2;
   Start 0 (OResolve 5); Step 0; Step 0; Step 0; Step 0; Start 1 (OError 2); Step 1]
  ++ map Step (repeat 0 6) ++ [Step 2; Step 2; Step 2] ++ map Step (repeat 0 16).
Example ex_C50 : match run (fun h => if h =? 3 then [OCancel] else []) (init 3) ex_run with
  | Some s => (forallb (fun k => match k with [] => true | _ => false end) (ag s), map (fun h => ncall h (log s)) [3; 4; 9], ndec (log s), nfin (log s), length (filter (fun e => match e with ELose => true | _ => false end) (log s)),
      existsb (fun e => match e with EGet 9 false (GVal (Some 5)) => true | _ => false end) (log s)) = (true, [1; 1; 0], 1, 1, 2, true)
  | None => False end.
Proof. vm_compute. reflexivity. Qed.
(** A continuation attached in time sees the exception. *)
Example ex_C51 : match run (fun _ => []) (init 2) [Start 1 (OThen 0); Step 1; Step 1; Step 1; Step 1; Start 0 (OExc 6 2); Step 0; Step 0; Step 0; Step 0; Step 0; Step 0; Step 0; Step 0; Step 0] with
  | Some s => existsb (fun e => match e with ESee 0 false true Error (Some 6) 2%Z => true | _ => false end) (log s) = true
  | None => False end.
Proof. vm_compute. reflexivity. Qed.
