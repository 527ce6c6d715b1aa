(** Property theorems C134: chains of continuations behave like try and catch. *)
From Coq Require Import List Bool Arith Lia.
From Verif Require Import ChainModel.
Import ListNotations.

(** ** Specification: the same callbacks in one function with try and catch.
    A value is handed on or an exception flies; [Then] works on values, [ThenError] is
    [catch (...)], [ThenErrorIf t] is [catch (const t&)]; a callback that returns a task is
    waited for. *)
Definition outcome : Type := (nat + exn)%type.
(** Waiting for a task that ended like this. *)
Definition awaited (e : ending) : outcome :=
  match e with
  | Val v => inl v
  | Canceled => inr (Exn TCanceled CANCELLED 0)
  | Err (Some x) _ => inr x
  | Err None c => inr (Exn TException c 0)
  end.
Definition does (d : did) : outcome :=
  match d with Returns v => inl v | Throws x => inr x | Empty => inr (Exn TException E_FAIL 0) | Inner e => awaited e end.
Section Spec.
Variable is_a : ty -> ty -> bool.
Fixpoint direct (i : nat) (l : list stage) (o : outcome) : outcome * list call :=
  match l with
  | [] => (o, [])
  | s :: l =>
      let (o', c) := match s, o with
        | Then f, inl v => (f v, [CVal i v])
        | ThenError g, inr x => (does (g x), [CExn i x])
        | ThenErrorIf t g, inr x => if is_a (etype x) t then (does (g x), [CExn i x]) else (inr x, [])
        | _, _ => (o, [])
        end in
      let (r, cs) := direct (S i) l o' in (r, c ++ cs)
  end.

(** An ending that a settled operation can have: error codes are those that SetErrorCode
    and SetExceptionPtr store. *)
Definition proper (e : ending) : Prop := match e with Err _ c => norm c = c | _ => True end.
(** No cancelled task is among the source and those returned by callbacks. *)
Definition calm (e : ending) : Prop := e <> Canceled /\ proper e.
Definition calm_did (d : did) : Prop := match d with Inner e => calm e | _ => True end.
Definition calm_stage (s : stage) : Prop :=
  match s with Then _ => True | ThenError g | ThenErrorIf _ g => forall x, calm_did (g x) end.

Lemma norm_norm : forall c, norm (norm c) = norm c.
Proof.
  intros c. unfold norm, E_PENDING, S_OK, E_UNEXPECTED.
  destruct (Nat.eqb_spec c 2); [reflexivity|]. destruct (Nat.eqb_spec c 0); [reflexivity|].
  cbn. apply Nat.eqb_neq in n, n0. rewrite n, n0. reflexivity.
Qed.

Lemma settle_calm : forall d, calm_did d -> calm (settle is_a d) /\ awaited (settle is_a d) = does d.
Proof.
  intros [v|x| |[v| |p c]] H; cbn in *; unfold calm; cbn.
  - repeat split; discriminate.
  - rewrite norm_norm. repeat split; discriminate.
  - repeat split; discriminate.
  - repeat split; discriminate.
  - destruct H as [H _]. congruence.
  - destruct H as [_ H]. cbn in H. rewrite !H. repeat split; try discriminate.
Qed.

Lemma created : forall e, (forall v, e <> Val v) -> awaited e = inr (CreateExceptionPtr e).
Proof. intros [v| |[x|] c] H; try reflexivity. exfalso. exact (H v eq_refl). Qed.

Lemma after_calm : forall i s e, calm e -> calm_stage s ->
  calm (fst (after is_a i s e)) /\
  (awaited (fst (after is_a i s e)), snd (after is_a i s e)) =
    match s, awaited e with
    | Then f, inl v => (f v, [CVal i v])
    | ThenError g, inr x => (does (g x), [CExn i x])
    | ThenErrorIf t g, inr x => if is_a (etype x) t then (does (g x), [CExn i x]) else (inr x, [])
    | _, _ => (awaited e, [])
    end.
Proof.
  intros i s e He Hs.
  destruct e as [v| |p c].
  - destruct s as [f|g|t g]; cbn.
    + destruct (f v) as [r|x]; [destruct (settle_calm (Returns r) Logic.I) as [A B]|destruct (settle_calm (Throws x) Logic.I) as [A B]]; rewrite B; auto.
    + auto.
    + auto.
  - destruct He as [He _]. congruence.
  - pose proof (created (Err p c) ltac:(discriminate)) as E. rewrite E.
    destruct s as [f|g|t g].
    + cbn [after fst snd]. destruct He as [_ He]. cbn in He. cbn [eptr_of hr_of]. rewrite He.
      split; [split; [discriminate|exact He]|]. rewrite E. reflexivity.
    + cbn [after fst snd]. destruct (settle_calm _ (Hs (CreateExceptionPtr (Err p c)))) as [A B]. rewrite B. auto.
    + cbn [after fst snd]. unfold filtered. destruct (is_a (etype (CreateExceptionPtr (Err p c))) t).
      * destruct (settle_calm _ (Hs (CreateExceptionPtr (Err p c)))) as [A B]. rewrite B. auto.
      * destruct (settle_calm (Throws (CreateExceptionPtr (Err p c))) Logic.I) as [A B]. rewrite B. auto.
Qed.

(** As long as no task in it is cancelled, a chain of any length calls the callbacks that
    the try-and-catch program calls, in that order and with the same arguments, and a waiter
    at its end gets the same value or the same exception. Missing: cancelled tasks, see
    [C134_cancelled_refuted] and [C134_inner_cancelled_refuted]. *)
Theorem C134_chain_partial : forall l i e, calm e -> (forall s, In s l -> calm_stage s) ->
  (get_result (fst (chain is_a i l e)), snd (chain is_a i l e)) = direct i l (get_result e).
Proof.
  assert (G : forall e, get_result e = awaited e) by (intros [v| |[x|] c]; reflexivity).
  induction l as [|s l IH]; intros i e He Hl; [reflexivity|]. rewrite (G e).
  destruct (after_calm i s e He (Hl s (or_introl eq_refl))) as [A B].
  cbn [chain direct]. destruct (after is_a i s e) as [e1 c1] eqn:E1. cbn [fst snd] in *.
  specialize (IH (S i) e1 A (fun s' H => Hl s' (or_intror H))). rewrite !G in IH.
  destruct (chain is_a (S i) l e1) as [r cs]. cbn [fst snd] in *. rewrite G.
  destruct s as [f|g|t g]; destruct (awaited e) as [v|x]; try destruct (is_a (etype x) t);
    injection B as B1 ->; rewrite B1 in IH; rewrite <- IH; reflexivity.
Qed.

(** In particular: of a row of handlers the first whose type fits is the only one called,
    and the others do not change its result. *)
Theorem C134_first_handler : forall l1 t g l2 x c v, is_a (etype x) t = true ->
  (forall s, In s l1 -> exists t' g', s = ThenErrorIf t' g' /\ is_a (etype x) t' = false) ->
  g x = Returns v -> (forall s, In s l2 -> exists t' g', s = ThenErrorIf t' g') ->
  forall i, chain is_a i (l1 ++ ThenErrorIf t g :: l2) (Err (Some x) c) = (Val v, [CExn (i + length l1) x]).
Proof.
  intros l1. induction l1 as [|s l1 IH]; intros t g l2 x c v Hx H1 Hg H2 i.
  - cbn. unfold CreateExceptionPtr. cbn. unfold filtered. rewrite Hx, Hg. cbn.
    assert (Z : forall l j, (forall s, In s l -> exists t' g', s = ThenErrorIf t' g') -> chain is_a j l (Val v) = (Val v, [])).
    { clear. induction l as [|s l IH]; intros j H; [reflexivity|].
      destruct (H s (or_introl eq_refl)) as (t' & g' & ->). cbn. rewrite IH; [reflexivity|]. intros s' Hs. apply H. right. exact Hs. }
    rewrite Z by exact H2. rewrite Nat.add_0_r. reflexivity.
  - destruct (H1 s (or_introl eq_refl)) as (t' & g' & -> & Hf).
    cbn. unfold CreateExceptionPtr. cbn. unfold filtered. rewrite Hf. cbn.
    rewrite (IH t g l2 x _ v Hx (fun s H => H1 s (or_intror H)) Hg H2 (S i)). cbn.
    replace (i + S (length l1)) with (S (i + length l1)) by lia. reflexivity.
Qed.

(** An exception for which there is no handler comes out at the end, with its own code, if
    there was any stage. *)
Theorem C134_unhandled : forall l x c, (forall s, In s l -> (exists f, s = Then f) \/ exists t g, s = ThenErrorIf t g /\ is_a (etype x) t = false) ->
  c = norm (code_of is_a x) -> forall i, chain is_a i l (Err (Some x) c) = (Err (Some x) (norm (code_of is_a x)), []).
Proof.
  intros l x c H Hc. subst c. induction l as [|s l IH]; intros i; [reflexivity|].
  assert (IH' := IH (fun s H' => H s (or_intror H'))). 
  destruct (H s (or_introl eq_refl)) as [(f & ->)|(t & g & -> & Hf)]; cbn.
  - rewrite norm_norm, IH'. reflexivity.
  - unfold CreateExceptionPtr. cbn. unfold filtered. rewrite Hf. cbn. rewrite IH'. reflexivity.
Qed.

(** A cancelled task caught directly is an OperationCanceledException ... *)
Theorem C134_cancelled_direct : is_a TCanceled TCanceled = true -> forall g i,
  chain is_a i [ThenErrorIf TCanceled g] Canceled = (settle is_a (g exn_canceled), [CExn i exn_canceled]).
Proof. intros H g i. cbn. unfold CreateExceptionPtr, filtered. cbn. rewrite H. reflexivity. Qed.

(** ... but REFUTED: after any number of Then it is an Exception with the code
    ERROR_CANCELLED that no handler for OperationCanceledException catches, although the
    try-and-catch program catches it. *)
Theorem C134_cancelled_refuted : is_a TCanceled TCanceled = true -> is_a TException TCanceled = false ->
  forall fs g i, fs <> [] ->
  snd (chain is_a i (map Then fs ++ [ThenErrorIf TCanceled g]) Canceled) = [] /\
  get_result (fst (chain is_a i (map Then fs ++ [ThenErrorIf TCanceled g]) Canceled)) = inr (exn_code CANCELLED) /\
  direct i (map Then fs ++ [ThenErrorIf TCanceled g]) (get_result Canceled) =
    (does (g exn_canceled), [CExn (i + length fs) exn_canceled]).
Proof.
  intros HC HE fs g i Hne.
  assert (A : forall fs j, chain is_a j (map Then fs ++ [ThenErrorIf TCanceled g]) (Err None CANCELLED) = (Err (Some (exn_code CANCELLED)) (norm (code_of is_a (exn_code CANCELLED))), [])).
  { clear i Hne fs. induction fs as [|f fs IH]; intros j; cbn.
    - unfold CreateExceptionPtr, filtered. cbn. rewrite HE. reflexivity.
    - change (norm CANCELLED) with CANCELLED. rewrite IH. reflexivity. }
  assert (B : forall fs j, direct j (map Then fs ++ [ThenErrorIf TCanceled g]) (inr exn_canceled) = (does (g exn_canceled), [CExn (j + length fs) exn_canceled])).
  { clear i Hne fs A. induction fs as [|f fs IH]; intros j; cbn.
    - rewrite HC, Nat.add_0_r. reflexivity.
    - rewrite IH. cbn. replace (j + S (length fs)) with (S (j + length fs)) by lia. reflexivity. }
  change (get_result Canceled) with (inr exn_canceled : outcome). rewrite (B fs i). destruct fs as [|f fs]; [congruence|].
  cbn [map app chain after eptr_of hr_of]. change (norm CANCELLED) with CANCELLED. rewrite A. cbn. auto.
Qed.

(** REFUTED likewise for a callback that returns a cancelled task. *)
Theorem C134_inner_cancelled_refuted : is_a TCanceled TCanceled = true -> is_a TException TCanceled = false ->
  forall x c h g i,  h x = Inner Canceled ->
  snd (chain is_a i [ThenError h; ThenErrorIf TCanceled g] (Err (Some x) c)) = [CExn i x] /\
  snd (direct i [ThenError h; ThenErrorIf TCanceled g] (inr x)) = [CExn i x; CExn (S i) exn_canceled].
Proof.
  intros HC HE x c h g i Hh. cbn. unfold CreateExceptionPtr at 1 2. cbn. rewrite Hh. cbn. rewrite HC.
  unfold CreateExceptionPtr. cbn. rewrite HE. auto.
Qed.
End Spec.
Print Assumptions C134_chain_partial.
Print Assumptions C134_first_handler.
Print Assumptions C134_unhandled.
Print Assumptions C134_cancelled_direct.
Print Assumptions C134_cancelled_refuted.
Print Assumptions C134_inner_cancelled_refuted.

(** A concrete class hierarchy and a chain: the first handler does not fit, the second
    one throws something else, the third one ends it, the last Then sees its value. *)
Definition derives (t u : ty) : bool :=
  match t, u with
  | TCanceled, TCanceled | TCanceled, TException | TException, TException => true
  | TOther n, TOther m => n =? m
  | _, _ => false
  end.
Example C134_case : chain derives 0
  [Then (fun v => inr (Exn (TOther 7) 0 1)); ThenErrorIf TException (fun _ => Returns 1);
   ThenErrorIf (TOther 7) (fun _ => Throws (Exn TCanceled CANCELLED 2)); Then (fun v => inl (v + 1));
   ThenErrorIf TException (fun _ => Inner (Val 5)); Then (fun v => inl (v + 1))] (Val 3)
  = (Val 6, [CVal 0 3; CExn 2 (Exn (TOther 7) 0 1); CExn 4 (Exn TCanceled CANCELLED 2); CVal 5 5]).
Proof. reflexivity. Qed.
Example C134_case_cancelled : snd (chain derives 0 [Then (fun v => inl v); ThenErrorIf TCanceled (fun _ => Returns 1)] Canceled) = [].
Proof. reflexivity. Qed.
