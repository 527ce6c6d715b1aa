(** Specification and invariant for the waits of a thread task runner (C58). *)
From Coq Require Import List Bool Arith Lia.
From Verif Require Import WaitModel.
Import ListNotations.

(** * Specification *)
(** Read off the events: is wait [t] pending on this thread? *)
Definition wstep (t : nat) (b : bool) (e : event) : bool :=
  match e with
  | EAsk _ _ => b
  | ESet t' => if t =? t' then true else b
  | EPool t' | ECancel t' | EDrop t' | EDone t' _ _ => if t =? t' then false else b
  end.
Definition waiting (l : list event) (t : nat) : bool := fold_left (wstep t) l false.
(** The deadline it was last given. *)
Definition deadline (l : list event) (t : nat) : nat := fold_left (fun d e => match e with EAsk t' d' => if t =? t' then d' else d | _ => d end) l 0.
(** A wait is never asked for while another one is pending on its handle. *)
Definition single (hd : nat -> nat) (l : list event) : Prop :=
  forall a t d b, l = a ++ EAsk t d :: b -> forall t', t' <> t -> hd t' = hd t -> waiting a t' = false.
(** Every completion is due to the wait's own handle, and the wait was pending. *)
Definition own (hd : nat -> nat) (l : list event) : Prop :=
  forall a t h r b, l = a ++ EDone t h r :: b -> h = hd t /\ waiting a t = true.
(** No wait expires early. *)
Definition punctual (l : list event) : Prop :=
  forall a t h n b, l = a ++ EDone t h (RTimeout n) :: b -> deadline a t <= n.

Lemma waiting_app : forall l e t, waiting (l ++ [e]) t = wstep t (waiting l t) e.
Proof. intros. unfold waiting. rewrite fold_left_app. reflexivity. Qed.
Lemma single_pre : forall hd l m, single hd (l ++ m) -> single hd l.
Proof. intros hd l m H a t d b E. apply (H a t d (b ++ m)). rewrite E, <- app_assoc. reflexivity. Qed.

(** * Maps *)
Lemma upd_eq : forall A (f : nat -> A) k v, upd f k v k = v.
Proof. intros. unfold upd. rewrite Nat.eqb_refl. reflexivity. Qed.
Lemma upd_ne : forall A (f : nat -> A) k v x, x <> k -> upd f k v x = f x.
Proof. intros A f k v x H. unfold upd. apply Nat.eqb_neq in H. rewrite H. reflexivity. Qed.
Lemma find_from_some : forall f h n i j, find_from f h i n = Some j -> i <= j < i + n /\ f j = h.
Proof.
  induction n as [|n IH]; intros i j E; cbn in E; [discriminate|]. destruct (f i =? h) eqn:Q.
  - injection E as <-. apply Nat.eqb_eq in Q. split; [lia|exact Q].
  - destruct (IH _ _ E) as [A B]. split; [lia|exact B].
Qed.
Lemma find_from_none : forall f h n i, find_from f h i n = None -> forall j, i <= j < i + n -> f j <> h.
Proof.
  induction n as [|n IH]; intros i E j J; cbn in E; [lia|]. destruct (f i =? h) eqn:Q; [discriminate|]. apply Nat.eqb_neq in Q.
  destruct (Nat.eq_dec i j) as [->|N]; [exact Q|]. apply (IH (S i) E). lia.
Qed.
Lemma find_some : forall s h i, find s h = Some i -> i < c s /\ hs s i = h /\ h <> 0.
Proof. intros s h i E. unfold find in E. destruct (h =? 0) eqn:Z; [discriminate|]. apply Nat.eqb_neq in Z. apply find_from_some in E. split; [lia|tauto]. Qed.
Lemma find_none : forall s h, h <> 0 -> find s h = None -> forall j, j < c s -> hs s j <> h.
Proof. intros s h Z E j J. unfold find in E. apply Nat.eqb_neq in Z. rewrite Z in E. eapply find_from_none; [exact E|lia]. Qed.
Lemma get_some : forall s i t, get s i = Some t -> ps s i = Some t /\ alive s t = true.
Proof. intros s i t E. unfold get in E. destruct (ps s i) as [u|]; [|discriminate]. destruct (alive s u) eqn:A; [|discriminate]. injection E as ->. auto. Qed.
Lemma get_none : forall s i t, get s i = None -> ps s i = Some t -> alive s t = false.
Proof. intros s i t E P. unfold get in E. rewrite P in E. destruct (alive s t); [discriminate|reflexivity]. Qed.

(** remove, slot by slot. *)
Lemma remove_out : forall s i, c s <= i -> remove s i = s.
Proof. intros s i H. unfold remove. apply Nat.leb_le in H. rewrite H. reflexivity. Qed.
Lemma remove_frame : forall s i, alive (remove s i) = alive s /\ stt (remove s i) = stt s /\ due (remove s i) = due s /\ lp (remove s i) = lp s /\ log (remove s i) = log s.
Proof. intros s i. unfold remove. destruct (c s <=? i); [auto|]. destruct (get s i); cbn [c w_mark]; destruct (i =? c s - 1); cbn; auto. Qed.
Lemma remove_c : forall s i, i < c s -> c (remove s i) = c s - 1.
Proof. intros s i H. unfold remove. apply Nat.leb_gt in H. rewrite H. destruct (get s i); cbn [c w_mark]; destruct (i =? c s - 1); cbn; auto. Qed.
Lemma remove_slot : forall s i j, i < c s -> j < c s - 1 ->
  hs (remove s i) j = (if j =? i then hs s (c s - 1) else hs s j) /\ ps (remove s i) j = (if j =? i then ps s (c s - 1) else ps s j).
Proof.
  intros s i j H J. unfold remove. apply Nat.leb_gt in H. rewrite H.
  assert (X : forall s0, hs s0 = hs s -> ps s0 = ps s -> c s0 = c s ->
     hs (if i =? c s0 - 1 then w_arr s0 (upd (hs s0) i 0) (upd (ps s0) i None) (c s0 - 1) else w_arr s0 (upd (upd (hs s0) i (hs s0 (c s0 - 1))) (c s0 - 1) 0) (upd (upd (ps s0) i (ps s0 (c s0 - 1))) (c s0 - 1) None) (c s0 - 1)) j = (if j =? i then hs s (c s - 1) else hs s j) /\
     ps (if i =? c s0 - 1 then w_arr s0 (upd (hs s0) i 0) (upd (ps s0) i None) (c s0 - 1) else w_arr s0 (upd (upd (hs s0) i (hs s0 (c s0 - 1))) (c s0 - 1) 0) (upd (upd (ps s0) i (ps s0 (c s0 - 1))) (c s0 - 1) None) (c s0 - 1)) j = (if j =? i then ps s (c s - 1) else ps s j)).
  { intros s0 A B C. rewrite A, B, C. destruct (i =? c s - 1) eqn:Q; cbn [hs ps w_arr].
    - apply Nat.eqb_eq in Q. rewrite !upd_ne by lia. assert (N : j =? i = false) by (apply Nat.eqb_neq; lia). rewrite N. auto.
    - apply Nat.eqb_neq in Q. rewrite !(upd_ne _ _ (c s - 1)) by lia. destruct (j =? i) eqn:N; [apply Nat.eqb_eq in N; subst j; rewrite !upd_eq; auto|apply Nat.eqb_neq in N; rewrite !upd_ne by exact N; auto]. }
  destruct (get s i); apply X; reflexivity.
Qed.
Lemma remove_mark : forall s i t, i < c s -> mark (remove s i) t = match get s i with Some u => if t =? u then MN else mark s t | None => mark s t end.
Proof. intros s i t H. unfold remove. apply Nat.leb_gt in H. rewrite H. destruct (get s i); cbn [c w_mark]; destruct (i =? c s - 1); cbn; reflexivity. Qed.

(** * Invariant *)
Section Inv.
Variable hd : nat -> nat.
(** [W]: the pending waits. *)
Record K (W : nat -> bool) (s : st) : Prop := MkK {
  k_c : c s <= kMax;
  k_nz : forall i, i < c s -> hs s i <> 0;
  k_inj : forall i j, i < c s -> j < c s -> hs s i = hs s j -> i = j;
  k_own : forall i, i < c s -> exists t, ps s i = Some t /\ hs s i = hd t;
  k_in : forall t, W t = true -> alive s t = true /\ stt s t = Started /\ mark s t = MI /\ exists i, i < c s /\ ps s i = Some t;
  k_only : forall i t, i < c s -> ps s i = Some t -> alive s t = true -> stt s t = Started -> W t = true;
  k_mi : forall t, alive s t = true -> stt s t = Started -> mark s t = MI -> W t = true;
  k_done : forall i t, i < c s -> ps s i = Some t -> stt s t <> Completed;
  k_cm : forall t, alive s t = true -> stt s t <> Started -> mark s t <> MI }.
Lemma K_ext : forall W W' s, (forall t, W t = W' t) -> K W s -> K W' s.
Proof. intros W W' s E [A B C D F G H I J]. split; auto; intros; [apply F; rewrite E; assumption|rewrite <- E; eapply G; eauto|rewrite <- E; auto]. Qed.
Lemma K_say : forall W s e, K W s -> K W (say s e).
Proof. intros W s e [A B C D F G H I J]. split; assumption. Qed.
Lemma K_lp : forall W s e, K W s -> K W (w_lp s e).
Proof. intros W s e [A B C D F G H I J]. split; assumption. Qed.
Lemma K_due : forall W s t d, K W s -> K W (w_due s t d).
Proof. intros W s t d [A B C D F G H I J]. split; assumption. Qed.
Lemma K_uniq : forall W s i j t, K W s -> i < c s -> j < c s -> ps s i = Some t -> ps s j = Some t -> i = j.
Proof. intros W s i j t I Hi Hj Pi Pj. destruct (k_own _ _ I i Hi) as (u & U1 & U2). destruct (k_own _ _ I j Hj) as (v & V1 & V2). apply (k_inj _ _ I); auto. congruence. Qed.
Lemma remove_K : forall W s i t, K W s -> i < c s -> ps s i = Some t -> K (upd W t false) (remove s i) /\ (forall j, j < c s - 1 -> ps (remove s i) j <> Some t).
Proof.
  intros W s i t I L P. destruct (remove_frame s i) as (FA & FS & _). pose proof (remove_c s i L) as FC.
  assert (SL : forall j, j < c s - 1 -> exists j', j' < c s /\ j' <> i /\ hs (remove s i) j = hs s j' /\ ps (remove s i) j = ps s j').
  { intros j J. destruct (remove_slot s i j L J) as [A B]. destruct (j =? i) eqn:N; [apply Nat.eqb_eq in N|apply Nat.eqb_neq in N]; [exists (c s - 1)|exists j]; repeat split; auto; lia. }
  assert (BK : forall j', j' < c s -> j' <> i -> exists j, j < c s - 1 /\ hs (remove s i) j = hs s j' /\ ps (remove s i) j = ps s j').
  { intros j' J N. destruct (Nat.eq_dec j' (c s - 1)) as [->|NE].
    - exists i. assert (i < c s - 1) by lia. destruct (remove_slot s i i L H) as [A B]. rewrite Nat.eqb_refl in *. auto.
    - exists j'. assert (H : j' < c s - 1) by lia. destruct (remove_slot s i j' L H) as [A B]. apply Nat.eqb_neq in N. rewrite N in *. auto. }
  assert (NT : forall j, j < c s - 1 -> ps (remove s i) j <> Some t) by (intros j J X; destruct (SL j J) as (j' & A & B & C & D); apply B; apply (K_uniq W s j' i t I); auto; congruence).
  split; [|exact NT]. split.
  - rewrite FC. pose proof (k_c _ _ I). lia.
  - rewrite FC. intros j J. destruct (SL j J) as (j' & A & B & C & D). rewrite C. apply (k_nz _ _ I); exact A.
  - rewrite FC. intros j k J K0 E. destruct (remove_slot s i j L J) as [A _]. destruct (remove_slot s i k L K0) as [B _]. rewrite A, B in E.
    destruct (Nat.eqb_spec j i), (Nat.eqb_spec k i); [lia| | |]; apply (k_inj _ _ I) in E; lia.
  - rewrite FC. intros j J. destruct (SL j J) as (j' & A & B & C & D). rewrite C, D. apply (k_own _ _ I); exact A.
  - intros u WU. unfold upd in WU. destruct (u =? t) eqn:Q; [discriminate|]. apply Nat.eqb_neq in Q. destruct (k_in _ _ I u WU) as (A & B & C & j' & J1 & J2). rewrite FA, FS, FC. split; [exact A|]. split; [exact B|]. split.
    + rewrite (remove_mark s i u L). destruct (get s i) as [v|] eqn:G; [|exact C]. apply get_some in G. destruct G as [G _]. replace v with t by congruence. apply Nat.eqb_neq in Q. rewrite Q. exact C.
    + destruct (BK j' J1) as (j & X & Y & Z); [intros ->; congruence|]. exists j. split; [exact X|congruence].
  - rewrite FC, FA, FS. intros j u J E A B. assert (u <> t) by (intros ->; exact (NT j J E)). rewrite upd_ne by assumption. destruct (SL j J) as (j' & X & Y & Z & V). apply (k_only _ _ I j'); auto. congruence.
  - rewrite FA, FS. intros u A B M. rewrite (remove_mark s i u L) in M. unfold get in M. rewrite P in M. destruct (Nat.eq_dec u t) as [->|N].
    + rewrite A, Nat.eqb_refl in M. discriminate.
    + rewrite upd_ne by exact N. apply (k_mi _ _ I); auto. apply Nat.eqb_neq in N. destruct (alive s t); [rewrite N in M|]; exact M.
  - rewrite FC, FS. intros j u J E. destruct (SL j J) as (j' & X & Y & Z & V). apply (k_done _ _ I j'); auto. congruence.
  - rewrite FA, FS. intros u A B. rewrite (remove_mark s i u L). pose proof (k_cm _ _ I u A B). destruct (get s i); [destruct (u =? n); [discriminate|assumption]|assumption].
Qed.
Lemma cancel_K : forall W s t, K W s -> stt s t = Started -> K (upd W t false) (w_mark (w_stt s t Canceled) t MN).
Proof.
  intros W s t I S. split; cbn [c hs ps alive stt mark w_mark w_stt].
  - apply (k_c _ _ I).
  - apply (k_nz _ _ I).
  - apply (k_inj _ _ I).
  - apply (k_own _ _ I).
  - intros u WU. unfold upd in WU |- *. destruct (u =? t) eqn:Q; [discriminate|]. apply (k_in _ _ I u WU).
  - intros i u L P A B. unfold upd in *. destruct (u =? t) eqn:Q; [discriminate|]. apply (k_only _ _ I i); auto.
  - intros u A B M. unfold upd in *. destruct (u =? t) eqn:Q; [discriminate|]. apply (k_mi _ _ I u); auto.
  - intros i u L P. unfold upd. destruct (u =? t); [discriminate|]. apply (k_done _ _ I i); auto.
  - intros u A B. unfold upd in *. destruct (u =? t); [discriminate|]. apply (k_cm _ _ I); auto.
Qed.
Lemma find_own : forall W s i t, K W s -> i < c s -> ps s i = Some t -> find s (hd t) = Some i.
Proof.
  intros W s i t I L P. destruct (k_own _ _ I i L) as (u & U1 & U2). assert (u = t) by congruence; subst u. assert (Z : hd t <> 0) by (rewrite <- U2; apply (k_nz _ _ I); exact L).
  destruct (find s (hd t)) as [j|] eqn:F; [|exfalso; apply (find_none s (hd t) Z F i L); exact U2]. apply find_some in F. destruct F as (A & B & C). f_equal. apply (k_inj _ _ I); auto; congruence.
Qed.
Lemma cancel_here_K : forall W s t, K W s -> alive s t = true -> stt s t = Started ->
  exists s', cancel_here hd s t = say s' (ECancel t) /\ log s' = log s /\ K (upd W t false) s'.
Proof.
  intros W s t I A S. unfold cancel_here. rewrite S. pose proof (cancel_K W s t I S) as I1. eexists. split; [reflexivity|]. cbn [mark w_stt]. destruct (mark s t) eqn:M; try (split; [reflexivity|exact I1]).
  assert (WT : W t = true) by (apply (k_mi _ _ I); auto). destruct (k_in _ _ I t WT) as (_ & _ & _ & i & L & P). set (s1 := w_mark (w_stt s t Canceled) t MN) in *.
  assert (F : find (w_stt s t Canceled) (hd t) = Some i) by exact (find_own W s i t I L P). rewrite F. unfold remove_found. destruct (remove_frame s1 i) as (_ & _ & _ & _ & FL). split; [exact FL|].
  apply (K_ext (upd (upd W t false) t false)); [intros u; unfold upd; destruct (u =? t); reflexivity|]. apply (remove_K _ s1 i t I1); auto.
Qed.
Lemma replace_K : forall W s i t o, K W s -> i < c s -> ps s i = Some o -> W o = false -> alive s t = true -> stt s t = Started -> hs s i = hd t ->
  (forall j, j < c s -> ps s j <> Some t) -> K (upd W t true) (w_arr (w_mark s t MI) (hs s) (upd (ps s) i (Some t)) (c s)).
Proof.
  intros W s i t o I L P WO A S H NT. split; cbn [c hs ps alive stt mark w_mark w_arr].
  - apply (k_c _ _ I).
  - apply (k_nz _ _ I).
  - apply (k_inj _ _ I).
  - intros j J. unfold upd. destruct (Nat.eqb_spec j i) as [->|N]; [exists t; auto|apply (k_own _ _ I); exact J].
  - intros u WU. unfold upd in WU |- *. destruct (Nat.eqb_spec u t) as [EQ|N].
    + subst u. split; [exact A|]. split; [exact S|]. split; [reflexivity|]. exists i. rewrite Nat.eqb_refl. auto.
    + destruct (k_in _ _ I u WU) as (B & C & D & j & J1 & J2). split; [exact B|]. split; [exact C|]. split; [exact D|]. exists j. split; [exact J1|]. destruct (Nat.eqb_spec j i) as [->|NE]; [congruence|exact J2].
  - intros j u J E B C. unfold upd in *. destruct (Nat.eqb_spec u t) as [->|N]; [reflexivity|]. destruct (Nat.eqb_spec j i) as [->|NE]; [congruence|]. apply (k_only _ _ I j); auto.
  - intros u B C D. unfold upd in *. destruct (Nat.eqb_spec u t) as [->|N]; [reflexivity|]. apply (k_mi _ _ I); auto.
  - intros j u J E. unfold upd in *. destruct (Nat.eqb_spec j i) as [->|NE]; [injection E as <-; congruence|]. apply (k_done _ _ I j); auto.
  - intros u B C. unfold upd in *. destruct (Nat.eqb_spec u t) as [->|N]; [congruence|]. apply (k_cm _ _ I); auto.
Qed.
Lemma append_K : forall W s t, K W s -> c s < kMax -> hd t <> 0 -> (forall j, j < c s -> hs s j <> hd t) -> alive s t = true -> stt s t = Started ->
  K (upd W t true) (w_arr (w_mark s t MI) (upd (hs s) (c s) (hd t)) (upd (ps s) (c s) (Some t)) (c s + 1)).
Proof.
  intros W s t I L Z NH A S. assert (NT : forall j, j < c s -> ps s j <> Some t) by (intros j J E; destruct (k_own _ _ I j J) as (u & U1 & U2); apply (NH j J); congruence). split; cbn [c hs ps alive stt mark w_mark w_arr].
  - lia.
  - intros i H. unfold upd. destruct (Nat.eqb_spec i (c s)); [exact Z|]. apply (k_nz _ _ I). lia.
  - intros i j Hi Hj E. unfold upd in E. destruct (Nat.eqb_spec i (c s)), (Nat.eqb_spec j (c s)); [lia| | |].
    + exfalso. apply (NH j); [lia|auto].
    + exfalso. apply (NH i); [lia|auto].
    + apply (k_inj _ _ I); auto; lia.
  - intros j J. unfold upd. destruct (Nat.eqb_spec j (c s)) as [->|N]; [exists t; auto|apply (k_own _ _ I); lia].
  - intros u WU. unfold upd in WU |- *. destruct (Nat.eqb_spec u t) as [EQ|N].
    + subst u. split; [exact A|]. split; [exact S|]. split; [reflexivity|]. exists (c s). rewrite Nat.eqb_refl. split; [lia|reflexivity].
    + destruct (k_in _ _ I u WU) as (B & C & D & j & J1 & J2). split; [exact B|]. split; [exact C|]. split; [exact D|]. exists j. split; [lia|]. destruct (Nat.eqb_spec j (c s)); [lia|exact J2].
  - intros j u J E B C. unfold upd in *. destruct (Nat.eqb_spec u t) as [->|N]; [reflexivity|]. destruct (Nat.eqb_spec j (c s)) as [->|NE]; [congruence|]. apply (k_only _ _ I j); auto. lia.
  - intros u B C D. unfold upd in *. destruct (Nat.eqb_spec u t) as [->|N]; [reflexivity|]. apply (k_mi _ _ I); auto.
  - intros j u J E. unfold upd in *. destruct (Nat.eqb_spec j (c s)) as [->|NE]; [injection E as <-; congruence|]. apply (k_done _ _ I j); auto. lia.
  - intros u B C. unfold upd in *. destruct (Nat.eqb_spec u t) as [->|N]; [congruence|]. apply (k_cm _ _ I); auto.
Qed.
(** A slot left alone keeps its wait: the whole of SetWaitInternal. *)
Lemma set_wait_K : forall W s t d, K W s -> alive s t = true -> stt s t = Started -> mark s t <> MI -> (forall j, j < c s -> ps s j <> Some t) ->
  (forall t', t' <> t -> hd t' = hd t -> W t' = false) -> hd t <> 0 ->
  exists s' (b : bool), set_wait hd s t d = say s' (if b then ESet t else EPool t) /\ log s' = log s ++ [EAsk t d] /\ K (upd W t b) s'.
Proof.
  intros W s t d I A S M NT SI Z. unfold set_wait. apply Nat.eqb_neq in Z. rewrite Z. rewrite S. apply Nat.eqb_neq in Z. set (s1 := say (w_due s t d) (EAsk t d)).
  assert (I1 : K W s1) by (apply K_say, K_due, I). destruct (find s1 (hd t)) as [i|] eqn:F.
  - destruct (find_some _ _ _ F) as (L & H & _). assert (G : get (w_mark s1 t MI) i = get s1 i) by reflexivity. rewrite G. destruct (k_own _ _ I1 i L) as (o & O1 & O2). assert (NO : o <> t) by (intros ->; exact (NT i L O1)).
    assert (WO : W o = false) by (apply SI; [exact NO|congruence]). assert (R : K (upd W t true) (w_arr (w_mark s1 t MI) (hs s1) (upd (ps s1) i (Some t)) (c s1))) by (apply (replace_K W s1 i t o I1); auto).
    exists (w_arr (w_mark s1 t MI) (hs s1) (upd (ps s1) i (Some t)) (c s1)), true. split; [|split; [reflexivity|exact R]]. destruct (get s1 i) as [o'|] eqn:GE; [|reflexivity]. apply get_some in GE. destruct GE as [GP GA]. assert (o' = o) by congruence; subst o'.
    destruct (Nat.eqb_spec o t); [contradiction|]. unfold cancel_here. cbn [stt w_mark]. destruct (stt s1 o) eqn:SO; [|reflexivity|reflexivity]. exfalso. rewrite (k_only _ _ I1 i o L O1 GA SO) in WO. discriminate.
  - destruct (kMax <=? c s1) eqn:Q.
    + exists (w_mark s1 t MP), false. split; [reflexivity|]. split; [reflexivity|]. destruct I1 as [B1 B2 B3 B4 B5 B6 B7 B8 B9]. assert (WT : W t = false) by (destruct (W t) eqn:WT; [destruct (B5 t WT) as (_ & _ & X & _); contradiction|reflexivity]).
      split; auto; cbn [c hs ps alive stt mark w_mark].
      * intros u WU. unfold upd in WU |- *. destruct (Nat.eqb_spec u t); [discriminate|]. apply B5; exact WU.
      * intros i u L P X Y. unfold upd. destruct (Nat.eqb_spec u t) as [->|]; [exfalso; exact (NT i L P)|]. apply (B6 i); auto.
      * intros u X Y V. unfold upd in *. destruct (Nat.eqb_spec u t); [discriminate|]. apply B7; auto.
      * intros u X Y. unfold upd. destruct (Nat.eqb_spec u t); [discriminate|]. apply B9; auto.
    + apply Nat.leb_gt in Q. eexists _, true. split; [reflexivity|]. split; [reflexivity|]. apply (append_K W s1 t I1 Q Z); auto. apply find_none; auto.
Qed.
Lemma process_K : forall W s i r, K W s -> i < c s -> exists t, ps s i = Some t /\
  ((W t = true /\ exists s', process s i r = say s' (EDone t (hd t) r) /\ log s' = log s /\ K (upd W t false) s') \/
   (W t = false /\ process s i r = remove s i /\ K W (remove s i))).
Proof.
  intros W s i r I L. destruct (k_own _ _ I i L) as (t & P & H). exists t. split; [exact P|]. unfold process. pose proof L as L'. apply Nat.leb_gt in L'. rewrite L'. destruct (remove_K W s i t I L P) as [RK RN]. destruct (remove_frame s i) as (FA & FS & FD & FL & FG).
  pose proof (remove_c s i L) as FC. destruct (W t) eqn:WT.
  - left. split; [reflexivity|]. destruct (k_in _ _ I t WT) as (A & B & C & _). unfold get. rewrite P, A, FS, B, H. eexists. split; [reflexivity|]. split; [exact FG|]. destruct RK as [B1 B2 B3 B4 B5 B6 B7 B8 B9]. split; auto; cbn [c hs ps alive stt mark w_stt].
    + intros u WU. unfold upd in WU |- *. destruct (Nat.eqb_spec u t) as [EQ|N]; [discriminate|]. apply B5. rewrite upd_ne by exact N. exact WU.
    + intros j u J E X Y. unfold upd in Y. destruct (Nat.eqb_spec u t) as [EQ|N]; [discriminate|]. apply (B6 j); auto.
    + intros u X Y V. unfold upd in Y. destruct (Nat.eqb_spec u t) as [EQ|N]; [discriminate|]. apply B7; auto.
    + intros j u J E. unfold upd. destruct (Nat.eqb_spec u t) as [->|N]; [exfalso; apply (RN j); [rewrite <- FC; exact J|exact E]|]. apply (B8 j); auto.
    + intros u X Y. unfold upd in Y. destruct (Nat.eqb_spec u t) as [->|N]; [|apply B9; auto]. rewrite (remove_mark s i t L). unfold get. rewrite P, A, Nat.eqb_refl. discriminate.
  - right. split; [reflexivity|]. split; [|apply (K_ext (upd W t false)); [intros u; unfold upd; destruct (Nat.eqb_spec u t); congruence|exact RK]]. destruct (get s i) as [t'|] eqn:G; [|reflexivity]. apply get_some in G. destruct G as [G A]. replace t' with t by congruence. rewrite FS. destruct (stt s t) eqn:S; [|reflexivity|reflexivity].
    exfalso. assert (W t = true) by (apply (k_only _ _ I i); auto; congruence). congruence.
Qed.
Lemma sweep_K : forall n W s m, K W s -> n <= c s -> K W (fst (sweep s n m)) /\ log (fst (sweep s n m)) = log s.
Proof.
  induction n as [|i IH]; intros W s m I L; cbn [sweep]; [auto|]. destruct (k_own _ _ I i L) as (t & P & H).
  assert (R : W t = false -> K W (remove s i)) by (intros WT; apply (K_ext (upd W t false)); [intros u; unfold upd; destruct (Nat.eqb_spec u t); congruence|apply (remove_K W s i t I L P)]).
  assert (RL : i <= c (remove s i)) by (rewrite (remove_c s i L); lia). destruct (remove_frame s i) as (_ & _ & _ & _ & FG).
  destruct (get s i) as [t'|] eqn:G.
  - apply get_some in G. destruct G as [G A]. assert (t' = t) by congruence; subst t'. destruct (stt s t) eqn:S; [apply IH; [exact I|lia]| |apply IH; [exact I|lia]].
    rewrite <- FG. apply IH; [|exact RL]. apply R. destruct (W t) eqn:WT; [|reflexivity]. destruct (k_in _ _ I t WT) as (_ & X & _). congruence.
  - rewrite <- FG. apply IH; [|exact RL]. apply R. destruct (W t) eqn:WT; [|reflexivity]. destruct (k_in _ _ I t WT) as (X & _). rewrite (get_none _ _ _ G P) in X. discriminate.
Qed.
End Inv.
