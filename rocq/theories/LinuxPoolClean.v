(** The invariant of the Linux thread pool for executions in which no end of a container is used by two threads at
    once. *)
From Coq Require Import Lia List Bool Arith.
From Verif Require Import Slots SlotsProofs Threads LinuxPoolModel LinuxPoolProofs.
Import ListNotations.

(** The idle list: [l] from the head on. *)
Fixpoint chain (ths : list thr) (h : option nat) (l : list nat) : Prop :=
  match l with
  | [] => h = None
  | t :: r => h = Some t /\ exists x, nth_error ths t = Some x /\ chain ths (nx x) r
  end.
Lemma chain_set : forall l ths h t x y, chain ths h l -> nth_error ths t = Some x -> (In t l -> nx y = nx x) -> chain (set ths t y) h l.
Proof.
  induction l as [|u r IH]; intros ths h t x y C N E; cbn in *; [exact C|]. destruct C as (-> & z & Nz & C). split; [reflexivity|].
  destruct (Nat.eq_dec t u) as [->|NE].
  - exists y. split; [apply nth_set_eq, nth_error_Some; congruence|]. rewrite E by auto. assert (z = x) as -> by congruence. eapply IH; eauto.
  - exists z. split; [rewrite nth_set_neq by exact NE; exact Nz|]. eapply IH; eauto.
Qed.
Lemma chain_app : forall l ths h y, chain ths h l -> chain (ths ++ [y]) h l.
Proof.
  induction l as [|u r IH]; intros ths h y C; cbn in *; [exact C|]. destruct C as (-> & z & Nz & C). split; [reflexivity|].
  exists z. split; [rewrite nth_error_app1; [exact Nz|apply nth_error_Some; congruence]|]. apply IH, C.
Qed.

(** The tasks in the queue. *)
Definition que (s : st) : list (option nat) := skipn (ri s) (firstn (wi s) (buf s)).
Definition atC9 (k : nat) (c : cpc) : nat := match c with C9 j => is j k | _ => 0 end.
Definition okc (s : st) (l : list nat) (c : cpc) : Prop :=
  match c with
  | C1 _ t => In t l
  | C2 _ t n => In t l /\ exists x, nth_error (th s) t = Some x /\ nx x = n
  | C3 _ t => exists x, nth_error (th s) t = Some x /\ job x = None
  | C4 k t => exists x, nth_error (th s) t = Some x /\ job x = Some k
  | C9 k => nth_error (buf s) (wi s) = Some (Some k)
  | _ => True
  end.
Definition okt (s : st) (x : thr) : Prop :=
  match pc x with
  | T0 => job x <> None
  | T1 k => job x = Some k
  | T3 k => job x = None /\ ri s < wi s /\ nth_error (buf s) (ri s) = Some (Some k)
  | T8 | T9 => sg x = true -> job x <> None
  | _ => job x = None
  end.

Record Clean (s : st) (l : list nat) : Prop := CL {
  k_chain : chain (th s) (hd s) l;
  k_place : forall t x, nth_error (th s) t = Some x -> occ l t + suml (has t) (ca s) + b2n (sg x) + busy x = 1;
  k_out : forall t, nth_error (th s) t = None -> occ l t + suml (has t) (ca s) = 0;
  k_idle : forall t x, nth_error (th s) t = Some x -> In t l -> job x = None;
  k_ca : forall i c, nth_error (ca s) i = Some c -> okc s l c;
  k_th : forall t x, nth_error (th s) t = Some x -> okt s x;
  k_ri : ri s <= wi s;
  k_len : length (buf s) = wi s + suml pushing (ca s);
  k_buf : forall o, In o (buf s) -> o <> None;
  k_task : forall k, suml (priv k) (ca s) + suml (atC9 k) (ca s) + suml (wj k) (th s) + slots (que s) k +
                     suml (isstart k) (log s) + suml (isrej k) (log s) = lt1 k (nt s);
  k_cl : clash s = false }.

Lemma nth_set_cases : forall A (l : list A) i j y z, nth_error (set l i y) j = Some z -> (i = j /\ z = y) \/ (i <> j /\ nth_error l j = Some z).
Proof. exact nth_set. Qed.
Lemma nth_set_none : forall A (l : list A) i j y, nth_error (set l i y) j = None -> nth_error l j = None.
Proof. intros A l i j y H. apply nth_error_None in H. rewrite set_length in H. apply nth_error_None, H. Qed.
Lemma slots_app : forall a b o, slots (a ++ b) o = slots a o + slots b o.
Proof. induction a; intros; cbn; [lia|]. rewrite IHa. lia. Qed.
Lemma clash_false : forall s, clash s = false -> suml popping (ca s) <= 1 /\ suml taking (th s) <= 1 /\ suml pushing (ca s) <= 1.
Proof.
  intros s H. unfold clash in H. apply orb_false_elim in H. destruct H as (H & C). apply orb_false_elim in H. destruct H as (A & B).
  apply Nat.ltb_ge in A, B, C. auto.
Qed.

(** A step of a caller that leaves threads, list and queue alone. *)
Lemma caller_only : forall s s' l i c y, Clean s l -> nth_error (ca s) i = Some c -> ca s' = set (ca s) i y ->
  hd s' = hd s -> buf s' = buf s -> ri s' = ri s -> wi s' = wi s -> th s' = th s ->
  (forall t, has t y = has t c) -> pushing y = pushing c -> okc s l y ->
  (forall k, priv k y + atC9 k y + suml (isstart k) (log s') + suml (isrej k) (log s') + lt1 k (nt s) =
             priv k c + atC9 k c + suml (isstart k) (log s) + suml (isrej k) (log s) + lt1 k (nt s')) ->
  clash s' = false -> Clean s' l.
Proof.
  intros s s' l i c y K N C H B R W T HA PU OK TA CL.
  assert (U : forall f, suml f (set (ca s) i y) + f c = suml f (ca s) + f y) by (intros; apply suml_set; assumption).
  assert (Q : que s' = que s) by (unfold que; rewrite R, W, B; reflexivity).
  constructor; rewrite ?C, ?H, ?B, ?R, ?W, ?T, ?Q; try apply K.
  - intros t x Nx. pose proof (k_place _ _ K t x Nx). pose proof (U (has t)). rewrite (HA t) in *. lia.
  - intros t Nx. pose proof (k_out _ _ K t Nx). pose proof (U (has t)). rewrite (HA t) in *. lia.
  - intros j d Nj. assert (okc s l d) as X. { apply nth_set in Nj. destruct Nj as [(-> & ->)|(NE & Nj)]; [exact OK|apply (k_ca _ _ K j d Nj)]. }
    destruct d; unfold okc in *; rewrite ?T, ?B, ?W; exact X.
  - intros t x Nx. pose proof (k_th _ _ K t x Nx) as X. unfold okt in *. rewrite R, W, B. exact X.
  - pose proof (U pushing). pose proof (k_len _ _ K). lia.
  - intros k. pose proof (U (priv k)). pose proof (U (atC9 k)). pose proof (k_task _ _ K k). specialize (TA k). lia.
  - exact CL.
Qed.

(** A step of a thread that is in neither list nor waiting to be woken, and leaves list, callers and queue alone. *)
Lemma thread_only : forall s s' l t x y, Clean s l -> nth_error (th s) t = Some x -> th s' = set (th s) t y ->
  hd s' = hd s -> buf s' = buf s -> ri s' = ri s -> wi s' = wi s -> ca s' = ca s -> nt s' = nt s ->
  nx y = nx x -> b2n (sg y) + busy y = b2n (sg x) + busy x -> (job y = job x \/ busy x = 1) -> okt s y ->
  (forall k, wj k y + suml (isstart k) (log s') = wj k x + suml (isstart k) (log s)) ->
  (forall k, suml (isrej k) (log s') = suml (isrej k) (log s)) ->
  clash s' = false -> Clean s' l.
Proof.
  intros s s' l t x y K N T H B R W C NT X PL J OK WJ RJ CL.
  assert (U : forall f, suml f (set (th s) t y) + f x = suml f (th s) + f y) by (intros; apply suml_set; assumption).
  assert (Q : que s' = que s) by (unfold que; rewrite R, W, B; reflexivity).
  pose proof (k_place _ _ K t x N) as PX.
  constructor; rewrite ?C, ?H, ?B, ?R, ?W, ?T, ?Q, ?NT; try apply K.
  - eapply chain_set; [apply K|exact N|auto].
  - intros u z Nz. apply nth_set in Nz. destruct Nz as [(<- & ->)|(NE & Nz)]; [lia|apply (k_place _ _ K u z Nz)].
  - intros u Nz. apply nth_set_none in Nz. apply (k_out _ _ K u Nz).
  - intros u z Nz I. apply nth_set in Nz. destruct Nz as [(<- & ->)|(NE & Nz)]; [|apply (k_idle _ _ K u z Nz I)].
    destruct J as [->|J]; [apply (k_idle _ _ K _ _ N I)|]. apply occ_In in I. lia.
  - intros j d Nj. pose proof (k_ca _ _ K j d Nj) as Z. pose proof (suml_ge _ (has t) _ _ _ Nj) as HT.
    destruct d; unfold okc in *; rewrite ?T, ?B, ?W; auto.
    + destruct Z as (I & z & Nz & E). split; [exact I|]. destruct (Nat.eq_dec t t0) as [->|NE].
      * exists y. split; [apply nth_set_eq, nth_error_Some; congruence|congruence].
      * exists z. rewrite nth_set_neq by exact NE. auto.
    + destruct Z as (z & Nz & E). destruct (Nat.eq_dec t t0) as [->|NE].
      * exists y. split; [apply nth_set_eq, nth_error_Some; congruence|]. cbn in HT. unfold is in HT. rewrite Nat.eqb_refl in HT.
        destruct J as [->|J]; [congruence|lia].
      * exists z. rewrite nth_set_neq by exact NE. auto.
    + destruct Z as (z & Nz & E). destruct (Nat.eq_dec t t0) as [->|NE].
      * exists y. split; [apply nth_set_eq, nth_error_Some; congruence|]. cbn in HT. unfold is in HT. rewrite Nat.eqb_refl in HT.
        destruct J as [->|J]; [congruence|lia].
      * exists z. rewrite nth_set_neq by exact NE. auto.
  - intros u z Nz. assert (okt s z) as Y. { apply nth_set in Nz. destruct Nz as [(<- & ->)|(NE & Nz)]; [exact OK|apply (k_th _ _ K u z Nz)]. }
    unfold okt in *. rewrite R, W, B. exact Y.
  - intros k. pose proof (U (wj k)). pose proof (k_task _ _ K k). specialize (WJ k). specialize (RJ k). lia.
  - exact CL.
Qed.

Lemma clash_ext : forall s s', ca s' = ca s -> th s' = th s -> clash s' = clash s.
Proof. intros s s' A B. unfold clash. rewrite A, B. reflexivity. Qed.
Lemma put_end : forall b k, put b (length b) k = b ++ [Some k].
Proof. induction b as [|x b IH]; intros k; cbn; [reflexivity|]. rewrite IH. reflexivity. Qed.
Lemma slots_firstn_S : forall (b : list (option nat)) n x, nth_error b n = Some x -> firstn (S n) b = firstn n b ++ [x].
Proof. induction b as [|y b IH]; intros [|n] x H; cbn in *; try discriminate; [injection H as ->; reflexivity|]. rewrite (IH n x H). reflexivity. Qed.
Lemma skipn_S : forall (b : list (option nat)) n x, nth_error b n = Some x -> skipn n b = x :: skipn (S n) b.
Proof. induction b as [|y b IH]; intros [|n] x H; cbn in *; try discriminate; [injection H as ->; reflexivity|]. apply IH, H. Qed.
Lemma nth_firstn : forall (b : list (option nat)) n m, m < n -> nth_error (firstn n b) m = nth_error b m.
Proof. induction b as [|y b IH]; intros [|n] [|m] H; cbn; try lia; auto. apply IH. lia. Qed.

Lemma cstep_Clean : forall M inh s l i c o s', Clean s l -> nth_error (ca s) i = Some c -> cstep M inh s i c o = Some s' ->
  clash s' = false -> exists l', Clean s' l'.
Proof.
  intros M inh s l i c o s' K N E CL. pose proof (clash_false _ (k_cl _ _ K)) as (K1 & K2 & K3).
  pose proof (k_ca _ _ K i c N) as OK.
  assert (LK : forall k, okc s l (look k (hd s))).
  { intros k. pose proof (k_chain _ _ K) as C. unfold look. destruct l as [|t r]; cbn in C; [rewrite C; exact I|]. destruct C as (-> & _). cbn. auto. }
  assert (PL : forall k j, priv j (look k (hd s)) = is k j /\ atC9 j (look k (hd s)) = 0 /\ pushing (look k (hd s)) = 0 /\ (forall t, has t (look k (hd s)) = 0)).
  { intros k j. unfold look. destruct (hd s); cbn; auto. }
  destruct c as [|k|k t|k t n|k t|k t|k|k c|k|k|k|k|k|k]; cbn [cstep] in E.
  - injection E as <-. exists l. eapply caller_only; [exact K|exact N|reflexivity| | | | | | | | | |exact CL]; try reflexivity; try exact I.
    intros j. cbn. unfold priv, hold; cbn. unfold lt1. destruct (Nat.ltb_spec j (nt s)), (Nat.ltb_spec j (S (nt s))), (Nat.eqb_spec (nt s) j); lia.
  - injection E as <-. exists l. eapply caller_only; [exact K|exact N|reflexivity| | | | | | | | | |exact CL]; try reflexivity.
    + intros t. cbn. apply PL. exact 0.
    + cbn. apply PL. exact 0.
    + apply LK.
    + intros j. destruct (PL k j) as (-> & -> & _). reflexivity.
  - destruct (nth_error (th s) t) as [x|] eqn:Nt; [|discriminate]. injection E as <-.
    exists l. eapply caller_only; [exact K|exact N|reflexivity| | | | | | | | | |exact CL]; try reflexivity.
    cbn. split; [exact OK|eauto].
  - destruct (eqp (hd s) (Some t)) eqn:EH.
    + apply eqp_iff in EH. destruct (nth_error (th s) t) as [x|] eqn:Nt; [|discriminate]. injection E as <-.
      cbn in OK. destruct OK as (I & x0 & Nx0 & En). assert (x0 = x) by congruence. subst x0.
      pose proof (k_chain _ _ K) as C. destruct l as [|t' r]; [destruct I|]. cbn in C. destruct C as (E1 & x1 & Nx1 & C).
      rewrite EH in E1. injection E1 as <-. assert (x1 = x) by congruence. subst x1. rewrite En in C.
      pose proof (k_place _ _ K t x Nt) as P. cbn [occ] in P. rewrite Nat.eqb_refl in P.
      assert (NI : ~ In t r) by (intros X; apply occ_In in X; lia).
      assert (U : forall f, suml f (set (ca s) i (C3 k t)) + f (C2 k t n) = suml f (ca s) + f (C3 k t)) by (intros; apply suml_set; assumption).
      assert (UT : forall f, suml f (set (th s) t (wnx x None)) + f x = suml f (th s) + f (wnx x None)) by (intros; apply suml_set; assumption).
      exists r. constructor; cbn [th hd ca buf ri wi nt log setca setth sethd].
      * eapply chain_set; [exact C|exact Nt|intros; contradiction].
      * intros u z Nz. pose proof (U (has u)) as X. cbn [has] in X. apply nth_set in Nz. destruct Nz as [(<- & ->)|(NE & Nz)].
        { cbn [wnx sg]. change (busy (wnx x None)) with (busy x). unfold is in X. rewrite Nat.eqb_refl in X. lia. }
        { pose proof (k_place _ _ K u z Nz) as PZ. cbn [occ] in PZ. unfold is in X. destruct (Nat.eqb_spec t u); [congruence|]. lia. }
      * intros u Nz. apply nth_set_none in Nz. pose proof (k_out _ _ K u Nz) as PZ. cbn [occ] in PZ. pose proof (U (has u)) as X. cbn [has] in X.
        unfold is in X. destruct (Nat.eqb_spec t u); [congruence|]. lia.
      * intros u z Nz Iu. apply nth_set in Nz. destruct Nz as [(<- & ->)|(NE & Nz)]; [contradiction|]. apply (k_idle _ _ K u z Nz). right. exact Iu.
      * intros j d Nj. apply nth_set in Nj. destruct Nj as [(<- & ->)|(NE & Nj)].
        { cbn. exists (wnx x None). split; [apply nth_set_eq, nth_error_Some; congruence|]. cbn. apply (k_idle _ _ K t x Nt). left. reflexivity. }
        { pose proof (k_ca _ _ K j d Nj) as Z. pose proof (suml_two _ popping _ _ _ _ _ NE N Nj) as TW. cbn [popping] in TW.
          destruct d; unfold okc in *; cbn [th buf wi setca setth sethd]; cbn [popping] in TW; auto; try lia.
          - destruct Z as (z & Nz & J). destruct (Nat.eq_dec t t0) as [->|NE2].
            + exists (wnx x None). split; [apply nth_set_eq, nth_error_Some; congruence|]. cbn. congruence.
            + exists z. rewrite nth_set_neq by exact NE2. auto.
          - destruct Z as (z & Nz & J). destruct (Nat.eq_dec t t0) as [->|NE2].
            + exists (wnx x None). split; [apply nth_set_eq, nth_error_Some; congruence|]. cbn. congruence.
            + exists z. rewrite nth_set_neq by exact NE2. auto. }
      * intros u z Nz. apply nth_set in Nz. destruct Nz as [(<- & ->)|(NE & Nz)]; [exact (k_th _ _ K t x Nt)|exact (k_th _ _ K u z Nz)].
      * apply K.
      * pose proof (U pushing). cbn [pushing] in *. pose proof (k_len _ _ K). lia.
      * apply K.
      * intros j. pose proof (U (priv j)). pose proof (U (atC9 j)). pose proof (UT (wj j)). pose proof (k_task _ _ K j).
        change (wj j (wnx x None)) with (wj j x) in *. change (priv j (C3 k t)) with (priv j (C2 k t n)) in *. cbn [atC9] in *.
        change (que (setca (setth (sethd s n) t (wnx x None)) i (C3 k t))) with (que s). lia.
      * exact CL.
    + injection E as <-. exists l. eapply caller_only; [exact K|exact N|reflexivity| | | | | | | | | |exact CL]; try reflexivity.
      * intros u. cbn. apply PL. exact 0.
      * cbn. apply PL. exact 0.
      * apply LK.
      * intros j. destruct (PL k j) as (-> & -> & _). reflexivity.
  - destruct (nth_error (th s) t) as [x|] eqn:Nt; [|discriminate]. injection E as <-.
    pose proof (k_place _ _ K t x Nt) as P. pose proof (suml_ge _ (has t) _ _ _ N) as HT. cbn [has] in HT. unfold is in HT. rewrite Nat.eqb_refl in HT.
    destruct OK as (x0 & Nx0 & J). assert (x0 = x) by congruence. subst x0.
    assert (NI : ~ In t l) by (intros X; apply occ_In in X; lia).
    assert (U : forall f, suml f (set (ca s) i (C4 k t)) + f (C3 k t) = suml f (ca s) + f (C4 k t)) by (intros; apply suml_set; assumption).
    assert (UT : forall f, suml f (set (th s) t (wjob x (Some k))) + f x = suml f (th s) + f (wjob x (Some k))) by (intros; apply suml_set; assumption).
    exists l. constructor; cbn [th hd ca buf ri wi nt log setca setth].
    + eapply chain_set; [apply K|exact Nt|reflexivity].
    + intros u z Nz. pose proof (U (has u)) as X. cbn [has] in X. apply nth_set in Nz. destruct Nz as [(<- & ->)|(NE & Nz)].
      { cbn [wjob sg]. change (busy (wjob x (Some k))) with (busy x). lia. }
      { pose proof (k_place _ _ K u z Nz) as PZ. lia. }
    + intros u Nz. apply nth_set_none in Nz. pose proof (k_out _ _ K u Nz) as PZ. pose proof (U (has u)) as X. cbn [has] in X. lia.
    + intros u z Nz Iu. apply nth_set in Nz. destruct Nz as [(<- & ->)|(NE & Nz)]; [contradiction|]. apply (k_idle _ _ K u z Nz Iu).
    + intros j d Nj. apply nth_set in Nj. destruct Nj as [(<- & ->)|(NE & Nj)].
      { cbn. exists (wjob x (Some k)). split; [apply nth_set_eq, nth_error_Some; congruence|]. reflexivity. }
      { pose proof (k_ca _ _ K j d Nj) as Z. pose proof (suml_two _ (has t) _ _ _ _ _ NE N Nj) as TW. cbn [has] in TW. unfold is in TW. rewrite Nat.eqb_refl in TW.
        destruct d; unfold okc in *; cbn [th buf wi setca setth]; cbn [has] in TW; auto.
        - destruct Z as (Iz & z & Nz & X). split; [exact Iz|]. destruct (Nat.eq_dec t t0) as [->|NE2]; [contradiction|]. exists z. rewrite nth_set_neq by exact NE2. auto.
        - destruct Z as (z & Nz & X). destruct (Nat.eq_dec t t0) as [->|NE2]; [unfold is in TW; rewrite Nat.eqb_refl in TW; lia|].
          exists z. rewrite nth_set_neq by exact NE2. auto.
        - destruct Z as (z & Nz & X). destruct (Nat.eq_dec t t0) as [->|NE2]; [unfold is in TW; rewrite Nat.eqb_refl in TW; lia|].
          exists z. rewrite nth_set_neq by exact NE2. auto. }
    + intros u z Nz. apply nth_set in Nz. destruct Nz as [(<- & ->)|(NE & Nz)]; [|exact (k_th _ _ K u z Nz)].
      unfold okt. cbn [wjob pc job sg]. assert (busy x = 0) as BZ by lia. unfold busy in BZ. destruct (pc x); try discriminate BZ; discriminate.
    + apply K.
    + pose proof (U pushing). cbn [pushing] in *. pose proof (k_len _ _ K). lia.
    + apply K.
    + intros j. pose proof (U (priv j)) as X1. pose proof (U (atC9 j)). pose proof (UT (wj j)) as X2. pose proof (k_task _ _ K j).
      cbn [atC9] in *. unfold priv, hold in X1; fold (priv j) in X1. cbn in X1. 
      assert (BZ : busy x = 0) by lia. assert (WX : wj j (wjob x (Some k)) = pt (Some k) j /\ wj j x = 0).
      { unfold wj, wjob; cbn [pc job]. rewrite J. unfold busy in BZ. destruct (pc x); try discriminate BZ; auto. }
      destruct WX as (W1 & W2). rewrite W1, W2 in X2. cbn [pt] in X2.
      change (que (setca (setth s t (wjob x (Some k))) i (C4 k t))) with (que s).
      change (fun c : cpc => match c with C4 _ _ | C9 _ => 0 | _ => pt (task c) j end) with (priv j) in X1. lia.
    + exact CL.
  - destruct (nth_error (th s) t) as [x|] eqn:Nt; [|discriminate].
    destruct (msk x) eqn:MK.
    + injection E as <-.
      pose proof (k_place _ _ K t x Nt) as P. pose proof (suml_ge _ (has t) _ _ _ N) as HT. cbn [has] in HT. unfold is in HT. rewrite Nat.eqb_refl in HT.
      destruct OK as (x0 & Nx0 & J). assert (x0 = x) by congruence. subst x0.
      assert (NI : ~ In t l) by (intros X; apply occ_In in X; lia).
      assert (U : forall f, suml f (set (ca s) i CI) + f (C4 k t) = suml f (ca s) + f CI) by (intros; apply suml_set; assumption).
      assert (UT : forall f, suml f (set (th s) t (wsg x)) + f x = suml f (th s) + f (wsg x)) by (intros; apply suml_set; assumption).
      exists l. constructor; cbn [th hd ca buf ri wi nt log setca setth addlog suml isstart isrej].
      * eapply chain_set; [apply K|exact Nt|reflexivity].
      * intros u z Nz. pose proof (U (has u)) as X. cbn [has] in X. apply nth_set in Nz. destruct Nz as [(<- & ->)|(NE & Nz)].
        { cbn [wsg sg b2n]. change (busy (wsg x)) with (busy x). unfold is in X. rewrite Nat.eqb_refl in X. lia. }
        { pose proof (k_place _ _ K u z Nz) as PZ. unfold is in X. destruct (Nat.eqb_spec t u); [congruence|]. lia. }
      * intros u Nz. apply nth_set_none in Nz. pose proof (k_out _ _ K u Nz) as PZ. pose proof (U (has u)) as X. cbn [has] in X. lia.
      * intros u z Nz Iu. apply nth_set in Nz. destruct Nz as [(<- & ->)|(NE & Nz)]; [contradiction|]. apply (k_idle _ _ K u z Nz Iu).
      * intros j d Nj. apply nth_set in Nj. destruct Nj as [(<- & ->)|(NE & Nj)]; [exact I|].
        pose proof (k_ca _ _ K j d Nj) as Z.
        destruct d; unfold okc in *; cbn [th buf wi setca setth addlog]; auto.
        { destruct Z as (Iz & z & Nz & X). split; [exact Iz|]. destruct (Nat.eq_dec t t0) as [->|NE2]; [contradiction|]. exists z. rewrite nth_set_neq by exact NE2. auto. }
        { destruct Z as (z & Nz & X). destruct (Nat.eq_dec t t0) as [->|NE2]; [exists (wsg x); split; [apply nth_set_eq, nth_error_Some; congruence|cbn; congruence]|].
          exists z. rewrite nth_set_neq by exact NE2. auto. }
        { destruct Z as (z & Nz & X). destruct (Nat.eq_dec t t0) as [->|NE2]; [exists (wsg x); split; [apply nth_set_eq, nth_error_Some; congruence|cbn; congruence]|].
          exists z. rewrite nth_set_neq by exact NE2. auto. }
      * intros u z Nz. apply nth_set in Nz. destruct Nz as [(<- & ->)|(NE & Nz)]; [|exact (k_th _ _ K u z Nz)].
        unfold okt. cbn [wsg pc job sg]. assert (busy x = 0) as BZ by lia. unfold busy in BZ. destruct (pc x); try discriminate BZ; rewrite J; discriminate.
      * apply K.
      * pose proof (U pushing). cbn [pushing] in *. pose proof (k_len _ _ K). lia.
      * apply K.
      * intros j. pose proof (U (priv j)) as X1. pose proof (U (atC9 j)). pose proof (UT (wj j)) as X2. pose proof (k_task _ _ K j).
        cbn [atC9] in *. change (priv j (C4 k t)) with 0 in X1. change (priv j CI) with 0 in X1. change (wj j (wsg x)) with (wj j x) in X2.
        change (que (setca (addlog (setth s t (wsg x)) (EAcc k)) i CI)) with (que s). lia.
      * exact CL.
    + injection E as <-. exists l. destruct K. constructor; cbn [kill th hd ca buf ri wi nt log suml isstart isrej]; auto.
  - injection E as <-. exists l. eapply caller_only; [exact K|exact N|reflexivity| | | | | | | | | |exact CL]; try reflexivity; exact I.
  - destruct (Nat.leb M c); [|destruct (Nat.eqb (cnt s) c)]; injection E as <-; exists l;
      (eapply caller_only; [exact K|exact N|reflexivity| | | | | | | | | |exact CL]; try reflexivity; exact I).
  - destruct o; injection E as <-; exists l; (eapply caller_only; [exact K|exact N|reflexivity| | | | | | | | | |exact CL]; try reflexivity; try exact I).
    intros j. unfold priv, hold; cbn. unfold is. lia.
  - injection E as <-.
    assert (U : forall f, suml f (set (ca s) i (C9 k)) + f (C8 k) = suml f (ca s) + f (C9 k)) by (intros; apply suml_set; assumption).
    pose proof (clash_false _ CL) as (_ & _ & P1). cbn [ca setca setq] in P1. pose proof (U pushing) as UP. cbn [pushing] in UP.
    assert (P0 : suml pushing (ca s) = 0) by lia. pose proof (k_len _ _ K) as LN. rewrite P0, Nat.add_0_r in LN.
    assert (PE : put (buf s) (wi s) k = buf s ++ [Some k]) by (rewrite <- LN; apply put_end).
    exists l. constructor; cbn [th hd ca buf ri wi nt log setca setq]; rewrite ?PE; try apply K.
    + intros u z Nz. pose proof (U (has u)) as X. cbn [has] in X. pose proof (k_place _ _ K u z Nz). lia.
    + intros u Nz. pose proof (U (has u)) as X. cbn [has] in X. pose proof (k_out _ _ K u Nz). lia.
    + intros j d Nj. apply nth_set in Nj. destruct Nj as [(<- & ->)|(NE & Nj)].
      { cbn. rewrite <- LN, nth_error_app2, Nat.sub_diag by lia. reflexivity. }
      pose proof (k_ca _ _ K j d Nj) as Z. pose proof (suml_ge _ pushing _ _ _ Nj) as G0. destruct d; try exact Z. cbn in G0. lia.
    + intros u z Nz. pose proof (k_th _ _ K u z Nz) as Z. unfold okt in *. cbn [ri wi buf setca setq].
      destruct (pc z); auto. destruct Z as (A & B & C). split; [exact A|split; [exact B|]]. rewrite nth_error_app1 by lia. exact C.
    + rewrite app_length. cbn. lia.
    + intros q H. apply in_app_or in H. destruct H as [H|[<-|[]]]; [apply (k_buf _ _ K q H)|discriminate].
    + intros j. pose proof (U (priv j)) as X1. pose proof (U (atC9 j)) as X2. pose proof (k_task _ _ K j).
      change (priv j (C9 k)) with 0 in X1. cbn [atC9] in X2. change (priv j (C8 k)) with (is k j) in X1.
      assert (Q : que (setca (setq s (buf s ++ [Some k]) (ri s) (wi s)) i (C9 k)) = que s).
      { unfold que; cbn. rewrite firstn_app. replace (wi s - length (buf s)) with 0 by lia. cbn. rewrite app_nil_r. reflexivity. }
      rewrite Q. lia.
    + rewrite PE in CL. exact CL.
  - injection E as <-.
    assert (U : forall f, suml f (set (ca s) i CI) + f (C9 k) = suml f (ca s) + f CI) by (intros; apply suml_set; assumption).
    cbn in OK. pose proof (U pushing) as UP. cbn [pushing] in UP. pose proof (k_ri _ _ K) as KR.
    exists l. constructor; cbn [th hd ca buf ri wi nt log setca setq addlog suml isstart isrej]; try apply K.
    + intros u z Nz. pose proof (U (has u)) as X. cbn [has] in X. pose proof (k_place _ _ K u z Nz). lia.
    + intros u Nz. pose proof (U (has u)) as X. cbn [has] in X. pose proof (k_out _ _ K u Nz). lia.
    + intros j d Nj. apply nth_set in Nj. destruct Nj as [(<- & ->)|(NE & Nj)]; [exact I|].
      pose proof (k_ca _ _ K j d Nj) as Z. pose proof (suml_two _ pushing _ _ _ _ _ NE N Nj) as G0. destruct d; try exact Z. cbn in G0. lia.
    + intros u z Nz. pose proof (k_th _ _ K u z Nz) as Z. unfold okt in *. cbn [ri wi buf setca setq addlog].
      destruct (pc z); auto. destruct Z as (A & B & C). split; [exact A|split; [lia|exact C]].
    + lia.
    + pose proof (k_len _ _ K). lia.
    + intros j. pose proof (U (priv j)) as X1. pose proof (U (atC9 j)) as X2. pose proof (k_task _ _ K j).
      change (priv j (C9 k)) with 0 in X1. cbn [atC9] in X2. change (priv j CI) with 0 in X1.
      assert (Q : que (setca (addlog (addlog (setq s (buf s) (ri s) (S (wi s))) (EQueue k)) (EAcc k)) i CI) = que s ++ [Some k]).
      { unfold que; cbn [buf ri wi setca setq addlog]. rewrite (slots_firstn_S _ _ _ OK), skipn_app, firstn_length.
        assert (wi s < length (buf s)) by (apply nth_error_Some; congruence).
        replace (ri s - Nat.min (wi s) (length (buf s))) with 0 by lia. reflexivity. }
      rewrite Q, slots_app. cbn. unfold is in *. lia.
    + exact CL.
  - injection E as <-. exists l. destruct o; (eapply caller_only; [exact K|exact N|reflexivity| | | | | | | | | |exact CL]; try reflexivity; exact I).
  - destruct o; injection E as <-; [|exists l; eapply caller_only; [exact K|exact N|reflexivity| | | | | | | | | |exact CL]; try reflexivity; exact I].
    assert (U : forall f, suml f (set (ca s) i CI) + f (C11 k) = suml f (ca s) + f CI) by (intros; apply suml_set; assumption).
    set (y := TH T0 (Some k) None inh false) in *.
    exists l. constructor; cbn [th hd ca buf ri wi nt log setca addth addlog suml isstart isrej]; try apply K.
    + apply chain_app, K.
    + intros u z Nz. pose proof (U (has u)) as X. cbn [has] in X. destruct (Nat.lt_ge_cases u (length (th s))) as [L|L].
      * rewrite nth_error_app1 in Nz by exact L. pose proof (k_place _ _ K u z Nz). lia.
      * assert (z = y) as ->. { rewrite nth_error_app2 in Nz by exact L. destruct (u - length (th s)) as [|[|m]]; cbn in Nz; congruence. }
        apply nth_error_None in L. pose proof (k_out _ _ K u L). cbn. lia.
    + intros u Nz. apply nth_error_None in Nz. rewrite app_length in Nz. cbn in Nz. pose proof (U (has u)) as X. cbn [has] in X.
      assert (nth_error (th s) u = None) as L by (apply nth_error_None; lia). pose proof (k_out _ _ K u L). lia.
    + intros u z Nz Iu. destruct (Nat.lt_ge_cases u (length (th s))) as [L|L].
      * rewrite nth_error_app1 in Nz by exact L. apply (k_idle _ _ K u z Nz Iu).
      * apply nth_error_None in L. pose proof (k_out _ _ K u L). apply occ_In in Iu. lia.
    + intros j d Nj. apply nth_set in Nj. destruct Nj as [(<- & ->)|(NE & Nj)]; [exact I|].
      pose proof (k_ca _ _ K j d Nj) as Z. destruct d; try exact Z; unfold okc in *; cbn [th setca addth addlog].
      * destruct Z as (Iz & z & Nz & X). split; [exact Iz|]. exists z. split; [|exact X]. rewrite nth_error_app1; [exact Nz|apply nth_error_Some; congruence].
      * destruct Z as (z & Nz & X). exists z. split; [|exact X]. rewrite nth_error_app1; [exact Nz|apply nth_error_Some; congruence].
      * destruct Z as (z & Nz & X). exists z. split; [|exact X]. rewrite nth_error_app1; [exact Nz|apply nth_error_Some; congruence].
    + intros u z Nz. destruct (Nat.lt_ge_cases u (length (th s))) as [L|L].
      * rewrite nth_error_app1 in Nz by exact L. exact (k_th _ _ K u z Nz).
      * assert (z = y) as ->. { rewrite nth_error_app2 in Nz by exact L. destruct (u - length (th s)) as [|[|m]]; cbn in Nz; congruence. }
        unfold okt; cbn. discriminate.
    + pose proof (U pushing). cbn [pushing] in *. pose proof (k_len _ _ K). lia.
    + intros j. pose proof (U (priv j)) as X1. pose proof (U (atC9 j)) as X2. pose proof (k_task _ _ K j). rewrite suml_app1.
      change (priv j (C11 k)) with (is k j) in X1. cbn [atC9] in X2. change (priv j CI) with 0 in X1. change (wj j y) with (is k j).
      change (que (setca (addlog (addth s y) (EAcc k)) i CI)) with (que s). lia.
    + exact CL.
  - injection E as <-. exists l. eapply caller_only; [exact K|exact N|reflexivity| | | | | | | | | |exact CL]; try reflexivity; try exact I.
    intros j. unfold priv, hold; cbn. unfold is. lia.
Qed.

Lemma tstep_Clean : forall s l t x s', Clean s l -> nth_error (th s) t = Some x -> tstep s t x = Some s' ->
  clash s' = false -> exists l', Clean s' l'.
Proof.
  intros s l t x s' K N E CL. pose proof (clash_false _ (k_cl _ _ K)) as (K1 & K2 & K3).
  pose proof (k_th _ _ K t x N) as OK. pose proof (k_place _ _ K t x N) as PL. pose proof (k_ri _ _ K) as KR.
  unfold tstep in E. unfold okt in OK. unfold busy in PL.
  destruct (pc x) as [|k| |k|k| |h| |] eqn:P.
  - destruct (job x) as [k|] eqn:J; [|congruence]. injection E as <-. exists l.
    eapply thread_only; [exact K|exact N|reflexivity| | | | | | | | | | | | |exact CL]; try reflexivity.
    + unfold busy; cbn. rewrite P. reflexivity.
    + left. cbn. reflexivity.
    + unfold okt; cbn. exact J.
    + intros j. unfold wj; cbn. rewrite P, J. cbn. unfold is. lia.
  - injection E as <-. exists l.
    eapply thread_only; [exact K|exact N|reflexivity| | | | | | | | | | | | |exact CL]; try reflexivity.
    + unfold busy; cbn. rewrite P. reflexivity.
    + right. unfold busy. rewrite P. reflexivity.
    + intros j. unfold wj; cbn. rewrite P. reflexivity.
  - destruct (Nat.eqb_spec (ri s) (wi s)) as [EQ|NE].
    + injection E as <-. exists l.
      eapply thread_only; [exact K|exact N|reflexivity| | | | | | | | | | | | |exact CL]; try reflexivity.
      * unfold busy; cbn. rewrite P. reflexivity.
      * left. reflexivity.
      * unfold okt; cbn. exact OK.
      * intros j. unfold wj; cbn. rewrite P. reflexivity.
    + pose proof (k_len _ _ K) as LN.
      destruct (nth_error (buf s) (ri s)) as [[k|]|] eqn:NB.
      * injection E as <-. exists l.
        eapply thread_only; [exact K|exact N|reflexivity| | | | | | | | | | | | |exact CL]; try reflexivity.
        { unfold busy; cbn. rewrite P. reflexivity. }
        { left. reflexivity. }
        { unfold okt; cbn. split; [exact OK|]. split; [lia|exact NB]. }
        { intros j. unfold wj; cbn. rewrite P. reflexivity. }
      * exfalso. apply nth_error_In in NB. apply (k_buf _ _ K _ NB). reflexivity.
      * exfalso. apply nth_error_None in NB. lia.
  - destruct OK as (J & LT & NB). injection E as <-.
    assert (UT : forall f, suml f (set (th s) t (wpc x (T4 k))) + f x = suml f (th s) + f (wpc x (T4 k))) by (intros; apply suml_set; assumption).
    exists l. constructor; cbn [th hd ca buf ri wi nt log setth setq addlog suml isstart isrej]; try apply K.
    + eapply chain_set; [apply K|exact N|reflexivity].
    + intros u z Nz. apply nth_set in Nz. destruct Nz as [(<- & ->)|(NE & Nz)]; [cbn; lia|apply (k_place _ _ K u z Nz)].
    + intros u Nz. apply nth_set_none in Nz. apply (k_out _ _ K u Nz).
    + intros u z Nz Iu. apply nth_set in Nz. destruct Nz as [(<- & ->)|(NE & Nz)]; [exact J|apply (k_idle _ _ K u z Nz Iu)].
    + intros j d Nj. pose proof (k_ca _ _ K j d Nj) as Z. pose proof (suml_ge _ (has t) _ _ _ Nj) as HT.
      destruct d; unfold okc in *; cbn [th buf wi setth setq addlog]; auto.
      * destruct Z as (I & z & Nz & X). split; [exact I|]. destruct (Nat.eq_dec t t0) as [->|NE].
        { exists (wpc x (T4 k)). split; [apply nth_set_eq, nth_error_Some; congruence|cbn; congruence]. }
        { exists z. rewrite nth_set_neq by exact NE. auto. }
      * destruct Z as (z & Nz & X). destruct (Nat.eq_dec t t0) as [->|NE].
        { cbn in HT. unfold is in HT. rewrite Nat.eqb_refl in HT. lia. }
        { exists z. rewrite nth_set_neq by exact NE. auto. }
      * destruct Z as (z & Nz & X). destruct (Nat.eq_dec t t0) as [->|NE].
        { cbn in HT. unfold is in HT. rewrite Nat.eqb_refl in HT. lia. }
        { exists z. rewrite nth_set_neq by exact NE. auto. }
    + intros u z Nz. apply nth_set in Nz. destruct Nz as [(<- & ->)|(NE & Nz)]; [exact J|].
      pose proof (k_th _ _ K u z Nz) as Z. pose proof (suml_two _ taking _ _ _ _ _ NE N Nz) as TW.
      unfold okt in *. cbn [ri wi buf setth setq addlog]. destruct (pc z) eqn:PZ; auto. exfalso.
      assert (taking x = 1 /\ taking z = 1) as (E1 & E2) by (unfold taking; rewrite P, PZ; auto). lia.
    + lia.
    + intros j. pose proof (UT (wj j)) as X2. pose proof (k_task _ _ K j) as KT.
      assert (wj j (wpc x (T4 k)) = 0 /\ wj j x = 0) as (W1 & W2) by (unfold wj; cbn; rewrite P; auto). rewrite W1, W2 in X2.
      assert (Q : que s = Some k :: que (addlog (setq (setth s t (wpc x (T4 k))) (buf s) (S (ri s)) (wi s)) (EStart k))).
      { unfold que; cbn [ri wi buf setth setq addlog]. apply skipn_S. rewrite nth_firstn by exact LT. exact NB. }
      rewrite Q in KT. cbn [slots pt] in KT. unfold is in *. lia.
    + exact CL.
  - injection E as <-. exists l.
    eapply thread_only; [exact K|exact N|reflexivity| | | | | | | | | | | | |exact CL]; try reflexivity.
    + unfold busy; cbn. rewrite P. reflexivity.
    + left. reflexivity.
    + unfold okt; cbn. exact OK.
    + intros j. unfold wj; cbn. rewrite P. reflexivity.
  - injection E as <-. exists l.
    eapply thread_only; [exact K|exact N|reflexivity| | | | | | | | | | | | |exact CL]; try reflexivity.
    + unfold busy; cbn. rewrite P. reflexivity.
    + left. reflexivity.
    + unfold okt; cbn. exact OK.
    + intros j. unfold wj; cbn. rewrite P. reflexivity.
  - destruct (eqp (hd s) h) eqn:EH.
    + apply eqp_iff in EH. injection E as <-.
      assert (NI : ~ In t l) by (intros X; apply occ_In in X; lia).
      assert (UT : forall f, suml f (set (th s) t (wpc (wnx x h) T8)) + f x = suml f (th s) + f (wpc (wnx x h) T8)) by (intros; apply suml_set; assumption).
      exists (t :: l). constructor; cbn [th hd ca buf ri wi nt log setth sethd suml isstart isrej]; try apply K.
      * cbn. split; [reflexivity|]. exists (wpc (wnx x h) T8). split; [apply nth_set_eq, nth_error_Some; congruence|]. cbn [wpc wnx nx].
        eapply chain_set; [rewrite <- EH; apply K|exact N|intros; contradiction].
      * intros u z Nz. apply nth_set in Nz. destruct Nz as [(<- & ->)|(NE & Nz)].
        { cbn. rewrite Nat.eqb_refl. lia. }
        { cbn [occ]. destruct (Nat.eqb_spec t u); [congruence|]. pose proof (k_place _ _ K u z Nz). lia. }
      * intros u Nz. apply nth_set_none in Nz. pose proof (k_out _ _ K u Nz). cbn [occ]. destruct (Nat.eqb_spec t u); [congruence|]. lia.
      * intros u z Nz Iu. apply nth_set in Nz. destruct Nz as [(<- & ->)|(NE & Nz)]; [exact OK|]. destruct Iu as [Iu|Iu]; [congruence|]. apply (k_idle _ _ K u z Nz Iu).
      * intros j d Nj. pose proof (k_ca _ _ K j d Nj) as Z. pose proof (suml_ge _ (has t) _ _ _ Nj) as HT.
        destruct d; unfold okc in *; cbn [th buf wi setth sethd]; auto.
        { right. exact Z. }
        { destruct Z as (I & z & Nz & X). split; [right; exact I|]. destruct (Nat.eq_dec t t0) as [->|NE]; [contradiction|]. exists z. rewrite nth_set_neq by exact NE. auto. }
        { destruct Z as (z & Nz & X). destruct (Nat.eq_dec t t0) as [->|NE].
          - cbn in HT. unfold is in HT. rewrite Nat.eqb_refl in HT. lia.
          - exists z. rewrite nth_set_neq by exact NE. auto. }
        { destruct Z as (z & Nz & X). destruct (Nat.eq_dec t t0) as [->|NE].
          - cbn in HT. unfold is in HT. rewrite Nat.eqb_refl in HT. lia.
          - exists z. rewrite nth_set_neq by exact NE. auto. }
      * intros u z Nz. apply nth_set in Nz. destruct Nz as [(<- & ->)|(NE & Nz)]; [|exact (k_th _ _ K u z Nz)].
        unfold okt; cbn. intros SG. rewrite SG in PL. cbn in PL. lia.
      * intros j. pose proof (UT (wj j)) as X2. pose proof (k_task _ _ K j) as KT.
        assert (wj j (wpc (wnx x h) T8) = 0 /\ wj j x = 0) as (W1 & W2) by (unfold wj; cbn; rewrite P, OK; auto). rewrite W1, W2 in X2.
        change (que (setth (sethd s (Some t)) t (wpc (wnx x h) T8))) with (que s). lia.
      * exact CL.
    + injection E as <-. exists l.
      eapply thread_only; [exact K|exact N|reflexivity| | | | | | | | | | | | |exact CL]; try reflexivity.
      * unfold busy; cbn. rewrite P. reflexivity.
      * left. reflexivity.
      * unfold okt; cbn. exact OK.
      * intros j. unfold wj; cbn. rewrite P. reflexivity.
  - injection E as <-. exists l.
    eapply thread_only; [exact K|exact N|reflexivity| | | | | | | | | | | | |exact CL]; try reflexivity.
    + unfold busy; cbn. rewrite P. reflexivity.
    + left. reflexivity.
    + unfold okt; cbn. exact OK.
    + intros j. unfold wj; cbn. rewrite P. reflexivity.
  - destruct (sg x) eqn:SG; [|discriminate]. injection E as <-. exists l.
    eapply thread_only; [exact K|exact N|reflexivity| | | | | | | | | | | | |exact CL]; try reflexivity.
    + unfold busy; cbn. rewrite P, SG. reflexivity.
    + left. reflexivity.
    + unfold okt; cbn. auto.
    + intros j. unfold wj; cbn. rewrite P. reflexivity.
Qed.

Definition Ov (s : st) : Prop := ov s = false -> exists l, Clean s l.
Lemma step_ov : forall M inh s a s', step M inh s a = Some s' -> ov s' = ov s.
Proof.
  intros M inh s a s' E. unfold step in E. destruct (dead s); [discriminate|]. destruct a as [i o|t].
  - destruct (nth_error (ca s) i) as [c|] eqn:N; [|discriminate]. destruct c; cbn [cstep] in E;
      repeat match type of E with
      | context [match ?e with _ => _ end] => match e with context [match _ with _ => _ end] => fail 1 | _ => destruct e eqn:? end
      end; try discriminate; injection E as <-; reflexivity.
  - destruct (nth_error (th s) t) as [x|] eqn:N; [|discriminate]. unfold tstep in E.
    repeat match type of E with
      | context [match ?e with _ => _ end] => match e with context [match _ with _ => _ end] => fail 1 | _ => destruct e eqn:? end
      end; try discriminate; injection E as <-; reflexivity.
Qed.
Lemma exec_Ov : forall M inh s a s', exec M inh s a = Some s' -> Ov s -> Ov s'.
Proof.
  intros M inh s a s' E I O. unfold exec in E. destruct (step M inh s a) as [s1|] eqn:S; [|discriminate]. cbn in E. injection E as <-.
  unfold watch in O; cbn in O. apply orb_false_elim in O. destruct O as (O & CL). rewrite (step_ov _ _ _ _ _ S) in O.
  destruct (I O) as (l & K). assert (exists l', Clean s1 l') as (l' & K').
  { unfold step in S. destruct (dead s); [discriminate|]. destruct a as [i o|t].
    - destruct (nth_error (ca s) i) as [c|] eqn:N; [|discriminate]. eapply cstep_Clean; eauto.
    - destruct (nth_error (th s) t) as [x|] eqn:N; [|discriminate]. eapply tstep_Clean; eauto. }
  exists l'. destruct K'. constructor; auto.
Qed.
Lemma init_Clean : forall n, Clean (init n) [].
Proof.
  intros n. constructor; try reflexivity.
  - intros [|t] x H; discriminate.
  - intros t H. cbn. rewrite suml_repeat; reflexivity.
  - intros [|t] x H; discriminate.
  - intros i c H. apply nth_error_In, repeat_spec in H. subst c. exact I.
  - intros [|t] x H; discriminate.
  - cbn. rewrite suml_repeat; reflexivity.
  - intros o [].
  - intros k. unfold que; cbn. rewrite !suml_repeat; reflexivity.
  - unfold clash; cbn. rewrite !suml_repeat; reflexivity.
Qed.
Lemma run_Ov : forall M inh n l s, run M inh (init n) l = Some s -> Ov s.
Proof.
  intros M inh n l s R. assert (G : forall l s0 s1, run M inh s0 l = Some s1 -> Ov s0 -> Ov s1).
  { clear. induction l as [|a l IH]; intros s0 s1 R I; cbn in R; [injection R as <-; exact I|].
    destruct (exec M inh s0 a) as [s2|] eqn:E; [|discriminate]. eapply IH; eauto. eapply exec_Ov; eauto. }
  apply (G l _ _ R). intros _. exists []. apply init_Clean.
Qed.
