(** Lemmas about the span model. *)
From Coq Require Import ZArith Lia Bool List ZifyBool.
From Verif Require Import Word SpanModel.
Import ListNotations.
Local Open Scope Z_scope.

(** A span that lies inside its block; blocks are smaller than 2^63 elements
    ([PTRDIFF_MAX]). *)
Definition wf {A} (s : span A) : Prop :=
  0 <= sp_off s /\ 0 <= sp_len s /\ sp_off s + sp_len s <= Z.of_nat (length (sp_mem s))
  /\ Z.of_nat (length (sp_mem s)) < W63.

(** The elements a span shows. *)
Definition view {A} (s : span A) : list A :=
  firstn (Z.to_nat (sp_len s)) (skipn (Z.to_nat (sp_off s)) (sp_mem s)).

(** [sub] occurs in [l] at position [k]. *)
Definition occurs {A} (sub l : list A) (k : nat) : Prop :=
  exists pre post, l = pre ++ sub ++ post /\ length pre = k.

(** [r] is the smallest (greatest) position with [P], or [kuInvalidIndex] if there is none. *)
Definition first_index (P : nat -> Prop) (r : Z) : Prop :=
  (r = U64MAX /\ forall k, ~ P k)
  \/ (r <> U64MAX /\ exists k, r = Z.of_nat k /\ P k /\ forall j, P j -> (k <= j)%nat).
Definition last_index (P : nat -> Prop) (r : Z) : Prop :=
  (r = U64MAX /\ forall k, ~ P k)
  \/ (r <> U64MAX /\ exists k, r = Z.of_nat k /\ P k /\ forall j, P j -> (j <= k)%nat).

Lemma first_index_iff : forall P Q r, (forall k, P k <-> Q k) -> first_index P r -> first_index Q r.
Proof.
  intros P Q r H [[E N]|[Hn (k & E & Hk & L)]].
  - left. split; [exact E|]. intros k Hq. apply (N k), H, Hq.
  - right. split; [exact Hn|]. exists k. split; [exact E|]. split; [apply H, Hk|].
    intros j Hj. apply L, H, Hj.
Qed.

Lemma last_index_iff : forall P Q r, (forall k, P k <-> Q k) -> last_index P r -> last_index Q r.
Proof.
  intros P Q r H [[E N]|[Hn (k & E & Hk & L)]].
  - left. split; [exact E|]. intros k Hq. apply (N k), H, Hq.
  - right. split; [exact Hn|]. exists k. split; [exact E|]. split; [apply H, Hk|].
    intros j Hj. apply L, H, Hj.
Qed.

(** ** Generic facts about lists *)
Lemma nth_error_firstn : forall A (l : list A) n k,
  nth_error (firstn n l) k = if (k <? n)%nat then nth_error l k else None.
Proof.
  intros A l. induction l as [|x l IH]; intros n k.
  - rewrite firstn_nil. destruct k; cbn [nth_error]; destruct (Nat.ltb _ n); reflexivity.
  - destruct n as [|n]; cbn [firstn].
    + destruct k; reflexivity.
    + destruct k as [|k]; cbn [nth_error]; [reflexivity|]. rewrite IH.
      destruct (Nat.ltb_spec k n), (Nat.ltb_spec (S k) (S n)); try lia; reflexivity.
Qed.

Lemma nth_error_skipn : forall A (l : list A) n k,
  nth_error (skipn n l) k = nth_error l (n + k).
Proof.
  intros A l n. revert l. induction n as [|n IH]; intros l k; [reflexivity|].
  destruct l as [|x l]; cbn [skipn]; [destruct k; reflexivity|]. rewrite IH. reflexivity.
Qed.

Lemma nth_error_ext' : forall A (l l' : list A), (forall k, nth_error l k = nth_error l' k) -> l = l'.
Proof.
  intros A l. induction l as [|x l IH]; intros [|y l'] H.
  - reflexivity.
  - specialize (H O). discriminate.
  - specialize (H O). discriminate.
  - assert (H0 := H O). cbn in H0. injection H0 as ->. f_equal. apply IH.
    intros k. exact (H (S k)).
Qed.

Lemma occurs_split : forall A (sub l : list A) k,
  occurs sub l k <-> (k + length sub <= length l)%nat /\ firstn (length sub) (skipn k l) = sub.
Proof.
  intros A sub l k. split.
  - intros (pre & post & E & L). subst. rewrite !app_length. split; [lia|].
    rewrite skipn_app, skipn_all, Nat.sub_diag. cbn [skipn app].
    rewrite firstn_app, firstn_all, Nat.sub_diag. cbn [firstn]. apply app_nil_r.
  - intros [H1 H2]. exists (firstn k l), (skipn (length sub) (skipn k l)). split.
    + rewrite <- H2 at 1. rewrite firstn_skipn. symmetry. apply firstn_skipn.
    + rewrite firstn_length. lia.
Qed.

(** ** Reading *)
Section S.
  Variable A : Type.
  Variable eqb : A -> A -> bool.
  Hypothesis eqb_spec : forall x y, eqb x y = true <-> x = y.

  Lemma eqb_false : forall x y, eqb x y = false <-> x <> y.
  Proof.
    intros x y. destruct (eqb x y) eqn:E; split; intro H; try discriminate; try reflexivity.
    - apply eqb_spec in E. contradiction.
    - intro C. apply eqb_spec in C. congruence.
  Qed.

  Lemma view_length : forall s : span A, wf s -> length (view s) = Z.to_nat (sp_len s).
  Proof. intros s (H1 & H2 & H3 & H4). unfold view. rewrite firstn_length, skipn_length. lia. Qed.

  Lemma rd_view : forall (s : span A) i, wf s -> 0 <= i < sp_len s ->
    rd s i = nth_error (view s) (Z.to_nat i).
  Proof.
    intros s i (H1 & H2 & H3 & H4) Hi. unfold rd, view.
    rewrite nth_error_firstn, nth_error_skipn.
    destruct (Nat.ltb_spec (Z.to_nat i) (Z.to_nat (sp_len s))); [|lia].
    destruct (_ && _) eqn:E; [|lia]. f_equal. lia.
  Qed.

  Lemma rd_some : forall (s : span A) i, wf s -> 0 <= i < sp_len s ->
    exists x, rd s i = Some x /\ nth_error (view s) (Z.to_nat i) = Some x.
  Proof.
    intros s i Hw Hi. rewrite (rd_view s i Hw Hi).
    destruct (nth_error (view s) (Z.to_nat i)) as [x|] eqn:E; [eauto|].
    apply nth_error_None in E. rewrite view_length in E by exact Hw. lia.
  Qed.

  Lemma view_nth_lt : forall (s : span A) k x, wf s -> nth_error (view s) k = Some x ->
    Z.of_nat k < sp_len s.
  Proof.
    intros s k x Hw E. assert (k < length (view s))%nat by (apply nth_error_Some; congruence).
    rewrite view_length in H by exact Hw. destruct Hw; lia.
  Qed.

  (** ** The scan loops *)
  Lemma find_up_spec : forall test n i,
    (forall j, i <= j < i + Z.of_nat n -> exists b, test j = Some b) ->
    exists r, find_up test i n = Some r /\
      ((r = U64MAX /\ forall j, i <= j < i + Z.of_nat n -> test j = Some false)
       \/ (i <= r < i + Z.of_nat n /\ test r = Some true
           /\ forall j, i <= j < r -> test j = Some false)).
  Proof.
    intros test n. induction n as [|n IH]; intros i H; cbn [find_up].
    - exists U64MAX. split; [reflexivity|]. left. split; [reflexivity|]. intros; lia.
    - destruct (H i) as [b E]; [lia|]. rewrite E. destruct b.
      + exists i. split; [reflexivity|]. right. split; [lia|]. split; [exact E|]. intros; lia.
      + destruct (IH (i + 1)) as (r & Er & Hr). { intros j Hj. apply H. lia. }
        exists r. split; [exact Er|]. destruct Hr as [[Hu Hf]|(Hr & Ht & Hf)].
        * left. split; [exact Hu|]. intros j Hj. destruct (Z.eq_dec j i) as [->|]; [exact E|].
          apply Hf. lia.
        * right. split; [lia|]. split; [exact Ht|]. intros j Hj.
          destruct (Z.eq_dec j i) as [->|]; [exact E|]. apply Hf. lia.
  Qed.

  Lemma find_down_spec : forall test n,
    (forall j, 0 <= j < Z.of_nat n -> exists b, test j = Some b) ->
    exists r, find_down test n = Some r /\
      ((r = U64MAX /\ forall j, 0 <= j < Z.of_nat n -> test j = Some false)
       \/ (0 <= r < Z.of_nat n /\ test r = Some true
           /\ forall j, r < j < Z.of_nat n -> test j = Some false)).
  Proof.
    intros test n. induction n as [|n IH]; intros H; cbn [find_down].
    - exists U64MAX. split; [reflexivity|]. left. split; [reflexivity|]. intros; lia.
    - destruct (H (Z.of_nat n)) as [b E]; [lia|]. rewrite E. destruct b.
      + exists (Z.of_nat n). split; [reflexivity|]. right. split; [lia|]. split; [exact E|].
        intros; lia.
      + destruct IH as (r & Er & Hr). { intros j Hj. apply H. lia. }
        exists r. split; [exact Er|]. destruct Hr as [[Hu Hf]|(Hr & Ht & Hf)].
        * left. split; [exact Hu|]. intros j Hj.
          destruct (Z.eq_dec j (Z.of_nat n)) as [->|]; [exact E|]. apply Hf. lia.
        * right. split; [lia|]. split; [exact Ht|]. intros j Hj.
          destruct (Z.eq_dec j (Z.of_nat n)) as [->|]; [exact E|]. apply Hf. lia.
  Qed.

  (** A test that decides [P] on [0, n), with [P] false elsewhere. *)
  Definition decides (test : Z -> option bool) (P : nat -> Prop) (n : nat) : Prop :=
    (forall k, (k < n)%nat -> exists b, test (Z.of_nat k) = Some b /\ (b = true <-> P k))
    /\ (forall k, P k -> (k < n)%nat).

  Lemma find_up_first : forall test P n, decides test P n -> Z.of_nat n < W63 ->
    exists r, find_up test 0 n = Some r /\ first_index P r.
  Proof.
    intros test P n [D O] Hn.
    destruct (find_up_spec test n 0) as (r & E & Hr).
    { intros j Hj. destruct (D (Z.to_nat j)) as (b & Hb & _); [lia|].
      rewrite Z2Nat.id in Hb by lia. eauto. }
    exists r. split; [exact E|]. destruct Hr as [[Hu Hf]|(Hr & Ht & Hf)].
    - left. split; [exact Hu|]. intros k Hk. assert (Hlt := O k Hk).
      destruct (D k Hlt) as (b & Hb & Hi). rewrite Hf in Hb by lia.
      injection Hb as <-. apply Hi in Hk. discriminate.
    - right. split; [unfold U64MAX, W64, W63 in *; lia|].
      exists (Z.to_nat r). split; [lia|].
      destruct (D (Z.to_nat r)) as (b & Hb & Hi); [lia|].
      rewrite Z2Nat.id in Hb by lia. rewrite Ht in Hb. injection Hb as <-.
      split; [apply Hi; reflexivity|]. intros j Hj. assert (Hlt := O j Hj).
      destruct (Nat.le_gt_cases (Z.to_nat r) j) as [L|L]; [exact L|].
      destruct (D j Hlt) as (b & Hb' & Hi'). rewrite Hf in Hb' by lia.
      injection Hb' as <-. apply Hi' in Hj. discriminate.
  Qed.

  Lemma find_down_last : forall test P n, decides test P n -> Z.of_nat n < W63 ->
    exists r, find_down test n = Some r /\ last_index P r.
  Proof.
    intros test P n [D O] Hn.
    destruct (find_down_spec test n) as (r & E & Hr).
    { intros j Hj. destruct (D (Z.to_nat j)) as (b & Hb & _); [lia|].
      rewrite Z2Nat.id in Hb by lia. eauto. }
    exists r. split; [exact E|]. destruct Hr as [[Hu Hf]|(Hr & Ht & Hf)].
    - left. split; [exact Hu|]. intros k Hk. assert (Hlt := O k Hk).
      destruct (D k Hlt) as (b & Hb & Hi). rewrite Hf in Hb by lia.
      injection Hb as <-. apply Hi in Hk. discriminate.
    - right. split; [unfold U64MAX, W64, W63 in *; lia|].
      exists (Z.to_nat r). split; [lia|].
      destruct (D (Z.to_nat r)) as (b & Hb & Hi); [lia|].
      rewrite Z2Nat.id in Hb by lia. rewrite Ht in Hb. injection Hb as <-.
      split; [apply Hi; reflexivity|]. intros j Hj. assert (Hlt := O j Hj).
      destruct (Nat.le_gt_cases j (Z.to_nat r)) as [L|L]; [exact L|].
      destruct (D j Hlt) as (b & Hb' & Hi'). rewrite Hf in Hb' by lia.
      injection Hb' as <-. apply Hi' in Hj. discriminate.
  Qed.

  Lemma wf_len : forall s : span A, wf s -> Z.of_nat (Z.to_nat (sp_len s)) < W63.
  Proof. intros s (H1 & H2 & H3 & H4). lia. Qed.

  Lemma first_found : forall P r, first_index P r ->
    (negb (r =? U64MAX) = true <-> exists k, P k).
  Proof.
    intros P r [[-> N]|[Hn (k & E & Hk & L)]].
    - rewrite Z.eqb_refl. cbn. split; [discriminate|]. intros [k Hk]. destruct (N k Hk).
    - destruct (Z.eqb_spec r U64MAX); [contradiction|]. cbn. split; eauto.
  Qed.

  (** ** Value search *)
  Definition at_value (s : span A) (v : A) (k : nat) : Prop := nth_error (view s) k = Some v.

  Lemma decides_value : forall s v, wf s ->
    decides (test_value eqb s v) (at_value s v) (Z.to_nat (sp_len s)).
  Proof.
    intros s v Hw. split.
    - intros k Hk. unfold test_value.
      destruct (rd_some s (Z.of_nat k) Hw) as (x & -> & Ex); [destruct Hw; lia|].
      rewrite Nat2Z.id in Ex. exists (eqb x v). split; [reflexivity|].
      unfold at_value. rewrite Ex. rewrite eqb_spec. split; congruence.
    - intros k Hk. apply view_nth_lt in Hk; [lia|exact Hw].
  Qed.

  Lemma IndexOf_ok : forall s v, wf s ->
    exists r, IndexOf eqb s v = Some r /\ first_index (at_value s v) r.
  Proof.
    intros s v Hw. apply find_up_first; [apply decides_value, Hw|apply wf_len, Hw].
  Qed.

  Lemma IndexOf_in : forall s v, wf s ->
    exists r, IndexOf eqb s v = Some r /\ (negb (r =? U64MAX) = true <-> In v (view s)).
  Proof.
    intros s v Hw. destruct (IndexOf_ok s v Hw) as (r & E & H). exists r. split; [exact E|].
    rewrite (first_found _ _ H). split.
    - intros [k Hk]. apply nth_error_In in Hk. exact Hk.
    - intros Hi. apply In_nth_error in Hi. exact Hi.
  Qed.

  Definition at_any (s anyof : span A) (k : nat) : Prop :=
    exists x, nth_error (view s) k = Some x /\ In x (view anyof).

  Lemma decides_any : forall s anyof, wf s -> wf anyof ->
    decides (test_any eqb s anyof) (at_any s anyof) (Z.to_nat (sp_len s)).
  Proof.
    intros s anyof Hw Ha. split.
    - intros k Hk. unfold test_any.
      destruct (rd_some s (Z.of_nat k) Hw) as (x & -> & Ex); [destruct Hw; lia|].
      rewrite Nat2Z.id in Ex.
      destruct (IndexOf_in anyof x Ha) as (r & -> & Hr).
      eexists. split; [reflexivity|]. rewrite Hr. unfold at_any. split.
      + intros Hi. exists x. split; assumption.
      + intros (y & Ey & Hy). rewrite Ex in Ey. injection Ey as <-. exact Hy.
    - intros k (x & Hk & _). apply view_nth_lt in Hk; [lia|exact Hw].
  Qed.

  (** ** Equality *)
  Lemma span_eq_ok : forall a b, wf a -> wf b ->
    exists r, span_eq eqb a b = Some r /\ (r = true <-> view a = view b).
  Proof.
    intros a b Ha Hb. unfold span_eq.
    destruct (Z.eqb_spec (sp_len a) (sp_len b)) as [E|NE]; cbn [negb].
    - destruct (find_up_first (test_differs eqb a b)
        (fun k => exists x y, nth_error (view a) k = Some x /\ nth_error (view b) k = Some y /\ x <> y)
        (Z.to_nat (sp_len a))) as (r & Er & Hr).
      + split.
        * intros k Hk. unfold test_differs.
          destruct (rd_some a (Z.of_nat k) Ha) as (x & -> & Ex); [destruct Ha; lia|].
          destruct (rd_some b (Z.of_nat k) Hb) as (y & -> & Ey); [destruct Hb; lia|].
          rewrite Nat2Z.id in Ex, Ey. eexists. split; [reflexivity|].
          rewrite Bool.negb_true_iff, eqb_false. split.
          { intros Hn. exists x, y. repeat split; assumption. }
          { intros (x' & y' & Ex' & Ey' & Hn). congruence. }
        * intros k (x & y & Ex & _). apply view_nth_lt in Ex; [lia|exact Ha].
      + apply wf_len, Ha.
      + rewrite Er. exists (r =? U64MAX). split; [reflexivity|].
        assert (F := first_found _ _ Hr). rewrite Bool.negb_true_iff in F.
        split.
        * intros Hu. apply nth_error_ext'. intros k.
          destruct (Nat.lt_ge_cases k (Z.to_nat (sp_len a))) as [L|G].
          { destruct (rd_some a (Z.of_nat k) Ha) as (x & _ & Ex); [destruct Ha; lia|].
            destruct (rd_some b (Z.of_nat k) Hb) as (y & _ & Ey); [destruct Hb; lia|].
            rewrite Nat2Z.id in Ex, Ey. rewrite Ex, Ey.
            destruct (eqb x y) eqn:Q; [apply eqb_spec in Q; congruence|].
            apply eqb_false in Q. exfalso.
            assert ((r =? U64MAX) = false) by (apply F; exists k, x, y; auto). congruence. }
          { rewrite (proj2 (nth_error_None _ _)) by (rewrite view_length by exact Ha; lia).
            rewrite (proj2 (nth_error_None _ _)) by (rewrite view_length by exact Hb; lia).
            reflexivity. }
        * intros Hv. destruct (r =? U64MAX); [reflexivity|]. exfalso.
          destruct (proj1 F eq_refl) as (k & x & y & Ex & Ey & Hn). rewrite Hv in Ex. congruence.
    - exists false. split; [reflexivity|]. split; [discriminate|]. intros Hv.
      exfalso. apply NE. apply (f_equal (@length A)) in Hv.
      rewrite !view_length in Hv by assumption. destruct Ha, Hb; lia.
  Qed.

  Lemma view_ne_ok : forall a b, wf a -> wf b ->
    exists r, span_eq eqb a b = Some r /\ view_ne eqb a b = Some (negb r).
  Proof.
    intros a b Ha Hb. destruct (span_eq_ok a b Ha Hb) as (r & E & _).
    exists r. split; [exact E|]. revert E. unfold span_eq, view_ne.
    destruct (negb (sp_len a =? sp_len b)).
    - intros E. injection E as <-. reflexivity.
    - destruct (find_up _ _ _); [|discriminate]. intros E. injection E as <-. reflexivity.
  Qed.

  (** ** Sub-ranges *)
  Lemma sub_wf : forall (s : span A) i n, wf s -> 0 <= i -> 0 <= n -> i + n <= sp_len s ->
    wf (mkspan (sp_mem s) (sp_off s + i) n)
    /\ view (mkspan (sp_mem s) (sp_off s + i) n)
       = firstn (Z.to_nat n) (skipn (Z.to_nat i) (view s)).
  Proof.
    intros s i n (H1 & H2 & H3 & H4) Hi Hn Hin. split.
    - unfold wf; cbn. lia.
    - unfold view; cbn [sp_mem sp_off sp_len]. apply nth_error_ext'. intros k.
      rewrite !nth_error_firstn, !nth_error_skipn, nth_error_firstn, nth_error_skipn.
      destruct (Nat.ltb_spec k (Z.to_nat n)); [|reflexivity].
      destruct (Nat.ltb_spec (Z.to_nat i + k) (Z.to_nat (sp_len s))); [|lia].
      f_equal. lia.
  Qed.

  Lemma Subspan_ok : forall (s : span A) i n, wf s -> 0 <= i -> 0 <= n ->
    wf (Subspan s i n) /\ sp_mem (Subspan s i n) = sp_mem s
    /\ view (Subspan s i n) = firstn (Z.to_nat n) (skipn (Z.to_nat i) (view s)).
  Proof.
    intros s i n Hw Hi Hn. unfold Subspan. assert (Hw' := Hw). destruct Hw' as (H1 & H2 & H3 & H4).
    destruct (Z.ltb_spec i (sp_len s)).
    - destruct (sub_wf s i (Z.min (sp_len s - i) n) Hw) as [W V]; try lia.
      split; [exact W|]. split; [reflexivity|]. rewrite V.
      destruct (Z.min_spec (sp_len s - i) n) as [[Hm ->]|[Hm ->]]; [|reflexivity].
      rewrite !firstn_all2; [reflexivity| |]; rewrite skipn_length, view_length by exact Hw; lia.
    - split; [unfold wf; cbn; lia|]. split; [reflexivity|].
      unfold view at 1; cbn. rewrite skipn_all2, firstn_nil; [reflexivity|].
      rewrite view_length by exact Hw. lia.
  Qed.

  Lemma Subspan1_ok : forall (s : span A) i, wf s -> 0 <= i ->
    wf (Subspan1 s i) /\ sp_mem (Subspan1 s i) = sp_mem s
    /\ view (Subspan1 s i) = skipn (Z.to_nat i) (view s).
  Proof.
    intros s i Hw Hi. unfold Subspan1. assert (Hw' := Hw). destruct Hw' as (H1 & H2 & H3 & H4).
    destruct (Z.ltb_spec i (sp_len s)).
    - destruct (sub_wf s i (sp_len s - i) Hw) as [W V]; try lia.
      split; [exact W|]. split; [reflexivity|]. rewrite V.
      rewrite firstn_all2; [reflexivity|]. rewrite skipn_length, view_length by exact Hw. lia.
    - split; [unfold wf; cbn; lia|]. split; [reflexivity|].
      unfold view at 1; cbn. rewrite skipn_all2; [reflexivity|].
      rewrite view_length by exact Hw. lia.
  Qed.

  (** ** Sub-span search *)
  Lemma decides_span : forall s needle, wf s -> wf needle -> 0 < sp_len needle ->
    sp_len needle <= sp_len s ->
    decides (test_span eqb s needle) (occurs (view needle) (view s))
      (Z.to_nat (sp_len s - sp_len needle + 1)).
  Proof.
    intros s needle Hw Hn Hpos Hle. split.
    - intros k Hk. unfold test_span.
      destruct (sub_wf s (Z.of_nat k) (sp_len needle) Hw) as [W V]; try lia.
      destruct (span_eq_ok _ needle W Hn) as (r & E & Hr). exists r. split; [exact E|].
      rewrite Hr, V, Nat2Z.id, occurs_split, view_length, view_length by assumption.
      split; intros H; [split; [lia|exact H]|apply H].
    - intros k H. apply occurs_split in H. destruct H as [H _].
      rewrite !view_length in H by assumption. lia.
  Qed.

  Lemma occurs_short : forall (sub l : list A) k, (length l < length sub)%nat -> ~ occurs sub l k.
  Proof. intros sub l k H O. apply occurs_split in O. lia. Qed.

  Lemma IndexOfSpan_ok : forall s needle, wf s -> wf needle -> sp_len needle <> 0 ->
    exists r, IndexOfSpan eqb s needle = Some r /\ first_index (occurs (view needle) (view s)) r.
  Proof.
    intros s needle Hw Hn Hne. unfold IndexOfSpan.
    destruct (Z.eqb_spec (sp_len needle) 0); [contradiction|].
    destruct (Z.ltb_spec (sp_len s) (sp_len needle)).
    - exists U64MAX. split; [reflexivity|]. left. split; [reflexivity|].
      intros k. apply occurs_short. rewrite !view_length by assumption. destruct Hw, Hn; lia.
    - apply find_up_first; [apply decides_span; try assumption; destruct Hn; lia|].
      destruct Hw, Hn; lia.
  Qed.

  Lemma LastIndexOfSpan_ok : forall s needle, wf s -> wf needle -> sp_len needle <> 0 ->
    exists r, LastIndexOfSpan eqb s needle = Some r /\ last_index (occurs (view needle) (view s)) r.
  Proof.
    intros s needle Hw Hn Hne. unfold LastIndexOfSpan.
    destruct (Z.eqb_spec (sp_len needle) 0); [contradiction|].
    destruct (Z.ltb_spec (sp_len s) (sp_len needle)).
    - exists U64MAX. split; [reflexivity|]. left. split; [reflexivity|].
      intros k. apply occurs_short. rewrite !view_length by assumption. destruct Hw, Hn; lia.
    - apply find_down_last; [apply decides_span; try assumption; destruct Hn; lia|].
      destruct Hw, Hn; lia.
  Qed.

  Lemma no_elements : forall s : span A, wf s -> sp_len s = 0 -> view s = [].
  Proof. intros s Hw E. apply length_zero_iff_nil. rewrite view_length by exact Hw. lia. Qed.

  Lemma IndexOfAny_ok : forall s anyof, wf s -> wf anyof ->
    exists r, IndexOfAny eqb s anyof = Some r /\ first_index (at_any s anyof) r.
  Proof.
    intros s anyof Hw Ha. unfold IndexOfAny. destruct (Z.eqb_spec (sp_len anyof) 0) as [E|NE].
    - exists U64MAX. split; [reflexivity|]. left. split; [reflexivity|].
      intros k (x & _ & Hi). rewrite (no_elements _ Ha E) in Hi. destruct Hi.
    - apply find_up_first; [apply decides_any; assumption|apply wf_len, Hw].
  Qed.

  Lemma LastIndexOf_ok : forall s v, wf s ->
    exists r, LastIndexOf eqb s v = Some r /\ last_index (at_value s v) r.
  Proof.
    intros s v Hw. apply find_down_last; [apply decides_value, Hw|apply wf_len, Hw].
  Qed.

  Lemma LastIndexOfAny_ok : forall s anyof, wf s -> wf anyof ->
    exists r, LastIndexOfAny eqb s anyof = Some r /\ last_index (at_any s anyof) r.
  Proof.
    intros s anyof Hw Ha. unfold LastIndexOfAny. destruct (Z.eqb_spec (sp_len anyof) 0) as [E|NE].
    - exists U64MAX. split; [reflexivity|]. left. split; [reflexivity|].
      intros k (x & _ & Hi). rewrite (no_elements _ Ha E) in Hi. destruct Hi.
    - apply find_down_last; [apply decides_any; assumption|apply wf_len, Hw].
  Qed.

  (** ** Ranged searches *)
  Definition shift (i : Z) (P : nat -> Prop) (k : nat) : Prop :=
    i <= Z.of_nat k /\ P (k - Z.to_nat i)%nat.

  Lemma rebase_first : forall i (P : nat -> Prop) r, 0 <= i ->
    (forall k, P k -> i + Z.of_nat k < W63) -> first_index P r ->
    exists r', rebase i (Some r) = Some r' /\ first_index (shift i P) r'.
  Proof.
    intros i P r Hi HP [[-> N]|[Hn (k & E & Hk & L)]]; unfold rebase.
    - rewrite Z.eqb_refl. exists U64MAX. split; [reflexivity|]. left. split; [reflexivity|].
      intros k [_ Hk]. apply (N _ Hk).
    - destruct (Z.eqb_spec r U64MAX); [contradiction|]. assert (B := HP k Hk).
      exists (i + r). rewrite u64_id by (unfold is_u64, W64, W63 in *; lia).
      split; [reflexivity|]. right. split; [unfold U64MAX, W64, W63 in *; lia|].
      exists (Z.to_nat (i + r)). split; [lia|]. split.
      + split; [lia|]. replace (Z.to_nat (i + r) - Z.to_nat i)%nat with k by lia. exact Hk.
      + intros j [Hj1 Hj2]. apply L in Hj2. lia.
  Qed.

  Lemma rebase_last : forall i (P : nat -> Prop) r, 0 <= i ->
    (forall k, P k -> i + Z.of_nat k < W63) -> last_index P r ->
    exists r', rebase i (Some r) = Some r' /\ last_index (shift i P) r'.
  Proof.
    intros i P r Hi HP [[-> N]|[Hn (k & E & Hk & L)]]; unfold rebase.
    - rewrite Z.eqb_refl. exists U64MAX. split; [reflexivity|]. left. split; [reflexivity|].
      intros k [_ Hk]. apply (N _ Hk).
    - destruct (Z.eqb_spec r U64MAX); [contradiction|]. assert (B := HP k Hk).
      exists (i + r). rewrite u64_id by (unfold is_u64, W64, W63 in *; lia).
      split; [reflexivity|]. right. split; [unfold U64MAX, W64, W63 in *; lia|].
      exists (Z.to_nat (i + r)). split; [lia|]. split.
      + split; [lia|]. replace (Z.to_nat (i + r) - Z.to_nat i)%nat with k by lia. exact Hk.
      + intros j [Hj1 Hj2]. apply L in Hj2. lia.
  Qed.

  (** Position [k] lies in the range of [n] elements from [i], with room for [m] elements. *)
  Definition in_range (i n : Z) (k m : nat) : Prop :=
    i <= Z.of_nat k /\ Z.of_nat k + Z.of_nat m <= i + n.

  Lemma sub_at_value : forall s v i n, wf s -> 0 <= i -> 0 <= n -> forall k,
    shift i (at_value (Subspan s i n) v) k <-> at_value s v k /\ in_range i n k 1.
  Proof.
    intros s v i n Hw Hi Hn k. destruct (Subspan_ok s i n Hw Hi Hn) as (_ & _ & V).
    unfold shift, at_value, in_range. rewrite V, nth_error_firstn, nth_error_skipn.
    split.
    - intros [H1 H2]. destruct (Nat.ltb_spec (k - Z.to_nat i) (Z.to_nat n)); [|discriminate].
      replace (Z.to_nat i + (k - Z.to_nat i))%nat with k in H2 by lia.
      split; [exact H2|lia].
    - intros [H1 H2]. split; [lia|].
      destruct (Nat.ltb_spec (k - Z.to_nat i) (Z.to_nat n)); [|lia].
      replace (Z.to_nat i + (k - Z.to_nat i))%nat with k by lia. exact H1.
  Qed.

  Lemma sub_at_any : forall s anyof i n, wf s -> 0 <= i -> 0 <= n -> forall k,
    shift i (at_any (Subspan s i n) anyof) k <-> at_any s anyof k /\ in_range i n k 1.
  Proof.
    intros s anyof i n Hw Hi Hn k. split.
    - intros [H1 (x & Hx & Hin)].
      destruct (proj1 (sub_at_value s x i n Hw Hi Hn k)) as [Hv Hr]; [split; assumption|].
      split; [exists x; split; assumption|exact Hr].
    - intros [(x & Hx & Hin) Hr].
      destruct (proj2 (sub_at_value s x i n Hw Hi Hn k)) as [H1 H2]; [split; assumption|].
      split; [exact H1|]. exists x. split; assumption.
  Qed.

  Lemma sub_occurs : forall (s : span A) (needle : list A) i n, wf s -> 0 <= i -> 0 <= n -> forall k,
    needle <> [] ->
    (shift i (occurs needle (view (Subspan s i n))) k
     <-> occurs needle (view s) k /\ in_range i n k (length needle)).
  Proof.
    intros s needle i n Hw Hi Hn k Hne. destruct (Subspan_ok s i n Hw Hi Hn) as (_ & _ & V).
    assert (0 < length needle)%nat by (destruct needle; [contradiction|cbn; lia]).
    unfold shift, in_range. rewrite V, !occurs_split, firstn_length, skipn_length.
    assert (G : forall d, (d + length needle <= Z.to_nat n)%nat ->
      firstn (length needle) (skipn d (firstn (Z.to_nat n) (skipn (Z.to_nat i) (view s))))
      = firstn (length needle) (skipn (Z.to_nat i + d) (view s))).
    { intros d Hd. apply nth_error_ext'. intros q.
      rewrite !nth_error_firstn, !nth_error_skipn, nth_error_firstn, nth_error_skipn.
      destruct (Nat.ltb_spec q (length needle)); [|reflexivity].
      destruct (Nat.ltb_spec (d + q) (Z.to_nat n)); [|lia]. f_equal. lia. }
    split.
    - intros (H1 & H2 & H3). rewrite G in H3 by lia.
      replace (Z.to_nat i + (k - Z.to_nat i))%nat with k in H3 by lia.
      split; [split; [lia|exact H3]|lia].
    - intros ((H1 & H2) & H3 & H4). split; [lia|]. split; [lia|]. rewrite G by lia.
      replace (Z.to_nat i + (k - Z.to_nat i))%nat with k by lia. exact H2.
  Qed.

  Lemma sub_bound : forall (s : span A) i n k, wf s -> 0 <= i -> 0 <= n ->
    (k < length (view (Subspan s i n)))%nat -> i + Z.of_nat k < W63.
  Proof.
    intros s i n k Hw Hi Hn. destruct (Subspan_ok s i n Hw Hi Hn) as (_ & _ & V).
    rewrite V, firstn_length, skipn_length, view_length by exact Hw.
    destruct Hw as (H1 & H2 & H3 & H4). lia.
  Qed.

  Lemma occurs_lt : forall (sub l : list A) k, sub <> [] -> occurs sub l k -> (k < length l)%nat.
  Proof.
    intros sub l k Hne H. apply occurs_split in H. destruct sub; [contradiction|]. cbn in H. lia.
  Qed.

  Lemma view_nil_iff : forall s : span A, wf s -> (sp_len s = 0 <-> view s = []).
  Proof.
    intros s Hw. rewrite <- length_zero_iff_nil, view_length by exact Hw. destruct Hw; lia.
  Qed.

  Lemma nothing_first : forall P, (forall k, ~ P k) -> first_index P U64MAX.
  Proof. intros P H. left. split; [reflexivity|exact H]. Qed.
  Lemma nothing_last : forall P, (forall k, ~ P k) -> last_index P U64MAX.
  Proof. intros P H. left. split; [reflexivity|exact H]. Qed.

  Lemma IndexOfR_ok : forall s v i n, wf s -> 0 <= i -> 0 <= n ->
    exists r, IndexOfR eqb s v i n = Some r
      /\ first_index (fun k => at_value s v k /\ in_range i n k 1) r.
  Proof.
    intros s v i n Hw Hi Hn. unfold IndexOfR. destruct (Z.eqb_spec (sp_len s) 0) as [E|NE].
    - exists U64MAX. split; [reflexivity|]. apply nothing_first. intros k [H _].
      unfold at_value in H. rewrite (no_elements s Hw E) in H. destruct k; discriminate.
    - destruct (Subspan_ok s i n Hw Hi Hn) as (W & _ & _).
      destruct (IndexOf_ok (Subspan s i n) v W) as (r & -> & F).
      assert (HB : forall k, at_value (Subspan s i n) v k -> i + Z.of_nat k < W63).
    { intros k Hk. apply (sub_bound s i n k Hw Hi Hn). apply nth_error_Some. unfold at_value in Hk.
        congruence. }
    destruct (rebase_first i _ r Hi HB F) as (r' & -> & F').
      exists r'. split; [reflexivity|]. eapply first_index_iff; [|exact F'].
      apply sub_at_value; assumption.
  Qed.

  Lemma LastIndexOfR_ok : forall s v i n, wf s -> 0 <= i -> 0 <= n ->
    exists r, LastIndexOfR eqb s v i n = Some r
      /\ last_index (fun k => at_value s v k /\ in_range i n k 1) r.
  Proof.
    intros s v i n Hw Hi Hn. unfold LastIndexOfR. destruct (Z.eqb_spec (sp_len s) 0) as [E|NE].
    - exists U64MAX. split; [reflexivity|]. apply nothing_last. intros k [H _].
      unfold at_value in H. rewrite (no_elements s Hw E) in H. destruct k; discriminate.
    - destruct (Subspan_ok s i n Hw Hi Hn) as (W & _ & _).
      destruct (LastIndexOf_ok (Subspan s i n) v W) as (r & -> & F).
      assert (HB : forall k, at_value (Subspan s i n) v k -> i + Z.of_nat k < W63).
    { intros k Hk. apply (sub_bound s i n k Hw Hi Hn). apply nth_error_Some. unfold at_value in Hk.
        congruence. }
    destruct (rebase_last i _ r Hi HB F) as (r' & -> & F').
      exists r'. split; [reflexivity|]. eapply last_index_iff; [|exact F'].
      apply sub_at_value; assumption.
  Qed.

  Lemma IndexOfAnyR_ok : forall s anyof i n, wf s -> wf anyof -> 0 <= i -> 0 <= n ->
    exists r, IndexOfAnyR eqb s anyof i n = Some r
      /\ first_index (fun k => at_any s anyof k /\ in_range i n k 1) r.
  Proof.
    intros s anyof i n Hw Ha Hi Hn. unfold IndexOfAnyR.
    destruct (Z.eqb_spec (sp_len s) 0) as [E|NE].
    { exists U64MAX. split; [reflexivity|]. apply nothing_first. intros k [(x & H & _) _].
      rewrite (no_elements s Hw E) in H. destruct k; discriminate. }
    destruct (Z.eqb_spec (sp_len anyof) 0) as [E|NE'].
    { exists U64MAX. split; [reflexivity|]. apply nothing_first. intros k [(x & _ & H) _].
      rewrite (no_elements _ Ha E) in H. destruct H. }
    destruct (Subspan_ok s i n Hw Hi Hn) as (W & _ & _).
    destruct (IndexOfAny_ok (Subspan s i n) anyof W Ha) as (r & -> & F).
    assert (HB : forall k, at_any (Subspan s i n) anyof k -> i + Z.of_nat k < W63).
    { intros k (x & Hk & _). apply (sub_bound s i n k Hw Hi Hn). apply nth_error_Some. congruence. }
    destruct (rebase_first i _ r Hi HB F) as (r' & -> & F').
    exists r'. split; [reflexivity|]. eapply first_index_iff; [|exact F'].
    apply sub_at_any; assumption.
  Qed.

  Lemma LastIndexOfAnyR_ok : forall s anyof i n, wf s -> wf anyof -> 0 <= i -> 0 <= n ->
    exists r, LastIndexOfAnyR eqb s anyof i n = Some r
      /\ last_index (fun k => at_any s anyof k /\ in_range i n k 1) r.
  Proof.
    intros s anyof i n Hw Ha Hi Hn. unfold LastIndexOfAnyR.
    destruct (Z.eqb_spec (sp_len anyof) 0) as [E|NE'].
    { exists U64MAX. split; [reflexivity|]. apply nothing_last. intros k [(x & _ & H) _].
      rewrite (no_elements _ Ha E) in H. destruct H. }
    destruct (Subspan_ok s i n Hw Hi Hn) as (W & _ & _).
    destruct (LastIndexOfAny_ok (Subspan s i n) anyof W Ha) as (r & -> & F).
    assert (HB : forall k, at_any (Subspan s i n) anyof k -> i + Z.of_nat k < W63).
    { intros k (x & Hk & _). apply (sub_bound s i n k Hw Hi Hn). apply nth_error_Some. congruence. }
    destruct (rebase_last i _ r Hi HB F) as (r' & -> & F').
    exists r'. split; [reflexivity|]. eapply last_index_iff; [|exact F'].
    apply sub_at_any; assumption.
  Qed.

  Lemma IndexOfSpanR_ok : forall s needle i n, wf s -> wf needle -> sp_len needle <> 0 ->
    0 <= i -> 0 <= n ->
    exists r, IndexOfSpanR eqb s needle i n = Some r
      /\ first_index (fun k => occurs (view needle) (view s) k
                               /\ in_range i n k (length (view needle))) r.
  Proof.
    intros s needle i n Hw Ha Hne Hi Hn. unfold IndexOfSpanR.
    destruct (Z.eqb_spec (sp_len needle) 0); [contradiction|].
    assert (Hv : view needle <> []) by (intro C; apply (view_nil_iff _ Ha) in C; contradiction).
    destruct (Z.eqb_spec (sp_len s) 0) as [E|NE].
    { exists U64MAX. split; [reflexivity|]. apply nothing_first. intros k [H _].
      apply occurs_lt in H; [|exact Hv]. rewrite (no_elements s Hw E) in H. cbn in H. lia. }
    destruct (Subspan_ok s i n Hw Hi Hn) as (W & _ & _).
    destruct (IndexOfSpan_ok (Subspan s i n) needle W Ha Hne) as (r & -> & F).
    assert (HB : forall k, occurs (view needle) (view (Subspan s i n)) k -> i + Z.of_nat k < W63).
    { intros k Hk. apply (sub_bound s i n k Hw Hi Hn). apply occurs_lt in Hk; assumption. }
    destruct (rebase_first i _ r Hi HB F) as (r' & -> & F').
    exists r'. split; [reflexivity|]. eapply first_index_iff; [|exact F'].
    intros k. apply sub_occurs; assumption.
  Qed.

  Lemma LastIndexOfSpanR_ok : forall s needle i n, wf s -> wf needle -> sp_len needle <> 0 ->
    0 <= i -> 0 <= n ->
    exists r, LastIndexOfSpanR eqb s needle i n = Some r
      /\ last_index (fun k => occurs (view needle) (view s) k
                               /\ in_range i n k (length (view needle))) r.
  Proof.
    intros s needle i n Hw Ha Hne Hi Hn. unfold LastIndexOfSpanR.
    destruct (Z.eqb_spec (sp_len needle) 0); [contradiction|].
    assert (Hv : view needle <> []) by (intro C; apply (view_nil_iff _ Ha) in C; contradiction).
    destruct (Z.eqb_spec (sp_len s) 0) as [E|NE].
    { exists U64MAX. split; [reflexivity|]. apply nothing_last. intros k [H _].
      apply occurs_lt in H; [|exact Hv]. rewrite (no_elements s Hw E) in H. cbn in H. lia. }
    destruct (Subspan_ok s i n Hw Hi Hn) as (W & _ & _).
    destruct (LastIndexOfSpan_ok (Subspan s i n) needle W Ha Hne) as (r & -> & F).
    assert (HB : forall k, occurs (view needle) (view (Subspan s i n)) k -> i + Z.of_nat k < W63).
    { intros k Hk. apply (sub_bound s i n k Hw Hi Hn). apply occurs_lt in Hk; assumption. }
    destruct (rebase_last i _ r Hi HB F) as (r' & -> & F').
    exists r'. split; [reflexivity|]. eapply last_index_iff; [|exact F'].
    intros k. apply sub_occurs; assumption.
  Qed.

  (** ** Slice *)
  Lemma Slice_ok : forall (s : span A) rs re, wf s -> 0 <= rs -> 0 <= re -> rs + re < W64 ->
    wf (Slice s rs re) /\ sp_mem (Slice s rs re) = sp_mem s
    /\ view (Slice s rs re)
       = firstn (length (view s) - Z.to_nat rs - Z.to_nat re) (skipn (Z.to_nat rs) (view s)).
  Proof.
    intros s rs re Hw Hrs Hre Hsum. unfold Slice.
    assert (Hw' := Hw). destruct Hw' as (H1 & H2 & H3 & H4).
    rewrite (u64_id (rs + re)) by (unfold is_u64; lia).
    destruct (Z.leb_spec (sp_len s) (rs + re)).
    - split; [unfold wf; cbn; lia|]. split; [reflexivity|].
      unfold view at 1. cbn [sp_len Z.to_nat]. rewrite view_length by exact Hw.
      replace (Z.to_nat (sp_len s) - Z.to_nat rs - Z.to_nat re)%nat with O by lia. reflexivity.
    - rewrite s64_id by (unfold is_s64, W63 in *; lia).
      rewrite (u64_id (sp_len s - rs)) by (unfold is_u64, W64, W63 in *; lia).
      rewrite (u64_id (sp_len s - rs - re)) by (unfold is_u64, W64, W63 in *; lia).
      destruct (sub_wf s rs (sp_len s - rs - re) Hw) as [W V]; try lia.
      split; [exact W|]. split; [reflexivity|]. rewrite V, view_length by exact Hw.
      f_equal. lia.
  Qed.

  (** ** Trim *)
  Lemma nth_last : forall (l : list A) k, (k + 1 = length l)%nat -> forall x,
    nth_error l k = Some x -> l = firstn k l ++ [x].
  Proof.
    intros l k Hk x E. rewrite <- (firstn_skipn k l) at 1. f_equal.
    assert (L : length (skipn k l) = 1%nat) by (rewrite skipn_length; lia).
    destruct (skipn k l) as [|y [|z t]] eqn:Q; cbn in L; try lia.
    assert (N : nth_error (skipn k l) 0 = Some x) by (rewrite nth_error_skipn, Nat.add_0_r; exact E).
    rewrite Q in N. cbn in N. congruence.
  Qed.

  Lemma trim_start_loop_ok : forall trim n (s : span A), wf s -> wf trim -> n = Z.to_nat (sp_len s) ->
    exists s', trim_start_loop eqb s trim n = Some s' /\ wf s' /\ sp_mem s' = sp_mem s
      /\ exists pre, view s = pre ++ view s' /\ Forall (fun x => In x (view trim)) pre
         /\ (forall x rest, view s' = x :: rest -> ~ In x (view trim)).
  Proof.
    intros trim n. induction n as [|n IH]; intros s Hw Ht En; cbn [trim_start_loop].
    - exists s. split; [reflexivity|]. split; [exact Hw|]. split; [reflexivity|]. exists [].
      split; [reflexivity|]. split; [constructor|]. intros x rest E.
      apply (f_equal (@length A)) in E. rewrite view_length in E by exact Hw. cbn in E. lia.
    - destruct (rd_some s 0 Hw) as (x & -> & Ex); [lia|]. cbn [Z.to_nat] in Ex.
      destruct (IndexOf_in trim x Ht) as (r & -> & Hr).
      destruct (view s) as [|y rest] eqn:V; [discriminate|]. cbn in Ex. injection Ex as ->.
      destruct (negb (r =? U64MAX)) eqn:B.
      + destruct (sub_wf s 1 (sp_len s - 1) Hw) as [W V']; try lia.
        destruct (IH (mkspan (sp_mem s) (sp_off s + 1) (sp_len s - 1)) W Ht) as
          (s' & E & W' & M & pre & P1 & P2 & P3); [cbn; lia|].
        exists s'. split; [exact E|]. split; [exact W'|]. split; [exact M|].
        exists (x :: pre). rewrite V', V in P1.
        change (Z.to_nat 1) with 1%nat in P1. cbn [skipn] in P1.
        rewrite firstn_all2 in P1.
        2:{ apply (f_equal (@length A)) in V. rewrite view_length in V by exact Hw. cbn in V. lia. }
        split; [rewrite P1; reflexivity|]. split; [|exact P3]. constructor; [|exact P2].
        apply Hr. reflexivity.
      + exists s. split; [reflexivity|]. split; [exact Hw|]. split; [reflexivity|]. exists [].
        split; [symmetry; exact V|]. split; [constructor|]. intros z t E. rewrite V in E.
        injection E as -> ->. intro C. apply Hr in C. discriminate.
  Qed.

  Lemma trim_end_loop_ok : forall trim n (s : span A), wf s -> wf trim -> n = Z.to_nat (sp_len s) ->
    exists s', trim_end_loop eqb s trim n = Some s' /\ wf s' /\ sp_mem s' = sp_mem s
      /\ exists post, view s = view s' ++ post /\ Forall (fun x => In x (view trim)) post
         /\ (forall x front, view s' = front ++ [x] -> ~ In x (view trim)).
  Proof.
    intros trim n. induction n as [|n IH]; intros s Hw Ht En; cbn [trim_end_loop].
    - exists s. split; [reflexivity|]. split; [exact Hw|]. split; [reflexivity|]. exists [].
      split; [symmetry; apply app_nil_r|]. split; [constructor|]. intros x front E.
      apply (f_equal (@length A)) in E. rewrite view_length in E by exact Hw.
      rewrite app_length in E. cbn in E. lia.
    - destruct (rd_some s (sp_len s - 1) Hw) as (x & -> & Ex); [lia|].
      destruct (IndexOf_in trim x Ht) as (r & -> & Hr).
      apply nth_last in Ex; [|rewrite view_length by exact Hw; lia].
      destruct (negb (r =? U64MAX)) eqn:B.
      + destruct (sub_wf s 0 (sp_len s - 1) Hw) as [W V']; try lia.
        rewrite Z.add_0_r in W, V'.
        destruct (IH (mkspan (sp_mem s) (sp_off s) (sp_len s - 1)) W Ht) as
          (s' & E & W' & M & post & P1 & P2 & P3); [cbn; lia|].
        exists s'. split; [exact E|]. split; [exact W'|]. split; [exact M|].
        exists (post ++ [x]). rewrite V' in P1. cbn [Z.to_nat skipn] in P1.
        split; [rewrite Ex, P1, app_assoc; reflexivity|]. split; [|exact P3].
        apply Forall_app. split; [exact P2|]. constructor; [|constructor]. apply Hr. reflexivity.
      + exists s. split; [reflexivity|]. split; [exact Hw|]. split; [reflexivity|]. exists [].
        split; [symmetry; apply app_nil_r|]. split; [constructor|]. intros z t E. rewrite E in Ex.
        assert (Q : t = firstn (Z.to_nat (sp_len s - 1)) (t ++ [z]) /\ z = x).
        { apply app_inj_tail in Ex. exact Ex. }
        destruct Q as [_ ->]. intro C. apply Hr in C. discriminate.
  Qed.

  (** ** Splitting *)
  Lemma firstn_app_len : forall (a b : list A), firstn (length a) (a ++ b) = a.
  Proof. intros a b. rewrite firstn_app, firstn_all, Nat.sub_diag. cbn. apply app_nil_r. Qed.
  Lemma skipn_app_len : forall (a b : list A), skipn (length a) (a ++ b) = b.
  Proof. intros a b. rewrite skipn_app, skipn_all, Nat.sub_diag. reflexivity. Qed.

  Lemma occurs_one : forall (l : list A) v k, occurs [v] l k <-> nth_error l k = Some v.
  Proof.
    intros l v k. split.
    - intros (pre & post & -> & <-). rewrite nth_error_app2 by lia. rewrite Nat.sub_diag. reflexivity.
    - intros E. destruct (nth_error_split l k E) as (l1 & l2 & -> & H). exists l1, l2. auto.
  Qed.

  Lemma occurs_skip : forall (sub l : list A) i k, sub <> [] ->
    (occurs sub (skipn i l) k <-> occurs sub l (i + k)).
  Proof.
    intros sub l i k Hne. rewrite !occurs_split, skipn_length.
    assert (0 < length sub)%nat by (destruct sub; [contradiction|cbn; lia]).
    assert (E : skipn k (skipn i l) = skipn (i + k) l).
    { apply nth_error_ext'. intros q. rewrite !nth_error_skipn. f_equal. lia. }
    rewrite E. split; intros [H1 H2]; (split; [lia|exact H2]).
  Qed.

  (** One step of the walk, for a separator given by its text [sep]. *)
  Definition step_ok (s : span A) (sep : list A) (step : Z -> option (span A * Z)) : Prop :=
    forall i, 0 <= i < sp_len s -> exists p nx, step i = Some (p, nx) /\ wf p /\ sp_mem p = sp_mem s /\
      let l := skipn (Z.to_nat i) (view s) in
      ((forall k, ~ occurs sep l k) /\ view p = l /\ nx = sp_len s
       \/ exists rest, l = view p ++ sep ++ rest
           /\ (forall k, occurs sep l k -> (length (view p) <= k)%nat)
           /\ nx = i + Z.of_nat (length (view p)) + Z.of_nat (length sep)
           /\ skipn (Z.to_nat nx) (view s) = rest).

  Lemma step_from_index : forall s (sep : list A) i r, wf s -> sep <> [] -> 0 <= i < sp_len s ->
    first_index (fun k => occurs sep (view s) k /\ in_range i U64MAX k (length sep)) r ->
    exists p nx,
      (if r =? U64MAX then Some (Subspan1 s i, sp_len s)
       else Some (Subspan s i (u64 (r - i)), u64 (r + Z.of_nat (length sep)))) = Some (p, nx)
      /\ wf p /\ sp_mem p = sp_mem s /\
      let l := skipn (Z.to_nat i) (view s) in
      ((forall k, ~ occurs sep l k) /\ view p = l /\ nx = sp_len s
       \/ exists rest, l = view p ++ sep ++ rest
           /\ (forall k, occurs sep l k -> (length (view p) <= k)%nat)
           /\ nx = i + Z.of_nat (length (view p)) + Z.of_nat (length sep)
           /\ skipn (Z.to_nat nx) (view s) = rest).
  Proof.
    intros s sep i r Hw Hne Hi F. assert (Hw' := Hw). destruct Hw' as (W1 & W2 & W3 & W4).
    assert (Hlen : (0 < length sep)%nat) by (destruct sep; [contradiction|cbn; lia]).
    assert (RNG : forall k, occurs sep (view s) (Z.to_nat i + k) ->
                    in_range i U64MAX (Z.to_nat i + k) (length sep)).
    { intros k O. apply occurs_split in O. rewrite view_length in O by exact Hw.
      unfold in_range, U64MAX, W64, W63 in *. lia. }
    destruct F as [[-> N]|[Hn (k & E & [O R] & L)]].
    - rewrite Z.eqb_refl. destruct (Subspan1_ok s i Hw) as (P1 & P2 & P3); [lia|].
      exists (Subspan1 s i), (sp_len s). split; [reflexivity|]. split; [exact P1|].
      split; [exact P2|]. left. split; [|split; [exact P3|reflexivity]].
      intros k O. apply occurs_skip in O; [|exact Hne].
      apply (N (Z.to_nat i + k)%nat). split; [exact O|apply RNG, O].
    - destruct (Z.eqb_spec r U64MAX); [contradiction|].
      assert (O' := O). apply occurs_split in O'. destruct O' as [Ok1 Ok2].
      rewrite view_length in Ok1 by exact Hw. unfold in_range in R.
      rewrite (u64_id (r - i)) by (unfold is_u64, W64, W63 in *; lia).
      rewrite (u64_id (r + _)) by (unfold is_u64, W64, W63 in *; lia).
      destruct (Subspan_ok s i (r - i) Hw) as (P1 & P2 & P3); [lia|lia|].
      eexists _, _. split; [reflexivity|]. split; [exact P1|]. split; [exact P2|]. right.
      assert (LP : length (view (Subspan s i (r - i))) = (k - Z.to_nat i)%nat).
      { rewrite P3, firstn_length, skipn_length, view_length by exact Hw. lia. }
      assert (OS : occurs sep (skipn (Z.to_nat i) (view s)) (k - Z.to_nat i)).
      { apply occurs_skip; [exact Hne|]. replace (Z.to_nat i + (k - Z.to_nat i))%nat with k by lia.
        exact O. }
      destruct OS as (pre & post & El & Lp). exists post. split; [|split; [|split]].
      + rewrite P3, El. replace (Z.to_nat (r - i)) with (length pre) by lia.
        rewrite firstn_app_len. reflexivity.
      + intros j Oj. apply occurs_skip in Oj; [|exact Hne].
        assert (k <= Z.to_nat i + j)%nat by (apply L; split; [exact Oj|apply RNG, Oj]). lia.
      + lia.
      + replace (Z.to_nat (r + Z.of_nat (length sep))) with (Z.to_nat i + (length pre + length sep))%nat by lia.
        rewrite <- (skipn_app_len (pre ++ sep) post), <- app_assoc, <- El, app_length.
        apply nth_error_ext'. intros q. rewrite !nth_error_skipn. f_equal. lia.
  Qed.

  Lemma split_value_step : forall s v, wf s -> step_ok s [v] (SplitAndTakeFirst eqb s v).
  Proof.
    intros s v Hw i Hi. unfold SplitAndTakeFirst.
    destruct (IndexOfR_ok s v i U64MAX Hw) as (r & -> & F); [lia|unfold U64MAX, W64; lia|].
    destruct (step_from_index s [v] i r Hw) as (p & nx & E & H); [discriminate|exact Hi| |].
    - eapply first_index_iff; [|exact F]. intros k. cbn beta. rewrite occurs_one. reflexivity.
    - exists p, nx. split; [exact E|exact H].
  Qed.

  Lemma split_span_step : forall s sep, wf s -> wf sep -> sp_len sep <> 0 ->
    step_ok s (view sep) (SplitAndTakeFirstSpan eqb s sep).
  Proof.
    intros s sep Hw Hs Hne i Hi. unfold SplitAndTakeFirstSpan.
    destruct (IndexOfSpanR_ok s sep i U64MAX Hw Hs Hne) as (r & -> & F); [lia|unfold U64MAX, W64; lia|].
    destruct (step_from_index s (view sep) i r Hw) as (p & nx & E & H); [|exact Hi|exact F|].
    - intro C. apply (view_nil_iff _ Hs) in C. contradiction.
    - exists p, nx. split; [|exact H]. rewrite view_length in E by exact Hs.
      rewrite Z2Nat.id in E by (destruct Hs; lia). exact E.
  Qed.
End S.

(** The pieces of a text between separators: the text is cut at the first occurrence of
    the separator, and so on with the rest; an empty rest gives no piece. *)
Inductive pieces_of {A} (sep : list A) : list A -> list (list A) -> Prop :=
| po_nil : pieces_of sep [] []
| po_last : forall l, l <> [] -> (forall k, ~ occurs sep l k) -> pieces_of sep l [l]
| po_cut : forall p rest ps,
    (forall k, occurs sep (p ++ sep ++ rest) k -> (length p <= k)%nat) ->
    pieces_of sep rest ps -> pieces_of sep (p ++ sep ++ rest) (p :: ps).

(** Putting the separator between the pieces. *)
Fixpoint join {A} (sep : list A) (ps : list (list A)) : list A :=
  match ps with
  | [] => []
  | [p] => p
  | p :: ps' => p ++ sep ++ join sep ps'
  end.

Lemma split_walk_ok : forall A (s : span A) sep step, wf s -> sep <> [] -> step_ok A s sep step ->
  forall fuel i, 0 <= i -> (Z.to_nat (sp_len s - i) <= fuel)%nat ->
  exists ps, split_walk step (sp_len s) fuel i = Some ps
    /\ Forall (fun p => wf p /\ sp_mem p = sp_mem s) ps
    /\ pieces_of sep (skipn (Z.to_nat i) (view s)) (map view ps).
Proof.
  intros A s sep step Hw Hne Hstep.
  assert (Hlen : (0 < length sep)%nat) by (destruct sep; [contradiction|cbn; lia]).
  induction fuel as [|fuel IH]; intros i Hi Hf; cbn [split_walk].
  - destruct (Z.ltb_spec i (sp_len s)); [lia|]. exists []. split; [reflexivity|].
    split; [constructor|]. rewrite skipn_all2; [constructor|].
    rewrite (view_length A s Hw). lia.
  - destruct (Z.ltb_spec i (sp_len s)).
    + destruct (Hstep i) as (p & nx & -> & P1 & P2 & [(N & V & ->)|(rest & El & First & -> & Er)]); [lia| |].
      * destruct (IH (sp_len s)) as (ps & E & F & Q); [lia|lia|].
        rewrite E. rewrite skipn_all2 in Q by (rewrite (view_length A s Hw); lia).
        assert (map view ps = []) as Em.
        { inversion Q as [| |p' r' ps' _ _ Eq]; [reflexivity|congruence|].
          destruct p'; [destruct sep; [contradiction|discriminate]|discriminate]. }
        exists (p :: ps). split; [reflexivity|]. split; [constructor; [split; assumption|exact F]|].
        cbn [map]. rewrite Em, V. apply po_last; [|exact N].
        intro C. apply (f_equal (@length A)) in C.
        rewrite skipn_length, (view_length A s Hw) in C. cbn in C. lia.
      * destruct (IH (i + Z.of_nat (length (view p)) + Z.of_nat (length sep))) as (ps & E & F & Q);
          [lia|lia|].
        rewrite E. exists (p :: ps). split; [reflexivity|].
        split; [constructor; [split; assumption|exact F]|]. cbn [map].
        rewrite Er in Q. rewrite El in First |- *. apply po_cut; assumption.
    + exists []. split; [reflexivity|].
      split; [constructor|]. rewrite skipn_all2; [constructor|].
      rewrite (view_length A s Hw). lia.
Qed.

Lemma pieces_join : forall A (sep l : list A) ps, sep <> [] -> pieces_of sep l ps ->
  l = join sep ps \/ l = join sep ps ++ sep.
Proof.
  intros A sep l ps Hne H. induction H as [|l Hl N|p rest ps Hfirst H IH].
  - left. reflexivity.
  - left. reflexivity.
  - destruct ps as [|q ps'].
    + assert (rest = []) as ->.
      { inversion H; reflexivity. }
      right. cbn [join]. rewrite app_nil_r. reflexivity.
    + change (join sep (p :: q :: ps')) with (p ++ sep ++ join sep (q :: ps')).
      destruct IH as [->|E].
      * left. reflexivity.
      * right. rewrite E at 1. rewrite <- !app_assoc. reflexivity.
Qed.

Lemma pieces_free : forall A (sep l : list A) ps, sep <> [] -> pieces_of sep l ps ->
  Forall (fun p => forall k, ~ occurs sep p k) ps.
Proof.
  intros A sep l ps Hne H. induction H as [|l Hl N|p rest ps Hfirst H IH].
  - constructor.
  - constructor; [exact N|constructor].
  - constructor; [|exact IH]. intros k O.
    assert (L : (k < length p)%nat) by (apply occurs_lt in O; assumption).
    destruct O as (pre & post & E & Hk).
    assert (length p <= k)%nat; [|lia]. apply Hfirst.
    exists pre, (post ++ sep ++ rest). split; [|exact Hk]. rewrite E, <- !app_assoc. reflexivity.
Qed.
