(** Property C11: a [BitMap] represents exactly the set of indices that were set. *)
From Coq Require Import ZArith Lia Bool List ZifyBool.
From Verif Require Import Word BitMapModel.
Import ListNotations.
Local Open Scope Z_scope.

(** Specification: a history of [SetItem] calls, newest first; the value of a bit is
    given by the newest call on it. *)
Fixpoint last_set (h : list (Z * bool)) (i : Z) : bool :=
  match h with
  | [] => false
  | (j, v) :: h' => if j =? i then v else last_set h' i
  end.

(** The number of set indices below [n]. *)
Fixpoint card (f : Z -> bool) (n : nat) : Z :=
  match n with
  | O => 0
  | S n' => card f n' + (if f (Z.of_nat n') then 1 else 0)
  end.

(** The bitmap after a history (newest first). *)
Fixpoint run (ubits : Z) (h : list (Z * bool)) : bitmap :=
  match h with
  | [] => bm_init ubits
  | (i, v) :: h' => fst (SetItem (run ubits h') i v)
  end.

Definition in_range (ubits : Z) (h : list (Z * bool)) : Prop :=
  Forall (fun '(i, _) => 0 <= i < ubits) h.

(** ** Lemmas *)
Lemma nth_set_nth : forall l k v j,
  nth j (set_nth l k v) 0 = if (j =? k)%nat && (k <? length l)%nat then v else nth j l 0.
Proof.
  induction l as [|x l IH]; intros k v j; cbn [set_nth].
  - destruct (_ && _) eqn:E; [cbn in E; lia|reflexivity].
  - destruct k as [|k].
    + destruct j; reflexivity.
    + destruct j as [|j]; cbn [nth]; [reflexivity|]. rewrite IH.
      destruct (j =? k)%nat eqn:E1, (k <? length l)%nat eqn:E2; cbn [andb];
        destruct (S j =? S k)%nat eqn:E3, (S k <? length (x :: l))%nat eqn:E4; cbn [andb length] in *;
        try reflexivity; lia.
Qed.

Lemma length_set_nth : forall l k v, length (set_nth l k v) = length l.
Proof.
  induction l as [|x l IH]; intros k v; [reflexivity|]. destruct k; cbn; [reflexivity|].
  rewrite IH. reflexivity.
Qed.

Lemma BitGet_set : forall ws off v i, 0 <= off -> 0 <= i ->
  off / 64 < Z.of_nat (length ws) ->
  let f := if v : bool then BitSet else BitReset in
  BitGet (fst (f ws off)) i = if off =? i then v else BitGet ws i.
Proof.
  intros ws off v i Ho Hi Hk f. unfold BitGet.
  assert (M := Z.mod_pos_bound off 64 ltac:(lia)).
  assert (Mi := Z.mod_pos_bound i 64 ltac:(lia)).
  assert (Do := Z.div_mod off 64 ltac:(lia)). assert (Di := Z.div_mod i 64 ltac:(lia)).
  assert (Po : 0 <= off / 64) by (apply Z.div_pos; lia).
  assert (Pi : 0 <= i / 64) by (apply Z.div_pos; lia).
  assert (Hn : nth (Z.to_nat (i / 64)) (fst (f ws off)) 0
    = if i / 64 =? off / 64 then
        (if v then Z.setbit (nth (Z.to_nat (off / 64)) ws 0) (off mod 64)
         else Z.clearbit (nth (Z.to_nat (off / 64)) ws 0) (off mod 64))
      else nth (Z.to_nat (i / 64)) ws 0).
  { unfold f. destruct v; cbn [fst BitSet BitReset]; rewrite nth_set_nth;
    destruct (Z.eqb_spec (i / 64) (off / 64)) as [E|E]; destruct (_ && _) eqn:B; try reflexivity; lia. }
  rewrite Hn. destruct (Z.eqb_spec (i / 64) (off / 64)) as [E|E].
  - destruct (Z.eqb_spec off i) as [->|NE].
    + destruct v; [apply Z.setbit_eq; lia|apply Z.clearbit_eq].
    + assert (off mod 64 <> i mod 64) by lia. rewrite E.
      destruct v; [apply Z.setbit_neq|apply Z.clearbit_neq]; lia.
  - destruct (Z.eqb_spec off i) as [->|NE]; [lia|reflexivity].
Qed.

Lemma nwords_ok : forall ubits i, 0 <= i < ubits ->
  i / 64 < Z.of_nat (Z.to_nat ((ubits + 64 - 1) / 64)).
Proof.
  intros ubits i H.
  assert (i / 64 <= (ubits - 1) / 64) by (apply Z.div_le_mono; lia).
  assert ((ubits + 64 - 1) / 64 = (ubits - 1) / 64 + 1).
  { replace (ubits + 64 - 1) with (ubits - 1 + 1 * 64) by lia. apply Z.div_add. lia. }
  assert (0 <= i / 64) by (apply Z.div_pos; lia). lia.
Qed.

Lemma run_length : forall ubits h,
  length (bm_words (run ubits h)) = Z.to_nat ((ubits + 64 - 1) / 64).
Proof.
  intros ubits h. induction h as [|[j v] h IH]; cbn [run].
  - unfold bm_init. cbn [bm_words]. apply repeat_length.
  - unfold SetItem. destruct v; cbn [fst BitSet BitReset bm_words]; rewrite length_set_nth; exact IH.
Qed.

Lemma run_get : forall ubits h i, in_range ubits h -> 0 <= i ->
  BitGet (bm_words (run ubits h)) i = last_set h i.
Proof.
  intros ubits h i H Hi. induction h as [|[j v] h IH]; cbn [run last_set].
  - unfold BitGet, bm_init; cbn [bm_words].
    assert (E : forall n k, nth k (repeat 0 n) 0 = 0).
    { induction n as [|n IHn]; intros [|k]; cbn; try reflexivity. apply IHn. }
    rewrite E. apply Z.bits_0.
  - inversion H as [|? ? Hj Hh]; subst. cbn beta in Hj. specialize (IH Hh).
    assert (G := BitGet_set (bm_words (run ubits h)) j v i ltac:(lia) Hi).
    rewrite run_length in G. specialize (G (nwords_ok ubits j Hj)). cbn zeta in G.
    rewrite IH in G. unfold SetItem. destruct v; cbn [fst BitSet BitReset bm_words] in *; exact G.
Qed.

Lemma card_bound : forall f n, 0 <= card f n <= Z.of_nat n.
Proof. intros f n. induction n as [|n IH]; cbn [card]; [lia|]. destruct (f (Z.of_nat n)); lia. Qed.

Lemma card_update : forall f g n j v, (forall i, 0 <= i -> g i = if j =? i then v else f i) ->
  card g n = card f n
    + (if (0 <=? j) && (j <? Z.of_nat n) then (if v then 1 else 0) - (if f j then 1 else 0) else 0).
Proof.
  intros f g n j v H. induction n as [|n IH]; cbn [card].
  - destruct (_ && _) eqn:E; lia.
  - rewrite IH, (H (Z.of_nat n)) by lia.
    destruct (Z.eqb_spec j (Z.of_nat n)) as [->|NE].
    + destruct ((0 <=? Z.of_nat n) && (Z.of_nat n <? Z.of_nat n)) eqn:E1; [lia|].
      destruct ((0 <=? Z.of_nat n) && (Z.of_nat n <? Z.of_nat (S n))) eqn:E2; [|lia].
      destruct v, (f (Z.of_nat n)); lia.
    + destruct ((0 <=? j) && (j <? Z.of_nat n)) eqn:E1;
        destruct ((0 <=? j) && (j <? Z.of_nat (S n))) eqn:E2; lia.
Qed.

Lemma run_count : forall ubits h, in_range ubits h -> is_u32 ubits ->
  bm_count (run ubits h) = card (last_set h) (Z.to_nat ubits).
Proof.
  intros ubits h H Hu. induction h as [|[j v] h IH]; cbn [run].
  - cbn [bm_init bm_count]. symmetry. clear. induction (Z.to_nat ubits) as [|n IHn]; [reflexivity|].
    cbn [card]. rewrite IHn. reflexivity.
  - inversion H as [|? ? Hj Hh]; subst. cbn beta in Hj. specialize (IH Hh).
    assert (C := card_update (last_set h) (last_set ((j, v) :: h)) (Z.to_nat ubits) j v).
    rewrite C by (intros; reflexivity). clear C.
    destruct ((0 <=? j) && (j <? Z.of_nat (Z.to_nat ubits))) eqn:E; [|lia].
    assert (B := card_bound (last_set h) (Z.to_nat ubits)).
    assert (B' := card_bound (last_set ((j, v) :: h)) (Z.to_nat ubits)).
    rewrite (card_update (last_set h) _ _ j v) in B' by (intros; reflexivity). rewrite E in B'.
    assert (G := run_get ubits h j Hh ltac:(lia)). unfold BitGet in G.
    unfold SetItem. unfold is_u32, W32 in Hu.
    destruct v; cbn [fst BitSet BitReset bm_count]; rewrite G, IH; destruct (last_set h j) eqn:L;
      cbn [negb]; try lia; unfold u32, W32; rewrite Z.mod_small; lia.
Qed.

Lemma run_words_pos : forall ubits h k, 0 <= nth k (bm_words (run ubits h)) 0.
Proof.
  intros ubits h. induction h as [|[j v] h IH]; intros k; cbn [run].
  - unfold bm_init; cbn [bm_words]. revert k. induction (Z.to_nat ((ubits + 64 - 1) / 64)) as [|n IHn];
      intros [|k]; cbn; try lia. apply IHn.
  - assert (W : forall w q, 0 <= w -> 0 <= Z.setbit w q /\ 0 <= Z.clearbit w q).
    { intros w q Hw. split.
      - rewrite Z.setbit_spec'. apply Z.lor_nonneg. split; [exact Hw|]. destruct q; cbn; try lia.
      - unfold Z.clearbit. apply Z.ldiff_nonneg. left. exact Hw. }
    unfold SetItem. destruct v; cbn [fst BitSet BitReset bm_words]; rewrite nth_set_nth;
      destruct (_ && _); try apply IH; apply W, IH.
Qed.

Lemma bsf_some : forall w n, bsf w = Some n -> 0 <= n /\ Z.testbit w n = true
  /\ forall m, 0 <= m < n -> Z.testbit w m = false.
Proof.
  intros w n H. destruct w as [|p|p]; cbn in H; try discriminate. injection H as <-.
  induction p as [p IH|p IH|]; cbn [ctz_pos].
  - split; [lia|]. split; [reflexivity|]. intros; lia.
  - destruct IH as (H1 & H2 & H3). split; [lia|]. rewrite Pos2Z.inj_xO.
    split.
    + replace (1 + ctz_pos p) with (Z.succ (ctz_pos p)) by lia.
      rewrite Z.testbit_even_succ by lia. exact H2.
    + intros m Hm. destruct (Z.eq_dec m 0) as [->|NZ]; [apply Z.testbit_even_0|].
      replace m with (Z.succ (m - 1)) by lia. rewrite Z.testbit_even_succ by lia. apply H3. lia.
  - split; [lia|]. split; [reflexivity|]. intros; lia.
Qed.

Lemma bsf_none : forall w, 0 <= w -> bsf w = None -> w = 0.
Proof. intros [|p|p] Hw H; cbn in *; [reflexivity|discriminate|lia]. Qed.

(** [BitFind] finds the first set bit of a word at or above [i]. *)
Lemma BitFind64_ok : forall w i, 0 <= w -> 0 <= i ->
  (BitFind64 w i = -1 /\ forall m, i <= m -> Z.testbit w m = false)
  \/ (i <= BitFind64 w i /\ Z.testbit w (BitFind64 w i) = true
      /\ forall m, i <= m < BitFind64 w i -> Z.testbit w m = false).
Proof.
  intros w i Hw Hi. unfold BitFind64. destruct (bsf (Z.shiftr w i)) as [n|] eqn:E.
  - right. apply bsf_some in E. destruct E as (H1 & H2 & H3).
    rewrite Z.shiftr_spec in H2 by lia. split; [lia|]. split; [rewrite Z.add_comm; exact H2|].
    intros m Hm. specialize (H3 (m - i) ltac:(lia)). rewrite Z.shiftr_spec in H3 by lia.
    rewrite <- H3. f_equal. lia.
  - left. split; [reflexivity|]. intros m Hm.
    apply bsf_none in E; [|apply Z.shiftr_nonneg; exact Hw].
    replace m with (m - i + i) by lia. rewrite <- Z.shiftr_spec by lia. rewrite E. apply Z.bits_0.
Qed.

(** Words hold only 64 bits. *)
Lemma run_high : forall ubits h k m, in_range ubits h -> 64 <= m ->
  Z.testbit (nth k (bm_words (run ubits h)) 0) m = false.
Proof.
  intros ubits h k m H Hm. revert k. induction h as [|[j v] h IH]; intros k; cbn [run].
  - unfold bm_init; cbn [bm_words]. revert k. induction (Z.to_nat ((ubits + 64 - 1) / 64)) as [|n IHn];
      intros [|k]; cbn [repeat nth]; try apply Z.bits_0. apply IHn.
  - inversion H as [|? ? Hj Hh]; subst. specialize (IH Hh).
    assert (M := Z.mod_pos_bound j 64 ltac:(lia)).
    unfold SetItem. destruct v; cbn [fst BitSet BitReset bm_words]; rewrite nth_set_nth;
      destruct (_ && _); try apply IH.
    + rewrite Z.setbit_neq by lia. apply IH.
    + rewrite Z.clearbit_neq by lia. apply IH.
Qed.

Lemma find_blocks_ok : forall ws k, 0 <= k ->
  (forall q, 0 <= nth q ws 0) -> (forall q m, 64 <= m -> Z.testbit (nth q ws 0) m = false) ->
  let get i := Z.testbit (nth (Z.to_nat (i / 64 - k)) ws 0) (i mod 64) in
  (find_blocks BitFind64 ws k = -1 /\ forall i, k * 64 <= i -> get i = false)
  \/ (k * 64 <= find_blocks BitFind64 ws k /\ get (find_blocks BitFind64 ws k) = true
      /\ forall i, k * 64 <= i < find_blocks BitFind64 ws k -> get i = false).
Proof.
  induction ws as [|w ws IH]; intros k Hk Pos High get.
  - left. split; [reflexivity|]. intros i _. unfold get. destruct (Z.to_nat _); apply Z.bits_0.
  - cbn [find_blocks]. cbn zeta.
    assert (P0 := Pos O). cbn in P0. assert (H0 := High O). cbn in H0.
    assert (Blk : forall i, k * 64 <= i < (k + 1) * 64 -> get i = Z.testbit w (i - k * 64)).
    { intros i Hi. unfold get.
      assert (i / 64 = k) by (symmetry; apply Z.div_unique with (r := i - k * 64); lia).
      rewrite H, Z.sub_diag. cbn [Z.to_nat nth]. f_equal. rewrite Z.mod_eq by lia. lia. }
    destruct (BitFind64_ok w 0 P0 ltac:(lia)) as [[E N]|(H1 & H2 & H3)].
    + rewrite E. change (0 <=? -1) with false. cbn iota.
      destruct (IH (k + 1)) as [[E' N']|(G1 & G2 & G3)]; [lia| | | |].
      * intros q. exact (Pos (S q)).
      * intros q m Hm. exact (High (S q) m Hm).
      * left. split; [exact E'|]. intros i Hi.
        destruct (Z.lt_ge_cases i ((k + 1) * 64)) as [L|G].
        { rewrite Blk by lia. apply N. lia. }
        { assert (k + 1 <= i / 64) by (apply Z.div_le_lower_bound; lia).
          unfold get. replace (Z.to_nat (i / 64 - k)) with (S (Z.to_nat (i / 64 - (k + 1)))) by lia.
          apply (N' i G). }
      * right. set (r := find_blocks BitFind64 ws (k + 1)) in *.
        assert (Sh : forall i, (k + 1) * 64 <= i ->
          get i = Z.testbit (nth (Z.to_nat (i / 64 - (k + 1))) ws 0) (i mod 64)).
        { intros i Hi. assert (k + 1 <= i / 64) by (apply Z.div_le_lower_bound; lia).
          unfold get. replace (Z.to_nat (i / 64 - k)) with (S (Z.to_nat (i / 64 - (k + 1)))) by lia.
          reflexivity. }
        split; [lia|]. split; [rewrite Sh by lia; exact G2|].
        intros i Hi. destruct (Z.lt_ge_cases i ((k + 1) * 64)) as [L|G].
        { rewrite Blk by lia. apply N. lia. }
        { rewrite Sh by lia. apply G3. lia. }
    + destruct (Z.leb_spec 0 (BitFind64 w 0)); [|lia].
      assert (B : BitFind64 w 0 < 64).
      { destruct (Z.lt_ge_cases (BitFind64 w 0) 64) as [L|G]; [exact L|]. rewrite H0 in H2 by lia. discriminate. }
      right. split; [lia|]. split.
      * rewrite Blk by lia. replace (BitFind64 w 0 + k * 64 - k * 64) with (BitFind64 w 0) by lia. exact H2.
      * intros i Hi. rewrite Blk by lia. apply H3. lia.
Qed.

Lemma nth_skipn : forall (l : list Z) n k, nth k (skipn n l) 0 = nth (n + k) l 0.
Proof.
  intros l n. revert l. induction n as [|n IH]; intros l k; [reflexivity|].
  destruct l as [|x l]; [destruct k; reflexivity|]. cbn [skipn Nat.add nth]. apply IH.
Qed.

Lemma Find_ok : forall ubits h i, in_range ubits h -> 0 <= i ->
  let r := Find ubits (run ubits h) i in
  (r = -1 /\ forall j, i <= j < ubits -> last_set h j = false)
  \/ (i <= r < ubits /\ last_set h r = true /\ forall j, i <= j < r -> last_set h j = false).
Proof.
  intros ubits h i H Hi r. unfold r, Find, FindWith.
  destruct (Z.leb_spec ubits i); [left; split; [reflexivity|lia]|].
  assert (Outside : forall j, last_set h j = true -> 0 <= j < ubits).
  { clear - H. induction h as [|[q v] h IH]; intros j E; cbn [last_set] in E; [discriminate|].
    inversion H as [|? ? Hq Hh]; subst. destruct (Z.eqb_spec q j) as [->|]; [exact Hq|]. apply (IH Hh j E). }
  set (ws := bm_words (run ubits h)). set (k := i / 64).
  assert (Pk : 0 <= k) by (apply Z.div_pos; lia).
  assert (Mi := Z.mod_pos_bound i 64 ltac:(lia)). assert (Di := Z.div_mod i 64 ltac:(lia)). fold k in Di.
  assert (Get : forall j, 0 <= j -> last_set h j = Z.testbit (nth (Z.to_nat (j / 64)) ws 0) (j mod 64)).
  { intros j Hj. rewrite <- (run_get ubits h j H Hj). reflexivity. }
  assert (Blk : forall j, k * 64 <= j < (k + 1) * 64 ->
    last_set h j = Z.testbit (nth (Z.to_nat k) ws 0) (j - k * 64)).
  { intros j Hj. rewrite Get by lia.
    assert (E : j / 64 = k) by (symmetry; apply Z.div_unique with (r := j - k * 64); lia).
    rewrite E. f_equal. rewrite Z.mod_eq by lia. lia. }
  destruct (BitFind64_ok (nth (Z.to_nat k) ws 0) (i mod 64)) as [[E N]|(H1 & H2 & H3)];
    [apply run_words_pos|lia| |].
  - rewrite E. change (0 <=? -1) with false. cbn iota.
    assert (FB := find_blocks_ok (skipn (S (Z.to_nat k)) ws) (k + 1) ltac:(lia)).
    destruct FB as [[E' N']|(G1 & G2 & G3)].
    + intros q. rewrite nth_skipn. apply run_words_pos.
    + intros q m Hm. rewrite nth_skipn. apply run_high with (1 := H) (2 := Hm).
    + left. split; [exact E'|]. intros j Hj.
      destruct (Z.lt_ge_cases j ((k + 1) * 64)) as [L|G].
      * rewrite Blk by lia. apply N. lia.
      * assert (k + 1 <= j / 64) by (apply Z.div_le_lower_bound; lia).
        rewrite Get by lia. specialize (N' j G). cbn beta in N'. rewrite nth_skipn in N'.
        rewrite <- N'. do 2 f_equal. lia.
    + set (q := find_blocks BitFind64 (skipn (S (Z.to_nat k)) ws) (k + 1)) in *.
      assert (Sh : forall j, (k + 1) * 64 <= j ->
        last_set h j = Z.testbit (nth (Z.to_nat (j / 64 - (k + 1))) (skipn (S (Z.to_nat k)) ws) 0) (j mod 64)).
      { intros j Hj. assert (k + 1 <= j / 64) by (apply Z.div_le_lower_bound; lia).
        rewrite Get, nth_skipn by lia. do 2 f_equal. lia. }
      assert (T : last_set h q = true) by (rewrite Sh by lia; exact G2).
      right. split; [split; [lia|apply Outside in T; lia]|]. split; [exact T|].
      intros j Hj. destruct (Z.lt_ge_cases j ((k + 1) * 64)) as [L|G].
      * rewrite Blk by lia. apply N. lia.
      * rewrite Sh by lia. apply G3. lia.
  - set (n := BitFind64 (nth (Z.to_nat k) ws 0) (i mod 64)) in *.
    destruct (Z.leb_spec 0 n); [|lia].
    assert (B : n < 64).
    { destruct (Z.lt_ge_cases n 64) as [L|G]; [exact L|].
      unfold ws in H2. rewrite (run_high ubits h _ _ H) in H2 by lia. discriminate. }
    assert (T : last_set h (n + k * 64) = true).
    { rewrite Blk by lia. replace (n + k * 64 - k * 64) with n by lia. exact H2. }
    right. split; [split; [lia|apply Outside in T; lia]|]. split; [exact T|].
    intros j Hj. rewrite Blk by lia. apply H3. lia.
Qed.

(** ** C11 *)
(** After every history of in-range [SetItem] calls: [GetItem] is the newest value; the
    next [SetItem] returns it; [GetSize] is the number of set indices; [Find] is the
    smallest set index from [i] on, -1 if there is none. *)
Theorem C11_GetItem : forall ubits h i, in_range ubits h -> 0 <= i < ubits ->
  GetItem (run ubits h) i = last_set h i.
Proof. intros ubits h i H Hi. apply run_get; [exact H|lia]. Qed.

Theorem C11_SetItem_returns_previous : forall ubits h i v, in_range ubits h -> 0 <= i < ubits ->
  snd (SetItem (run ubits h) i v) = last_set h i.
Proof.
  intros ubits h i v H Hi. rewrite <- (run_get ubits h i H) by lia.
  unfold SetItem, BitGet. destruct v; reflexivity.
Qed.

Theorem C11_GetSize : forall ubits h, in_range ubits h -> is_u32 ubits ->
  GetSize (run ubits h) = card (last_set h) (Z.to_nat ubits)
  /\ (IsEmpty (run ubits h) = true <-> forall i, 0 <= i < ubits -> last_set h i = false).
Proof.
  intros ubits h H Hu. unfold GetSize, IsEmpty. rewrite (run_count ubits h H Hu).
  split; [reflexivity|]. rewrite Z.eqb_eq.
  assert (G : forall n, card (last_set h) n = 0 <-> forall i, 0 <= i < Z.of_nat n -> last_set h i = false).
  { induction n as [|n IH]; cbn [card]; [split; [intros _ i Hi; lia|reflexivity]|].
    assert (B := card_bound (last_set h) n). split.
    - intros E i Hi. destruct (last_set h (Z.of_nat n)) eqn:L; [lia|].
      destruct (Z.eq_dec i (Z.of_nat n)) as [->|NE]; [exact L|]. apply IH; lia.
    - intros A. rewrite (A (Z.of_nat n)) by lia. rewrite (proj2 IH); [reflexivity|].
      intros i Hi. apply A. lia. }
  rewrite G. split; intros A i Hi; apply A; lia.
Qed.

Theorem C11_Find : forall ubits h i, in_range ubits h -> 0 <= i ->
  let r := Find ubits (run ubits h) i in
  (r = -1 /\ forall j, i <= j < ubits -> last_set h j = false)
  \/ (i <= r < ubits /\ last_set h r = true /\ forall j, i <= j < r -> last_set h j = false).
Proof. exact Find_ok. Qed.

(** The portable (non-Windows) [BitFind]: an empty map reports index 0. *)
Theorem C11_Find_portable_refuted : exists ubits h i, in_range ubits h /\ 0 <= i < ubits
  /\ (forall j, 0 <= j < ubits -> last_set h j = false)
  /\ FindWith BitFind64_portable ubits (run ubits h) i = 0.
Proof.
  exists 64, [], 32. repeat split; try lia. constructor.
Qed.

(** The portable 64-bit [BitReset] clears all bits from 32 on. *)
Theorem C11_Reset_portable_refuted : exists w off, is_u64 w /\ 0 <= off < 64
  /\ Z.testbit w 40 = true /\ off <> 40
  /\ Z.testbit (fst (BitReset64_portable w off)) 40 = false.
Proof.
  exists (2 ^ 40), 3. unfold is_u64, W64. repeat split; try lia.
Qed.

(** Instance: bits 3, 70 and 130 of 200, bit 70 cleared again. *)
Definition h0 : list (Z * bool) := [(70, false); (130, true); (70, true); (3, true)].
Example ex_range : in_range 200 h0. Proof. repeat constructor; lia. Qed.
Example ex_bm : GetSize (run 200 h0) = 2 /\ Find 200 (run 200 h0) 4 = 130 /\ Find 200 (run 200 h0) 131 = -1
  /\ Find 200 (run 200 h0) 0 = 3 /\ GetItem (run 200 h0) 70 = false /\ snd (SetItem (run 200 h0) 3 false) = true.
Proof. repeat split; vm_compute; reflexivity. Qed.

Print Assumptions C11_GetItem.
Print Assumptions C11_SetItem_returns_previous.
Print Assumptions C11_GetSize.
Print Assumptions C11_Find.
Print Assumptions C11_Find_portable_refuted.
Print Assumptions C11_Reset_portable_refuted.
