(** C143: the current directory as a string. *)
From Coq Require Import List ZArith Arith Bool Lia.
From Verif Require Import CurDirModel.
Import ListNotations.

Lemma round16_ge : forall n, n <= round16 n.
Proof. intros n. unfold round16. pose proof (Nat.div_mod (n + 15) 16 ltac:(lia)). pose proof (Nat.mod_upper_bound (n + 15) 16 ltac:(lia)). lia. Qed.
Definition wf (s : str) : Prop := length (buf s) = S (cap s) /\ size s <= cap s.
Lemma wf_empty : wf empty.
Proof. split; simpl; lia. Qed.
Lemma grow_wf : forall s c, wf s -> cap s <= c -> wf (grow s c).
Proof. intros s c [L S] H. split; cbn [buf cap size grow]; [rewrite app_length, repeat_length; lia|lia]. Qed.
Lemma lock_wf : forall mem s n s', wf s -> LockBuffer mem s n = Some s' -> wf s' /\ n <= cap s'.
Proof.
  intros mem s n s' W H. unfold LockBuffer in H. cbv zeta in H. pose proof (proj2 W) as SZ.
  set (m := if n <? size s then size s else n) in *.
  assert (M : n <= m /\ size s <= m) by (unfold m; destruct (n <? size s) eqn:E; [apply Nat.ltb_lt in E|apply Nat.ltb_ge in E]; lia).
  destruct ((m =? 0) && (cap s =? 0)) eqn:E0.
  { injection H as <-. apply andb_true_iff in E0. destruct E0 as [E0 E1]. apply Nat.eqb_eq in E0. split; [exact W|lia]. }
  destruct (cap s =? 0) eqn:E1.
  { destruct mem; [|discriminate]. injection H as <-. apply Nat.eqb_eq in E1. pose proof (round16_ge (S m)).
    split; [apply grow_wf; [exact W|lia]|]. change (n <= round16 (S m) - 1). lia. }
  destruct (cap s <? m) eqn:E2.
  - destruct mem; [|discriminate]. apply (f_equal (fun o => match o with Some x => x | None => s end)) in H. cbv beta iota in H. subst s'. apply Nat.ltb_lt in E2.
    set (c := if cap s + cap s / 2 <? S m then S m else cap s + cap s / 2).
    assert (C : S m <= c) by (unfold c; destruct (cap s + cap s / 2 <? S m) eqn:E; [lia|apply Nat.ltb_ge in E; lia]).
    pose proof (round16_ge c). split; [apply grow_wf; [exact W|lia]|]. change (n <= round16 c - 1). lia.
  - injection H as <-. apply Nat.ltb_ge in E2. split; [exact W|lia].
Qed.
Lemma put0_length : forall b i, i < length b -> length (put0 b i) = length b.
Proof. intros b i H. unfold put0. rewrite app_length, firstn_length. cbn [length]. rewrite skipn_length. lia. Qed.
Lemma put0_first : forall b i, i <= length b -> firstn i (put0 b i) = firstn i b.
Proof.
  intros b i H. unfold put0. rewrite firstn_app, firstn_firstn, Nat.min_id.
  rewrite firstn_length, Nat.min_l by exact H. rewrite Nat.sub_diag. cbn [firstn]. apply app_nil_r.
Qed.
Lemma unlock_wf : forall debug s n s', length (buf s) = S (cap s) -> UnlockBuffer debug s n = Some s' -> wf s' /\ cap s' = cap s.
Proof.
  intros debug s n s' W H. unfold UnlockBuffer in H. destruct (cap s <? n) eqn:E.
  - destruct debug; [discriminate|]. injection H as <-. split; [|reflexivity]. split; cbn [buf cap size]; [rewrite put0_length; lia|lia].
  - injection H as <-. apply Nat.ltb_ge in E. split; [|reflexivity]. split; cbn [buf cap size]; [rewrite put0_length; lia|lia].
Qed.

(** One round of the loop: what it answers, by the directory it meets. *)
Lemma round : forall debug k s cch mem d l, wf s -> 0 < cch ->
  loop debug k s cch ((mem, d) :: l) = Failed \/
  match d with
  | None => False
  | Some d =>
      (length d < cch /\ d <> [] /\ loop debug k s cch ((mem, Some d) :: l) = Text d k) \/
      (cch <= length d /\ ((debug = true /\ loop debug k s cch ((mem, Some d) :: l) = Assert) \/
         exists s', wf s' /\ loop debug k s cch ((mem, Some d) :: l) = loop debug (S k) s' (S (length d)) l))
  end.
Proof.
  intros debug k s cch mem d l W C. destruct d as [d|]; cbn [loop]; (destruct (LockBuffer mem s cch) as [s1|] eqn:E; [|left; reflexivity]);
  destruct (lock_wf mem s cch s1 W E) as [[L1 S1] C1];
  unfold sys; (destruct (length (buf s1) <? cch) eqn:X; [apply Nat.ltb_lt in X; lia|]).
  - destruct (length d <? cch) eqn:F.
    + apply Nat.ltb_lt in F.
      unfold UnlockBuffer. cbn [cap size buf]. destruct (cap s1 <? length d) eqn:G; [apply Nat.ltb_lt in G; lia|].
      destruct (length d =? 0) eqn:Z; [left; reflexivity|]. right. left. split; [exact F|].
      split; [intros ->; discriminate|].
      destruct (length d <=? cch) eqn:Q; [|apply Nat.leb_gt in Q; lia].
      cbv beta iota. unfold text. cbn [size buf]. rewrite put0_first by (rewrite app_length; lia).
      rewrite firstn_app, firstn_all, Nat.sub_diag. cbn [firstn]. rewrite app_nil_r. reflexivity.
    + apply Nat.ltb_ge in F. right. right. split; [exact F|].
      destruct (UnlockBuffer debug (Str (cap s1) (size s1) (buf s1)) (S (length d))) as [s2|] eqn:U.
      * right. exists s2. split; [apply (unlock_wf _ _ _ _ L1 U)|]. cbn [Nat.eqb].
        destruct (S (length d) <=? cch) eqn:Q; [apply Nat.leb_le in Q; lia|reflexivity].
      * left. split; [|reflexivity]. unfold UnlockBuffer in U. destruct (cap _ <? _); [|discriminate]. destruct debug; [reflexivity|discriminate].
  - unfold UnlockBuffer. cbn [cap size buf Nat.ltb Nat.leb]. left. reflexivity.
Qed.
(** The first call. *)
Lemma first_call : forall debug d l,
  (GetCurrentDirectory debug d l = Failed /\ (d = None \/ d = Some [])) \/
  exists t, d = Some t /\ t <> [] /\
    ((length t < 512 /\ GetCurrentDirectory debug d l = Text t 0) \/
     (512 <= length t /\ GetCurrentDirectory debug d l = loop debug 1 empty (S (length t)) l)).
Proof.
  intros debug [d|] l; [|left; split; [reflexivity|auto]].
  unfold GetCurrentDirectory, sys. rewrite repeat_length. change (512 <? 512) with false. cbv iota. destruct (length d <? 512) eqn:E.
  - apply Nat.ltb_lt in E. destruct (length d =? 0) eqn:Z.
    + left. split; [reflexivity|]. right. apply Nat.eqb_eq, length_zero_iff_nil in Z. congruence.
    + right. exists d. split; [reflexivity|]. split; [intros ->; discriminate|]. left. split; [exact E|].
      destruct (length d <=? 512) eqn:Q; [|apply Nat.leb_gt in Q; lia].
      rewrite firstn_app, firstn_all, Nat.sub_diag. cbn [firstn]. rewrite app_nil_r. reflexivity.
  - apply Nat.ltb_ge in E. right. exists d. split; [reflexivity|].
    split; [intros ->; simpl in E; lia|]. right. split; [exact E|].
    destruct (S (length d) =? 0) eqn:Z; [discriminate|]. destruct (S (length d) <=? 512) eqn:Q; [apply Nat.leb_le in Q; lia|reflexivity].
Qed.

(** C143: the string returned is, character for character, the directory that the last call
    has seen. *)
Theorem C143_text : forall debug first l t k, GetCurrentDirectory debug first l = Text t k ->
  nth_error (first :: map snd l) k = Some (Some t) /\ t <> [].
Proof.
  assert (G : forall debug l k s cch t r, wf s -> 0 < cch -> loop debug k s cch l = Text t r ->
    k <= r /\ nth_error (map snd l) (r - k) = Some (Some t) /\ t <> []).
  { induction l as [|[mem d] l IH]; intros k s cch t r W C H; [discriminate|].
    destruct (round debug k s cch mem d l W C) as [E|E]; [congruence|]. destruct d as [d|]; [|destruct E].
    destruct E as [[F [N E]]|[F [[_ E]|[s' [W' E]]]]]; rewrite E in H; [|discriminate|].
    - injection H as <- <-. rewrite Nat.sub_diag. split; [lia|]. split; [reflexivity|exact N].
    - destruct (IH (S k) s' (S (length d)) t r W' ltac:(lia) H) as [A [B N]]. split; [lia|]. split; [|exact N].
      replace (r - k) with (S (r - S k)) by lia. exact B. }
  intros debug first l t k H. destruct (first_call debug first l) as [[E _]|[d [-> [N [[_ E]|[L E]]]]]]; rewrite E in H; [discriminate| |].
  - injection H as <- <-. split; [reflexivity|exact N].
  - destruct (G _ _ _ _ _ _ _ wf_empty (Nat.lt_0_succ _) H) as [A [B N']]. split; [|exact N'].
    replace k with (S (k - 1)) by lia. exact B.
Qed.

(** C143: no memory outside the buffer is written, and in a release build no assertion fails. *)
Theorem C143_safe : forall debug first l,
  GetCurrentDirectory debug first l <> Crash /\ GetCurrentDirectory false first l <> Assert.
Proof.
  assert (G : forall debug l k s cch, wf s -> 0 < cch -> loop debug k s cch l <> Crash /\ (debug = false -> loop debug k s cch l <> Assert)).
  { induction l as [|[mem d] l IH]; intros k s cch W C; [split; discriminate|].
    destruct (round debug k s cch mem d l W C) as [E|E]; [rewrite E; split; discriminate|]. destruct d as [d|]; [|destruct E].
    destruct E as [[F [N E]]|[F [[D E]|[s' [W' E]]]]]; rewrite E; [split; discriminate|split; [discriminate|congruence]|].
    apply IH; [exact W'|lia]. }
  assert (K : forall debug first l, GetCurrentDirectory debug first l <> Crash /\ (debug = false -> GetCurrentDirectory debug first l <> Assert)).
  { intros debug first l. destruct (first_call debug first l) as [[E _]|[d [-> [N [[_ E]|[L E]]]]]]; rewrite E; [split; discriminate|split; discriminate|].
    apply G; [apply wf_empty|lia]. }
  intros debug first l. split; [apply K|apply (K false); reflexivity].
Qed.

(** C143: the loop ends, however often other threads change the directory: with names of at
    most [m] characters, [m - 511] rounds are enough. *)
Theorem C143_ends : forall debug first l m,
  (forall d, In (Some d) (first :: map snd l) -> length d <= m) -> m - 511 <= length l -> GetCurrentDirectory debug first l <> Running.
Proof.
  intros debug first l m.
  assert (G : forall l k s cch, wf s -> 0 < cch -> (forall d, In (Some d) (map snd l) -> length d <= m) -> S m - cch < length l ->
    loop debug k s cch l <> Running).
  { clear l. induction l as [|[mem d] l IH]; intros k s cch W C B L; [simpl in L; lia|].
    destruct (round debug k s cch mem d l W C) as [E|E]; [rewrite E; discriminate|]. destruct d as [d|]; [|destruct E].
    destruct E as [[F [N E]]|[F [[D E]|[s' [W' E]]]]]; rewrite E; try discriminate.
    pose proof (B d (or_introl eq_refl)). apply IH; [exact W'|lia|intros d' I; apply B; right; exact I|]. cbn [length] in L. lia. }
  intros B L. destruct (first_call debug first l) as [[E _]|[d [-> [N [[_ E]|[Q E]]]]]]; rewrite E; try discriminate.
  pose proof (B d (or_introl eq_refl)). apply G; [apply wf_empty|lia|intros d' I; apply B; right; exact I|lia].
Qed.

(** C143: if nobody changes the directory and there is memory, it is returned, in any build,
    after at most two calls. *)
Theorem C143_steady : forall debug d mem l, d <> [] -> mem = true ->
  exists k, GetCurrentDirectory debug (Some d) ((mem, Some d) :: l) = Text d k /\ k <= 1.
Proof.
  intros debug d mem l N ->. destruct (first_call debug (Some d) ((true, Some d) :: l)) as [[_ [E|E]]|[t [E [_ [[_ E']|[L E']]]]]]; try congruence; injection E as <-; rewrite E'.
  - exists 0. auto.
  - destruct (round debug 1 empty (S (length d)) true (Some d) l wf_empty ltac:(lia)) as [E|[[_ [_ E]]|[F _]]].
    + exfalso. cbn [loop] in E. destruct (LockBuffer true empty (S (length d))) as [s1|] eqn:Q; [|discriminate Q].
      destruct (lock_wf _ _ _ _ wf_empty Q) as [_ C]. unfold sys in E. destruct (length (buf s1) <? S (length d)); [discriminate|].
      destruct (length d <? S (length d)) eqn:Z; [|apply Nat.ltb_ge in Z; lia].
      unfold UnlockBuffer in E. cbn [cap] in E. destruct (cap s1 <? length d) eqn:Y; [apply Nat.ltb_lt in Y; lia|].
      destruct (length d =? 0) eqn:X; [apply Nat.eqb_eq in X; lia|]. destruct (length d <=? S (length d)) eqn:V; [discriminate|apply Nat.leb_gt in V; lia].
    + exists 1. auto.
    + lia.
Qed.

(** C143 refuted for debug builds: the number of places that are needed is given to UnlockBuffer
    as the new length, whose assertion fails if the directory has become longer in between. *)
Theorem C143_assert_refuted : exists d d' l,
  512 <= length d < length d' /\ GetCurrentDirectory true (Some d) [(true, Some d'); (true, Some d')] = Assert /\
  GetCurrentDirectory false (Some d) ((true, Some d') :: (true, Some d') :: l) = Text d' 2.
Proof.
  exists (repeat 65%Z 512), (repeat 65%Z 540), []. rewrite !repeat_length. split; [lia|]. split; vm_compute; reflexivity.
Qed.
Print Assumptions C143_text.
Print Assumptions C143_safe.
Print Assumptions C143_ends.
Print Assumptions C143_steady.
Print Assumptions C143_assert_refuted.

(** A directory of three characters; failure; memory that is not there. *)
Example ex_dir : (GetCurrentDirectory true (Some [67; 58; 92]%Z) [], GetCurrentDirectory true None [],
  GetCurrentDirectory true (Some (repeat 65%Z 600)) [(false, None)]) = (Text [67; 58; 92]%Z 0, Failed, Failed).
Proof. vm_compute. reflexivity. Qed.
