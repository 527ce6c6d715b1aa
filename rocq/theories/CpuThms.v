(** C142: the number of processors. *)
From Coq Require Import List ZArith Bool Lia.
From Verif Require Import Word MathModel BitsCountProofs MathThms Slots SlotsProofs CurrentProofs CpuModel.
Import ListNotations.
Local Open Scope Z_scope.

(** Spec: the processors of a package, of the machine: one for each bit of each mask. *)
Definition ones (p : list Z) : Z := fold_right (fun m n => number_of_ones 64 m + n) 0 p.
Definition processors (m : seen) : Z := fold_right (fun p n => ones p + n) 0 (packages m).
(** Spec: what Windows can answer: masks of 64 bits, GroupCount is a WORD. *)
Definition sane (p : list Z) : Prop := Forall (fun m => 0 <= m < 2 ^ 64) p /\ Z.of_nat (length p) < 2 ^ 16.
Definition answered (m : seen) : Prop := sized m = true /\ mem m = true /\ filled m = true.

Lemma noo_bound : forall n x, 0 <= number_of_ones n x <= Z.of_nat n.
Proof.
  intros n x. unfold number_of_ones. split; [lia|]. apply inj_le. rewrite <- (seq_length n 0) at 2.
  generalize (seq 0 n). intros l. induction l as [|a l IH]; simpl; [lia|]. destruct (Z.testbit x (Z.of_nat a)); simpl; lia.
Qed.
Lemma ones_nonneg : forall p, 0 <= ones p.
Proof. induction p as [|m p IH]; cbn [ones fold_right]; [lia|]. pose proof (noo_bound 64 m). unfold ones in IH. lia. Qed.
Lemma groups_ones : forall p c, Forall (fun m => 0 <= m < 2 ^ 64) p -> 0 <= c -> c + 64 * Z.of_nat (length p) < 2 ^ 32 ->
  groups c p = c + ones p.
Proof.
  induction p as [|m p IH]; intros c F C B.
  - cbn [groups ones fold_right]. lia.
  - inversion F as [|m' p' M F']; subst. cbn [groups ones fold_right].
    rewrite (C68_BitsCount64 m M). pose proof (noo_bound 64 m) as N. change (Z.of_nat 64) with 64 in N.
    cbn [length] in B. rewrite Nat2Z.inj_succ in B.
    assert (E : u32 (c + number_of_ones 64 m) = c + number_of_ones 64 m) by (unfold u32; apply Z.mod_small; change W32 with (2 ^ 32); lia).
    rewrite E, IH; [fold (ones p); lia|exact F'|lia|lia].
Qed.
Lemma count_first : forall m p r, answered m -> packages m = p :: r -> sane p -> ones p <> 0 -> count m = ones p.
Proof.
  intros m p r [A1 [A2 A3]] P [F L] N. unfold count. rewrite A1, A2, A3, P. cbn [andb].
  rewrite groups_ones by (auto; lia). rewrite Z.add_0_l. destruct (ones p =? 0) eqn:E; [apply Z.eqb_eq in E; congruence|].
  rewrite E. reflexivity.
Qed.
Lemma count_pos : forall m, count m <> 0.
Proof.
  intros m. unfold count. set (c := if _ && _ then _ else 0).
  destruct (c =? 0) eqn:E.
  - destruct (native m =? 0) eqn:F; [discriminate|apply Z.eqb_neq; exact F].
  - rewrite E. apply Z.eqb_neq. exact E.
Qed.

(** C142, in part: on a machine with one package the count is the number of its processors. *)
Theorem C142_count_partial : forall m p, answered m -> packages m = [p] -> sane p -> 0 < processors m -> count m = processors m.
Proof.
  intros m p A P S N. unfold processors in *. rewrite P in *. cbn [fold_right] in *. rewrite Z.add_0_r in *.
  apply (count_first m p []); auto. lia.
Qed.
(** C142 refuted: the processors of the other packages are not counted. *)
Theorem C142_count_refuted :
  (forall m p r, answered m -> packages m = p :: r -> sane p -> 0 < ones p ->
     count m = ones p /\ (count m = processors m <-> Forall (fun q => ones q = 0) r)) /\
  (exists m p q, answered m /\ packages m = [p; q] /\ sane p /\ sane q /\ 0 < ones p /\ processors m = 2 * count m).
Proof.
  split.
  - intros m p r A P S N. assert (C : count m = ones p) by (apply (count_first m p r); auto; lia). split; [exact C|].
    rewrite C. unfold processors. rewrite P. cbn [fold_right]. clear A P S N C m.
    assert (G : forall r, 0 <= fold_right (fun p n => ones p + n) 0 r) by
      (induction r0 as [|q r0 IH]; cbn [fold_right]; [lia|]; pose proof (ones_nonneg q); lia).
    induction r as [|q r IH]; cbn [fold_right].
    + split; [constructor|lia].
    + pose proof (ones_nonneg q). pose proof (G r). split.
      * intros E. constructor; [lia|]. apply IH. lia.
      * intros F. inversion F as [|q' r' Q F']; subst. apply IH in F'. lia.
  - exists (Seen [[0xff]; [0xff00]] true true true 16), [0xff], [0xff00].
    split; [repeat split|]. split; [reflexivity|]. split; [split; [repeat constructor; lia|cbn; lia]|].
    split; [split; [repeat constructor; lia|cbn; lia]|]. split; [vm_compute; reflexivity|vm_compute; reflexivity].
Qed.

Definition Agree (Q : Z -> Prop) (s : state) : Prop :=
  (cache s <> 0 -> Q (cache s)) /\
  (forall t v, nth_error (calls s) t = Some (P1 v) -> v <> 0 /\ Q v) /\
  (forall t v, nth_error (calls s) t = Some (Ret v) -> v = cache s /\ cache s <> 0).
Lemma repeat_P0 : forall n t x, nth_error (repeat P0 n) t = Some x -> x = P0.
Proof. intros n t x H. apply nth_error_In in H. exact (repeat_spec _ _ _ H). Qed.

(** C142: on Windows all calls that return have the same answer, which is not 0 and is what one
    of them has counted. *)
Theorem C142_agree : forall n l s t v, run step_win (init n) l = Some s -> nth_error (calls s) t = Some (Ret v) ->
  v <> 0 /\ (exists e, In e l /\ v = count (snd e)) /\
  (forall u w, nth_error (calls s) u = Some (Ret w) -> w = v).
Proof.
  intros n l s t v H N.
  assert (G : forall l s0 (Q : Z -> Prop), (forall e, In e l -> Q (count (snd e))) -> Agree Q s0 -> run step_win s0 l = Some s -> Agree Q s).
  { clear. induction l as [|e l IH]; intros s0 Q HQ A H; simpl in H; [injection H as <-; exact A|].
    destruct (step_win s0 e) as [s1|] eqn:E; [|discriminate]. apply (IH s1 Q); [intros e' I; apply HQ; right; exact I| |exact H].
    clear H IH. destruct A as [A1 [A2 A3]]. unfold step_win in E. destruct (nth_error (calls s0) (fst e)) as [p|] eqn:M; [|discriminate].
    destruct p as [|v| |v]; try discriminate.
    - injection E as <-. destruct (cache s0 =? 0) eqn:Z0.
      + split; [exact A1|]. split; intros t v; cbn [calls cache]; intros K; apply nth_set1 in K; destruct K as [[_ K]|[_ K]]; eauto.
        * injection K as ->. split; [apply count_pos|apply HQ; left; reflexivity].
        * discriminate.
      + apply Z.eqb_neq in Z0. split; [exact A1|]. split; intros t v; cbn [calls cache]; intros K; apply nth_set1 in K; destruct K as [[_ K]|[_ K]]; eauto.
        * discriminate.
        * injection K as ->. auto.
    - destruct (A2 (fst e) v M) as [V1 V2]. destruct (cache s0 =? 0) eqn:Z0; injection E as <-.
      + apply Z.eqb_eq in Z0. split; [intros _; exact V2|]. split; intros t w; cbn [calls cache]; intros K; apply nth_set1 in K; destruct K as [[_ K]|[_ K]]; eauto.
        * discriminate.
        * injection K as ->. auto.
        * destruct (A3 t w K) as [_ X]. congruence.
      + apply Z.eqb_neq in Z0. split; [exact A1|]. split; intros t w; cbn [calls cache]; intros K; apply nth_set1 in K; destruct K as [[_ K]|[_ K]]; eauto.
        * discriminate.
        * injection K as ->. auto. }
  destruct (G l (init n) (fun v => exists e, In e l /\ v = count (snd e))) as [A1 [_ A3]]; [eauto| |exact H|].
  { split; [intros X; exfalso; apply X; reflexivity|]. split; intros u w K; apply repeat_P0 in K; discriminate. }
  destruct (A3 t v N) as [-> C]. split; [exact C|]. split; [exact (A1 C)|]. intros u w K. exact (proj1 (A3 u w K)).
Qed.

(** C142, elsewhere, in part: if get_nprocs always answers the same, so do all calls. *)
Theorem C142_linux_partial : forall n l s k t v, (forall e, In e l -> snd e = k) ->
  run step_linux (init n) l = Some s -> nth_error (calls s) t = Some (Ret v) -> v = (if k =? 0 then 1 else k).
Proof.
  intros n l s k t v HK H N. set (c := count_linux k). change (v = c).
  assert (C0 : c <> 0) by (unfold c, count_linux; destruct (k =? 0) eqn:E; [discriminate|apply Z.eqb_neq; exact E]).
  assert (G : forall l s0, (forall e, In e l -> snd e = k) ->
    (cache s0 = 0 \/ cache s0 = c) -> (forall u w, nth_error (calls s0) u = Some (P1 w) -> w = c) ->
    (forall u, nth_error (calls s0) u = Some P2 -> cache s0 = c) -> (forall u w, nth_error (calls s0) u = Some (Ret w) -> w = c) ->
    run step_linux s0 l = Some s -> forall u w, nth_error (calls s) u = Some (Ret w) -> w = c).
  { clear H N HK. induction l0 as [|e l0 IH]; intros s0 HK A1 A2 A3 A4 H; simpl in H; [injection H as <-; exact A4|].
    destruct (step_linux s0 e) as [s1|] eqn:E; [|discriminate].
    unfold step_linux in E. destruct (nth_error (calls s0) (fst e)) as [p|] eqn:M; [|discriminate].
    destruct p as [|w| |w]; try discriminate; injection E as <-.
    - assert (E : snd e = k) by (apply HK; left; reflexivity).
      apply (IH (St (cache s0) (set (calls s0) (fst e) (if cache s0 =? 0 then P1 (count_linux (snd e)) else Ret (cache s0))))); auto;
        [intros; apply HK; right; assumption| | |]; cbn [calls cache]; rewrite E; destruct (cache s0 =? 0) eqn:Z0.
      + intros u w K; apply nth_set1 in K; destruct K as [[_ K]|[_ K]]; [injection K as ->; reflexivity|eauto].
      + intros u w K; apply nth_set1 in K; destruct K as [[_ K]|[_ K]]; [discriminate|eauto].
      + intros u K; apply nth_set1 in K; destruct K as [[_ K]|[_ K]]; [discriminate|eauto].
      + intros u K; apply nth_set1 in K; destruct K as [[_ K]|[_ K]]; [discriminate|eauto].
      + intros u w K; apply nth_set1 in K; destruct K as [[_ K]|[_ K]]; [discriminate|eauto].
      + apply Z.eqb_neq in Z0. intros u w K; apply nth_set1 in K; destruct K as [[_ K]|[_ K]]; [injection K as ->; destruct A1; congruence|eauto].
    - pose proof (A2 _ _ M) as ->.
      apply (IH (St c (set (calls s0) (fst e) P2))); auto; [intros; apply HK; right; assumption| |]; cbn [calls cache].
      + intros u w K; apply nth_set1 in K; destruct K as [[_ K]|[_ K]]; [discriminate|eauto].
      + intros u w K; apply nth_set1 in K; destruct K as [[_ K]|[_ K]]; [discriminate|eauto].
    - pose proof (A3 _ M) as C.
      apply (IH (St (cache s0) (set (calls s0) (fst e) (Ret (cache s0))))); auto; [intros; apply HK; right; assumption| |]; cbn [calls cache].
      + intros u w K; apply nth_set1 in K; destruct K as [[_ K]|[_ K]]; [discriminate|eauto].
      + intros u w K; apply nth_set1 in K; destruct K as [[_ K]|[_ K]]; [injection K as ->; exact C|eauto]. }
  apply (G l (init n) HK) with t; auto; try exact H.
  - intros u w K. apply repeat_P0 in K. discriminate.
  - intros u K. apply repeat_P0 in K. discriminate.
  - intros u w K. apply repeat_P0 in K. discriminate.
Qed.
(** C142, elsewhere, refuted: without the exchange two first calls can have two answers, when a
    processor is switched on between them. *)
Theorem C142_linux_refuted : exists l s, run step_linux (init 2) l = Some s /\ calls s = [Ret 4; Ret 8].
Proof. exists (map (fun e => (fst e, Z.of_nat (snd e))) [(0, 4); (1, 8); (0, 4); (0, 4); (1, 8); (1, 8)]%nat). eexists. split; reflexivity. Qed.
Print Assumptions C142_count_partial.
Print Assumptions C142_count_refuted.
Print Assumptions C142_agree.
Print Assumptions C142_linux_partial.
Print Assumptions C142_linux_refuted.

(** Two threads that ask at the same time, with different answers of the system. *)
Definition small := Seen [[0xf]] true true true 4.
Definition large := Seen [[0xff; 0x3]] true true true 8.
Example ex_agree : option_map calls (run step_win (init 3) [(0, small); (1, large); (1, large); (0, small); (2, small)]%nat) = Some [Ret 10; Ret 10; Ret 10].
Proof. vm_compute. reflexivity. Qed.
(** The system cannot answer: the number of the own group is taken, or 1. *)
Example ex_fallback : (count (Seen [[0xff]] true false true 12), count (Seen [] false true true 0)) = (12, 1).
Proof. reflexivity. Qed.
