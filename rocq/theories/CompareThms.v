(** Properties C24 and C25: text comparison. *)
From Coq Require Import ZArith Lia Bool List ZifyBool.
From Verif Require Import Word SpanModel SpanProofs CompareModel.
Import ListNotations.
Local Open Scope Z_scope.

(** Specification: lexicographic order, a proper prefix is smaller. *)
Fixpoint lex (l m : list Z) : comparison :=
  match l, m with
  | [], [] => Eq
  | [], _ :: _ => Lt
  | _ :: _, [] => Gt
  | x :: l', y :: m' => match Z.compare x y with Eq => lex l' m' | c => c end
  end.

(** The sign of an [int] result says what [c] says. *)
Definition says (r : Z) (c : comparison) : Prop :=
  match c with Eq => r = 0 | Lt => r < 0 | Gt => 0 < r end.

(** [sub] has the sign of the mathematical difference on the characters used. *)
Definition sub_ok (sub : Z -> Z -> Z) (ok : Z -> Prop) : Prop :=
  forall x y, ok x -> ok y -> says (sub x y) (Z.compare x y).

Lemma sub_int_ok : sub_ok sub_int (fun _ => True).
Proof.
  intros x y _ _. unfold sub_int, says. destruct (Z.compare_spec x y); lia.
Qed.

Lemma sub_u32_ok : sub_ok sub_u32 (fun c => 0 <= c < 2147483648).
Proof.
  intros x y Hx Hy. unfold sub_u32, s32, u32, says.
  destruct (Z.compare_spec x y) as [->|L|G].
  - rewrite Z.sub_diag. reflexivity.
  - assert (E : (x - y) mod W32 = x - y + W32).
    { symmetry. apply Z.mod_unique_pos with (q := -1); unfold W32; lia. }
    rewrite E. destruct (Z.ltb_spec (x - y + W32) 2147483648); unfold W32 in *; lia.
  - rewrite Z.mod_small by (unfold W32; lia).
    destruct (Z.ltb_spec (x - y) 2147483648); lia.
Qed.

(** ** The order [lex] is total. *)
Lemma lex_eq : forall l m, lex l m = Eq <-> l = m.
Proof.
  induction l as [|x l IH]; intros [|y m]; cbn [lex]; split; intro H; try discriminate; try reflexivity.
  - destruct (Z.compare_spec x y) as [->| |]; try discriminate. apply IH in H. congruence.
  - injection H as -> ->. rewrite Z.compare_refl. apply IH. reflexivity.
Qed.

Lemma lex_antisym : forall l m, lex m l = CompOpp (lex l m).
Proof.
  induction l as [|x l IH]; intros [|y m]; cbn [lex]; try reflexivity.
  rewrite (Z.compare_antisym x y). destruct (x ?= y); cbn; try reflexivity. apply IH.
Qed.

Lemma lex_trans : forall l m n, lex l m = Lt -> lex m n = Lt -> lex l n = Lt.
Proof.
  induction l as [|x l IH]; intros [|y m] [|z n]; cbn [lex]; intros H1 H2; try discriminate; try reflexivity.
  destruct (Z.compare_spec x y) as [Exy|Lxy|Gxy]; try discriminate;
    destruct (Z.compare_spec y z) as [Eyz|Lyz|Gyz]; try discriminate.
  - subst. rewrite Z.compare_refl. apply (IH m n H1 H2).
  - subst. rewrite (proj2 (Z.compare_lt_iff y z)) by lia. reflexivity.
  - subst. rewrite (proj2 (Z.compare_lt_iff x z)) by lia. reflexivity.
  - rewrite (proj2 (Z.compare_lt_iff x z)) by lia. reflexivity.
Qed.

(** ** The loop *)
Section L.
  Variable sub : Z -> Z -> Z.
  Variable up : Z -> Z.
  Variable ok : Z -> Prop.
  Hypothesis Hsub : sub_ok sub ok.

  Definition good (l : list Z) : Prop := Forall (fun x => ok (up x)) l.

  (** Reading [n] characters from [i] gives [la] resp. [lb]. *)
  Definition shows (s : span Z) (i : Z) (l : list Z) : Prop :=
    forall k x, nth_error l k = Some x -> rd s (i + Z.of_nat k) = Some x.

  Lemma shows_cons : forall s i x l, shows s i (x :: l) -> rd s i = Some x /\ shows s (i + 1) l.
  Proof.
    intros s i x l H. split.
    - specialize (H O x eq_refl). rewrite Z.add_0_r in H. exact H.
    - intros k y Hk. specialize (H (S k) y Hk). rewrite <- H. f_equal. lia.
  Qed.

  Lemma cmp_loop_ok : forall la lb a b i, length la = length lb -> good la -> good lb ->
    shows a i la -> shows b i lb ->
    (lex (map up la) (map up lb) = Eq /\ cmp_loop sub up a b i (length la) = Some (inr (i + Z.of_nat (length la))))
    \/ (exists r, cmp_loop sub up a b i (length la) = Some (inl r)
          /\ forall ta tb, says r (lex (map up (la ++ ta)) (map up (lb ++ tb)))
             /\ lex (map up (la ++ ta)) (map up (lb ++ tb)) <> Eq).
  Proof.
    induction la as [|x la IH]; intros [|y lb] a b i L Ga Gb Sa Sb; try discriminate.
    - left. split; [reflexivity|]. cbn. rewrite Z.add_0_r. reflexivity.
    - cbn [length cmp_loop]. apply shows_cons in Sa, Sb. destruct Sa as [-> Sa], Sb as [-> Sb].
      inversion Ga; inversion Gb; subst. cbn beta in *.
      assert (S := Hsub (up x) (up y) ltac:(assumption) ltac:(assumption)).
      cbn zeta. destruct (Z.eqb_spec (sub (up x) (up y)) 0) as [E|NE]; cbn [negb].
      + assert (Q : (up x ?= up y) = Eq).
        { destruct (up x ?= up y); cbn in S; [reflexivity|lia|lia]. }
        cbn [length] in L.
        destruct (IH lb a b (i + 1)) as [[E1 E2]|(r & E1 & E2)]; try assumption; [lia| |].
        * left. cbn [map lex]. rewrite Q. split; [exact E1|]. rewrite E2. do 2 f_equal. lia.
        * right. exists r. split; [exact E1|]. intros ta tb. cbn [app map lex]. rewrite Q. apply E2.
      + right. exists (sub (up x) (up y)). split; [reflexivity|]. intros ta tb. cbn [app map lex].
        destruct (up x ?= up y) eqn:Q; cbn in S |- *; [lia| |]; (split; [lia|discriminate]).
  Qed.

  Lemma shows_view : forall s n, wf s -> shows s 0 (firstn n (view s)).
  Proof.
    intros s n Hw k x E. rewrite nth_error_firstn in E.
    destruct (Nat.ltb_spec k n); [|discriminate].
    assert (B := view_nth_lt Z s k x Hw E).
    rewrite rd_view by (try assumption; lia). rewrite Z.add_0_l, Nat2Z.id. exact E.
  Qed.

  Lemma good_firstn : forall l n, good l -> good (firstn n l).
  Proof.
    intros l n H. unfold good in *. rewrite <- (firstn_skipn n l) in H.
    apply Forall_app in H. apply H.
  Qed.

  Lemma lex_app : forall l m t u, lex l m = Eq -> lex (l ++ t) (m ++ u) = lex t u.
  Proof.
    intros l m t u H. apply lex_eq in H. subst m. induction l as [|x l IH]; [reflexivity|].
    cbn [app lex]. rewrite Z.compare_refl. exact IH.
  Qed.

  Lemma ViewCompare_ok : forall a b, wf a -> wf b -> good (view a) -> good (view b) ->
    exists r, ViewCompare sub up a b = Some r
      /\ says r (lex (map up (view a)) (map up (view b))).
  Proof.
    intros a b Ha Hb Ga Gb. unfold ViewCompare.
    assert (La := view_length Z a Ha). assert (Lb := view_length Z b Hb).
    set (n := Z.to_nat (Z.min (sp_len a) (sp_len b))).
    assert (Pa : 0 <= sp_len a) by (destruct Ha; lia).
    assert (Pb : 0 <= sp_len b) by (destruct Hb; lia).
    assert (na : length (firstn n (view a)) = n) by (rewrite firstn_length; lia).
    assert (nb : length (firstn n (view b)) = n) by (rewrite firstn_length; lia).
    destruct (cmp_loop_ok (firstn n (view a)) (firstn n (view b)) a b 0) as [[E1 E2]|(r & E1 & E2)];
      try (apply good_firstn; assumption); try (apply shows_view; assumption); [lia| |].
    - rewrite na in E2. rewrite E2.
      rewrite <- (firstn_skipn n (view a)), <- (firstn_skipn n (view b)), !map_app.
      rewrite lex_app by exact E1.
      assert (Sa := skipn_length n (view a)). assert (Sb := skipn_length n (view b)).
      destruct (Z.ltb_spec (sp_len b) (sp_len a)).
      { exists 1. split; [reflexivity|].
        destruct (skipn n (view a)); [cbn in Sa; lia|].
        destruct (skipn n (view b)); [|cbn in Sb; lia]. cbn. lia. }
      destruct (Z.ltb_spec (sp_len a) (sp_len b)).
      { exists (-1). split; [reflexivity|].
        destruct (skipn n (view b)); [cbn in Sb; lia|].
        destruct (skipn n (view a)); [|cbn in Sa; lia]. cbn. lia. }
      exists 0. split; [reflexivity|].
      destruct (skipn n (view b)); [|cbn in Sb; lia].
      destruct (skipn n (view a)); [|cbn in Sa; lia]. reflexivity.
    - rewrite na in E1. rewrite E1. exists r. split; [reflexivity|].
      destruct (E2 (skipn n (view a)) (skipn n (view b))) as [S _].
      rewrite !firstn_skipn in S. exact S.
  Qed.

  (** A NUL-terminated string: [text] without NUL, then a NUL. *)
  Definition zstring (z : span Z) (text : list Z) : Prop :=
    ~ In 0 text /\ shows z 0 (text ++ [0]).

  Hypothesis up0 : forall x, up x = 0 <-> x = 0.
  (** zero is the smallest character (unsigned characters). *)
  Hypothesis ok_pos : forall x, ok x -> 0 <= x.
  Hypothesis ok0 : ok 0.

  Lemma shows_split : forall s l1 l2 i, shows s i (l1 ++ l2) ->
    shows s i l1 /\ shows s (i + Z.of_nat (length l1)) l2.
  Proof.
    intros s l1 l2 i H. split.
    - intros k x E. apply H. rewrite nth_error_app1; [exact E|]. apply nth_error_Some. congruence.
    - intros k x E. specialize (H (length l1 + k)%nat x).
      rewrite nth_error_app2 in H by lia. replace (length l1 + k - length l1)%nat with k in H by lia.
      rewrite <- (H E). f_equal. lia.
  Qed.

  Lemma ViewCompareZ_ok : forall a z text, wf a -> zstring z text -> ~ In 0 (view a) ->
    good (view a) -> good text -> Forall ok text ->
    exists r, ViewCompareZ sub up a z = Some r
      /\ says r (lex (map up (view a)) (map up text)).
  Proof.
    intros a z text Ha [Nz Sz] Na Ga Gt Ot. unfold ViewCompareZ.
    assert (La := view_length Z a Ha). rewrite <- La.
    assert (Gz : good (text ++ [0])).
    { apply Forall_app. split; [exact Gt|]. constructor; [|constructor].
      rewrite (proj2 (up0 0) eq_refl). exact ok0. }
    destruct (Nat.le_gt_cases (length (view a)) (length text)) as [Le|Gt'].
    - (* the view is not longer than the string *)
      set (n := length (view a)) in *.
      assert (Lf : length (firstn n (text ++ [0])) = n).
      { rewrite firstn_length, app_length. cbn. lia. }
      assert (Ef : firstn n (text ++ [0]) = firstn n text).
      { rewrite firstn_app. replace (n - length text)%nat with O by lia. cbn. apply app_nil_r. }
      assert (Lft : length (firstn n text) = n) by (rewrite <- Ef; exact Lf).
      assert (Sz' := Sz). rewrite <- (firstn_skipn n (text ++ [0])) in Sz'.
      apply shows_split in Sz'. rewrite Ef in Sz'. destruct Sz' as [S1 S2].
      assert (Sv : shows a 0 (view a)).
      { rewrite <- (firstn_all (view a)). apply shows_view, Ha. }
      destruct (cmp_loop_ok (view a) (firstn n text) a z 0) as [[E1 E2]|(r & E1 & E2)];
        try assumption; [symmetry; exact Lft|apply good_firstn, Gt| |].
      + fold n in E2. rewrite E2. rewrite Lft, Z.add_0_l in S2. rewrite Z.add_0_l.
        rewrite <- (firstn_skipn n text), map_app.
        rewrite <- (app_nil_r (map up (view a))). rewrite lex_app by exact E1.
        rewrite skipn_app in S2. replace (n - length text)%nat with O in S2 by lia. cbn [skipn] in S2.
        destruct (skipn n text) as [|c t] eqn:Q.
        * destruct (shows_cons _ _ _ _ S2) as [R _]. rewrite R. exists (sub 0 0).
          split; [reflexivity|]. exact (Hsub 0 0 ok0 ok0).
        * destruct (shows_cons _ _ _ _ S2) as [R _]. rewrite R. exists (sub 0 c).
          split; [reflexivity|].
          assert (Hin : In c text). { rewrite <- (firstn_skipn n text), Q. apply in_or_app. right. left. reflexivity. }
          assert (Oc : ok c) by (rewrite Forall_forall in Ot; apply Ot, Hin).
          assert (Sc := Hsub 0 c ok0 Oc). assert (Pc := ok_pos c Oc).
          destruct (Z.compare_spec 0 c) as [E0|L0|G0]; [|exact Sc|lia].
          subst c. contradiction.
      + fold n in E1. rewrite E1. exists r. split; [reflexivity|].
        destruct (E2 [] (skipn n text)) as [S _]. rewrite app_nil_r, firstn_skipn in S. exact S.
    - (* the view is longer: the terminator stops the loop *)
      assert (Ln : length (text ++ [0]) = S (length text)) by (rewrite app_length; cbn; lia).
      set (m := S (length text)) in *.
      assert (Split : forall q i, cmp_loop sub up a z i (m + q)
        = match cmp_loop sub up a z i m with
          | Some (inr j) => cmp_loop sub up a z j q
          | o => o end).
      { clear. intros q i. revert i. induction m as [|m' IH]; intros i; [reflexivity|].
        cbn [Nat.add cmp_loop]. destruct (rd a i); [|reflexivity]. destruct (rd z i); [|reflexivity].
        cbn zeta. destruct (negb _); [reflexivity|]. apply IH. }
      destruct (cmp_loop_ok (firstn m (view a)) (text ++ [0]) a z 0) as [[E1 E2]|(r & E1 & E2)];
        try assumption.
      + rewrite firstn_length. lia.
      + apply good_firstn, Ga.
      + apply shows_view, Ha.
      + exfalso. apply lex_eq in E1.
        assert (In 0 (map up (firstn m (view a)))).
        { rewrite E1, map_app. apply in_or_app. right. left. apply up0. reflexivity. }
        apply in_map_iff in H. destruct H as (c & Ec & Hc). apply (proj1 (up0 _)) in Ec. subst c.
        apply Na. rewrite <- (firstn_skipn m (view a)). apply in_or_app. left. exact Hc.
      + replace (length (view a)) with (m + (length (view a) - m))%nat by lia.
        rewrite Split. rewrite firstn_length, Nat.min_l in E1 by lia. rewrite E1.
        exists r. split; [reflexivity|].
        destruct (E2 (skipn m (view a)) []) as [S NE]. rewrite app_nil_r, firstn_skipn in S, NE.
        (* replacing the terminator by the end of the text does not change the order *)
        assert (G : forall l t, ~ In 0 l -> Forall (fun x => ok (up x)) l -> (length t < length l)%nat ->
          lex (map up l) (map up (t ++ [0])) = lex (map up l) (map up t)).
        { clear - up0 ok_pos. induction l as [|x l IH]; intros t Hn Hg Hl; [cbn in Hl; lia|].
          inversion Hg as [|? ? Hx Hg']; subst. destruct t as [|y t]; cbn [app map lex].
          - assert (up x <> 0). { intro C. apply (proj1 (up0 _)) in C. apply Hn. left. exact C. }
            rewrite (proj2 (up0 0) eq_refl). assert (P := ok_pos _ Hx).
            destruct (Z.compare_spec (up x) 0); try lia. reflexivity.
          - destruct (up x ?= up y); try reflexivity. apply IH.
            + intro C. apply Hn. right. exact C.
            + exact Hg'.
            + cbn in Hl. lia. }
        rewrite G in S by (try assumption; lia). exact S.
  Qed.

  Lemma zcmp_loop_ok : forall la lb a b i fuel, ~ In 0 la -> ~ In 0 lb -> good la -> good lb ->
    shows a i (la ++ [0]) -> shows b i (lb ++ [0]) -> (length la < fuel)%nat ->
    exists r, zcmp_loop sub up a b i fuel = Some r /\ says r (lex (map up la) (map up lb)).
  Proof.
    assert (U0 : up 0 = 0) by (apply up0; reflexivity).
    induction la as [|x la IH]; intros lb a b i fuel Na Nb Ga Gb Sa Sb Hf;
      (destruct fuel as [|fuel]; [lia|]); cbn [zcmp_loop].
    - destruct (shows_cons _ _ _ _ Sa) as [-> _].
      destruct lb as [|y lb].
      + destruct (shows_cons _ _ _ _ Sb) as [-> _]. cbn zeta. rewrite U0.
        assert (S := Hsub 0 0 ok0 ok0). cbn in S. rewrite S. cbn. exists 0. split; reflexivity.
      + cbn [app] in Sb. destruct (shows_cons _ _ _ _ Sb) as [-> _]. cbn zeta. rewrite U0.
        inversion Gb as [|? ? Oy _]; subst. assert (S := Hsub 0 (up y) ok0 Oy).
        assert (P := ok_pos _ Oy).
        assert (up y <> 0). { intro C. apply (proj1 (up0 _)) in C. subst. apply Nb. left. reflexivity. }
        destruct (Z.compare_spec 0 (up y)); try lia. cbn in S.
        destruct (Z.eqb_spec (sub 0 (up y)) 0); [lia|]. cbn [negb].
        exists (sub 0 (up y)). split; [reflexivity|]. cbn. exact S.
    - cbn [app] in Sa. destruct (shows_cons _ _ _ _ Sa) as [-> Sa'].
      inversion Ga as [|? ? Ox Ga']; subst. assert (P := ok_pos _ Ox).
      assert (X0 : x <> 0) by (intro C; subst; apply Na; left; reflexivity).
      assert (UX : up x <> 0) by (intro C; apply (proj1 (up0 _)) in C; contradiction).
      destruct lb as [|y lb].
      + destruct (shows_cons _ _ _ _ Sb) as [-> _]. cbn zeta. rewrite U0.
        assert (S := Hsub (up x) 0 Ox ok0). destruct (Z.compare_spec (up x) 0); try lia. cbn in S.
        destruct (Z.eqb_spec (sub (up x) 0) 0); [lia|]. cbn [negb].
        exists (sub (up x) 0). split; [reflexivity|]. cbn. exact S.
      + cbn [app] in Sb. destruct (shows_cons _ _ _ _ Sb) as [-> Sb']. cbn zeta.
        inversion Gb as [|? ? Oy Gb']; subst.
        assert (S := Hsub (up x) (up y) Ox Oy).
        destruct (Z.eqb_spec (sub (up x) (up y)) 0) as [E|NE]; cbn [negb].
        * destruct (Z.eqb_spec x 0); [contradiction|].
          destruct (IH lb a b (i + 1) fuel) as (r & E1 & E2); try assumption.
          { intro C. apply Na. right. exact C. } { intro C. apply Nb. right. exact C. }
          { cbn in Hf. lia. }
          exists r. split; [exact E1|]. cbn [map lex].
          destruct (up x ?= up y); cbn in S; try lia. exact E2.
        * exists (sub (up x) (up y)). split; [reflexivity|]. cbn [map lex].
          destruct (up x ?= up y); cbn in S |- *; lia.
  Qed.
End L.

(** Case folding of the specification: [A-Z] to [a-z]. *)
Definition lower (c : Z) : Z := if (65 <=? c) && (c <=? 90) then c + 32 else c.

Lemma upper_lower : forall x y, CharUpperAsASCII x = CharUpperAsASCII y <-> lower x = lower y.
Proof.
  intros x y. unfold CharUpperAsASCII, lower.
  destruct ((97 <=? x) && (x <=? 122)) eqn:E1, ((97 <=? y) && (y <=? 122)) eqn:E2,
           ((65 <=? x) && (x <=? 90)) eqn:E3, ((65 <=? y) && (y <=? 90)) eqn:E4; lia.
Qed.

Lemma map_upper_lower : forall l m,
  map CharUpperAsASCII l = map CharUpperAsASCII m <-> map lower l = map lower m.
Proof.
  induction l as [|x l IH]; intros [|y m]; cbn [map]; split; intro H; try discriminate; try reflexivity;
    injection H as H1 H2; f_equal; try (apply upper_lower; exact H1); apply IH; exact H2.
Qed.

Lemma map_id' : forall l : list Z, map (fun c => c) l = l.
Proof. induction l as [|x l IH]; [reflexivity|]. cbn. rewrite IH. reflexivity. Qed.

Lemma Forall_True : forall (l : list Z), Forall (fun _ => True) l.
Proof. intros l. apply Forall_forall. intros; exact I. Qed.

Definition idc (c : Z) : Z := c.
Lemma map_idc : forall l : list Z, map idc l = l.
Proof. exact map_id'. Qed.

(** ** C24 *)
(** 8- and 16-bit characters: the result has the sign of the lexicographic comparison,
    for every pair of views. *)
Theorem C24_Compare_small_chars : forall a b : span Z, wf a -> wf b ->
  exists r, ViewCompare sub_int idc a b = Some r /\ says r (lex (view a) (view b)).
Proof.
  intros a b Ha Hb.
  destruct (ViewCompare_ok sub_int idc (fun _ => True) sub_int_ok a b Ha Hb) as (r & E & S);
    try apply Forall_True.
  rewrite !map_idc in S. eauto.
Qed.

(** [char32_t], for all characters below 2^31 (all of Unicode).  Full claim: for every
    32-bit character; refuted below. *)
Theorem C24_Compare_char32_partial : forall a b : span Z, wf a -> wf b ->
  Forall (fun c => 0 <= c < 2147483648) (view a) -> Forall (fun c => 0 <= c < 2147483648) (view b) ->
  exists r, ViewCompare sub_u32 idc a b = Some r /\ says r (lex (view a) (view b)).
Proof.
  intros a b Ha Hb Fa Fb.
  destruct (ViewCompare_ok sub_u32 idc _ sub_u32_ok a b Ha Hb Fa Fb) as (r & E & S).
  rewrite !map_idc in S. eauto.
Qed.

(** Units 2^31 apart compare "less" in both directions. *)
Theorem C24_Compare_char32_refuted : exists a b : span Z, wf a /\ wf b
  /\ Forall is_u32 (view a) /\ Forall is_u32 (view b)
  /\ exists r q, ViewCompare sub_u32 idc a b = Some r /\ ViewCompare sub_u32 idc b a = Some q
     /\ r < 0 /\ q < 0.
Proof.
  exists (mkspan [0] 0 1), (mkspan [2147483648] 0 1).
  unfold wf, W63. cbn. repeat split; try lia;
    try (repeat constructor; unfold W32; lia).
  exists (-2147483648), (-2147483648). repeat split; try reflexivity; lia.
Qed.

(** The comparison is a total order: zero exactly for equal texts, antisymmetric, transitive. *)
Theorem C24_total_order : forall a b c : span Z, wf a -> wf b -> wf c ->
  exists rab rba rbc rac,
    ViewCompare sub_int idc a b = Some rab /\ ViewCompare sub_int idc b a = Some rba
    /\ ViewCompare sub_int idc b c = Some rbc /\ ViewCompare sub_int idc a c = Some rac
    /\ (rab = 0 <-> view a = view b)
    /\ (rab < 0 <-> 0 < rba)
    /\ (rab <= 0 -> rbc <= 0 -> rac <= 0)
    /\ (rab < 0 -> rbc < 0 -> rac < 0).
Proof.
  intros a b c Ha Hb Hc.
  destruct (C24_Compare_small_chars a b Ha Hb) as (rab & E1 & S1).
  destruct (C24_Compare_small_chars b a Hb Ha) as (rba & E2 & S2).
  destruct (C24_Compare_small_chars b c Hb Hc) as (rbc & E3 & S3).
  destruct (C24_Compare_small_chars a c Ha Hc) as (rac & E4 & S4).
  exists rab, rba, rbc, rac. do 4 (split; [assumption|]).
  assert (EQ := lex_eq (view a) (view b)). assert (AS := lex_antisym (view a) (view b)).
  assert (T := lex_trans (view a) (view b) (view c)).
  assert (EQ2 := lex_eq (view b) (view c)).
  rewrite AS in S2. clear AS.
  destruct (lex (view a) (view b)) eqn:L1; cbn in S1, S2.
  - assert (V : view a = view b) by (apply EQ; reflexivity).
    rewrite V in S4. split; [tauto|]. split; [lia|].
    destruct (lex (view b) (view c)); cbn in S3, S4; lia.
  - split; [split; [lia|]|].
    { intros C. apply EQ in C. discriminate. }
    split; [lia|]. destruct (lex (view b) (view c)) eqn:L2; cbn in S3.
    + assert (V : view b = view c) by (apply EQ2; reflexivity). rewrite <- V, L1 in S4. cbn in S4. lia.
    + rewrite (T eq_refl eq_refl) in S4. cbn in S4. lia.
    + lia.
  - split; [split; [lia|]|].
    { intros C. apply EQ in C. discriminate. }
    lia.
Qed.

(** The counted characters alone decide: the blocks around them play no role. *)
Theorem C24_only_counted : forall a b a' b' : span Z, wf a -> wf b -> wf a' -> wf b' ->
  view a = view a' -> view b = view b' ->
  exists r r', ViewCompare sub_int idc a b = Some r /\ ViewCompare sub_int idc a' b' = Some r'
    /\ Z.sgn r = Z.sgn r'.
Proof.
  intros a b a' b' Ha Hb Ha' Hb' Ea Eb.
  destruct (C24_Compare_small_chars a b Ha Hb) as (r & E1 & S1).
  destruct (C24_Compare_small_chars a' b' Ha' Hb') as (r' & E2 & S2).
  exists r, r'. split; [exact E1|]. split; [exact E2|]. rewrite <- Ea, <- Eb in S2.
  destruct (lex (view a) (view b)); cbn in S1, S2; lia.
Qed.

(** Comparison with a NUL-terminated string (unsigned characters, the view holds no NUL).
    Full claim: for every view; with an embedded NUL the code reads past the terminator
    (refuted below). *)
Theorem C24_Compare_zstring_partial : forall (a z : span Z) text, wf a -> zstring z text ->
  ~ In 0 (view a) -> Forall (fun c => 0 <= c) (view a) -> Forall (fun c => 0 <= c) text ->
  exists r, ViewCompareZ sub_int idc a z = Some r /\ says r (lex (view a) text).
Proof.
  intros a z text Ha Hz Hn Fa Ft.
  destruct (ViewCompareZ_ok sub_int idc (fun c => 0 <= c)) with (a := a) (z := z) (text := text)
    as (r & E & S); try assumption; try lia.
  - intros x y _ _. apply sub_int_ok; exact I.
  - intros x. unfold idc. tauto.
  - rewrite !map_idc in S. eauto.
Qed.

(** A view with an embedded NUL that agrees with the string up to its terminator makes the
    loop read behind the terminator. *)
Theorem C24_Compare_zstring_refuted : exists (a z : span Z) text, wf a /\ zstring z text
  /\ Forall (fun c => 0 <= c < 65536) (view a) /\ Forall (fun c => 0 <= c < 65536) text
  /\ ViewCompareZ sub_int idc a z = None.
Proof.
  exists (mkspan [97; 0; 98] 0 3), (mkspan [97; 0] 0 2), [97].
  unfold wf, W63. cbn. repeat split; try lia; try (repeat constructor; lia).
  - intros [C|[]]. discriminate.
  - intros k x E. destruct k as [|[|k]]; cbn in E; [injection E as <-; reflexivity|injection E as <-; reflexivity|].
    destruct k; discriminate.
Qed.

(** Two NUL-terminated strings. *)
Theorem C24_StringCompare : forall (a b : span Z) ta tb fuel, zstring a ta -> zstring b tb ->
  Forall (fun c => 0 <= c) ta -> Forall (fun c => 0 <= c) tb -> (length ta < fuel)%nat ->
  exists r, StringCompareZ sub_int idc a b fuel = Some r /\ says r (lex ta tb).
Proof.
  intros a b ta tb fuel [Na Sa] [Nb Sb] Fa Fb Hf.
  destruct (zcmp_loop_ok sub_int idc (fun c => 0 <= c)) with (la := ta) (lb := tb) (a := a) (b := b)
    (i := 0) (fuel := fuel) as (r & E & S); try assumption; try lia.
  - intros x y _ _. apply sub_int_ok; exact I.
  - intros x. unfold idc. tauto.
  - rewrite !map_idc in S. exists r. split; [exact E|exact S].
Qed.

Lemma eq_loop_ok : forall la lb a b i, length la = length lb ->
  shows a i la -> shows b i lb ->
  exists j, eq_loop a b i (length la) = Some (i + Z.of_nat j) /\ (j <= length la)%nat
    /\ firstn j la = firstn j lb
    /\ forall x y, nth_error la j = Some x -> nth_error lb j = Some y -> x <> y.
Proof.
  induction la as [|x la IH]; intros [|y lb] a b i L Sa Sb; try discriminate.
  - exists O. cbn. rewrite Z.add_0_r. repeat split; try lia. intros x y E. discriminate.
  - cbn [length eq_loop]. apply shows_cons in Sa, Sb. destruct Sa as [-> Sa], Sb as [-> Sb].
    destruct (Z.eqb_spec x y) as [->|NE].
    + cbn in L. destruct (IH lb a b (i + 1)) as (j & E & B & F & D); try assumption; [lia|].
      exists (S j). rewrite E. split; [f_equal; lia|]. split; [lia|]. split; [cbn; congruence|exact D].
    + exists O. rewrite Z.add_0_r. split; [reflexivity|]. split; [lia|]. split; [reflexivity|].
      intros x' y' E1 E2. cbn in E1, E2. congruence.
Qed.

(** The generic counted comparison (used for [char32_t]), when the counted texts differ.
    Full claim: also when they are equal, where it must be 0; refuted below. *)
Theorem C24_StringCompare_counted_partial : forall a b : span Z, wf a -> wf b ->
  sp_len a = sp_len b -> view a <> view b ->
  Forall (fun c => 0 <= c < 2147483648) (view a) -> Forall (fun c => 0 <= c < 2147483648) (view b) ->
  exists r, StringCompareN sub_u32 a b (sp_len a) = Some r /\ says r (lex (view a) (view b)).
Proof.
  intros a b Ha Hb L NE Fa Fb. unfold StringCompareN.
  assert (La := view_length Z a Ha). assert (Lb := view_length Z b Hb).
  destruct (Z.eqb_spec (sp_len a) 0) as [E0|N0].
  { exfalso. apply NE. rewrite (no_elements Z a Ha E0), (no_elements Z b Hb) by lia. reflexivity. }
  rewrite <- La.
  assert (Sv : forall s : span Z, wf s -> shows s 0 (view s)).
  { intros s Hs. rewrite <- (firstn_all (view s)). apply shows_view, Hs. }
  destruct (eq_loop_ok (view a) (view b) a b 0) as (j & -> & B & F & D); try (apply Sv; assumption); [congruence|].
  destruct (Nat.eq_dec j (length (view a))) as [->|Nj].
  { exfalso. apply NE. rewrite firstn_all in F. rewrite F, firstn_all2; [reflexivity|lia]. }
  destruct (rd_some Z a (Z.of_nat j) Ha) as (x & Rx & Ex); [lia|].
  destruct (rd_some Z b (Z.of_nat j) Hb) as (y & Ry & Ey); [lia|].
  rewrite Z.add_0_l, Rx, Ry. rewrite Nat2Z.id in Ex, Ey. exists (sub_u32 x y). split; [reflexivity|].
  assert (Ox : 0 <= x < 2147483648).
  { rewrite Forall_forall in Fa. apply Fa. apply nth_error_In in Ex. exact Ex. }
  assert (Oy : 0 <= y < 2147483648).
  { rewrite Forall_forall in Fb. apply Fb. apply nth_error_In in Ey. exact Ey. }
  assert (S := sub_u32_ok x y Ox Oy). assert (Dxy := D x y Ex Ey).
  rewrite <- (firstn_skipn j (view a)), <- (firstn_skipn j (view b)), F.
  rewrite lex_app by (apply lex_eq; reflexivity).
  destruct (skipn j (view a)) as [|x' ta] eqn:Qa.
  { apply (f_equal (@length Z)) in Qa. rewrite skipn_length in Qa. cbn in Qa. lia. }
  destruct (skipn j (view b)) as [|y' tb] eqn:Qb.
  { apply (f_equal (@length Z)) in Qb. rewrite skipn_length in Qb. cbn in Qb. lia. }
  assert (x' = x).
  { assert (nth_error (skipn j (view a)) 0 = Some x) by (rewrite nth_error_skipn, Nat.add_0_r; exact Ex).
    rewrite Qa in H. cbn in H. congruence. }
  assert (y' = y).
  { assert (nth_error (skipn j (view b)) 0 = Some y) by (rewrite nth_error_skipn, Nat.add_0_r; exact Ey).
    rewrite Qb in H0. cbn in H0. congruence. }
  subst x' y'. cbn [lex]. destruct (x ?= y) eqn:Q; [|exact S|exact S].
  apply Z.compare_eq_iff in Q. contradiction.
Qed.

(** Equal counted texts: the answer depends on the characters behind them, or the read
    leaves the block. *)
Theorem C24_StringCompare_counted_refuted :
  (exists a b : span Z, wf a /\ wf b /\ view a = view b /\ sp_len a = 2
     /\ exists r, StringCompareN sub_u32 a b (sp_len a) = Some r /\ r <> 0)
  /\ (exists a b : span Z, wf a /\ wf b /\ view a = view b /\ sp_len a = 2
     /\ StringCompareN sub_u32 a b (sp_len a) = None).
Proof.
  split.
  - exists (mkspan [97; 98; 99] 0 2), (mkspan [97; 98; 100] 0 2). unfold wf, W63; cbn.
    repeat split; try lia. exists (-1). split; [reflexivity|lia].
  - exists (mkspan [97; 98] 0 2), (mkspan [97; 98] 0 2). unfold wf, W63; cbn.
    repeat split; try lia.
Qed.

(** ** C25 *)
Theorem C25_CompareI : forall a b : span Z, wf a -> wf b ->
  exists r, ViewCompare sub_int CharUpperAsASCII a b = Some r
    /\ (r = 0 <-> map lower (view a) = map lower (view b))
    /\ says r (lex (map CharUpperAsASCII (view a)) (map CharUpperAsASCII (view b))).
Proof.
  intros a b Ha Hb.
  destruct (ViewCompare_ok sub_int CharUpperAsASCII (fun _ => True) sub_int_ok a b Ha Hb) as (r & E & S);
    try apply Forall_True.
  exists r. split; [exact E|]. split; [|exact S].
  rewrite <- map_upper_lower, <- lex_eq.
  destruct (lex (map CharUpperAsASCII (view a)) (map CharUpperAsASCII (view b))); cbn in S;
    split; intro H; try reflexivity; try lia; try discriminate.
Qed.

(** [char32_t] characters below 2^31 (in particular all of Unicode). *)
Theorem C25_CompareI_char32 : forall a b : span Z, wf a -> wf b ->
  Forall (fun c => 0 <= c < 2147483648) (view a) -> Forall (fun c => 0 <= c < 2147483648) (view b) ->
  exists r, ViewCompare sub_u32 CharUpperAsASCII a b = Some r
    /\ (r = 0 <-> map lower (view a) = map lower (view b))
    /\ says r (lex (map CharUpperAsASCII (view a)) (map CharUpperAsASCII (view b))).
Proof.
  intros a b Ha Hb Fa Fb.
  assert (G : forall l, Forall (fun c => 0 <= c < 2147483648) l ->
    Forall (fun c => 0 <= CharUpperAsASCII c < 2147483648) l).
  { intros l. apply Forall_impl. intros c Hc. unfold CharUpperAsASCII.
    destruct ((97 <=? c) && (c <=? 122)) eqn:E; lia. }
  destruct (ViewCompare_ok sub_u32 CharUpperAsASCII _ sub_u32_ok a b Ha Hb) as (r & E & S);
    try (apply G; assumption).
  exists r. split; [exact E|]. split; [|exact S].
  rewrite <- map_upper_lower, <- lex_eq.
  destruct (lex (map CharUpperAsASCII (view a)) (map CharUpperAsASCII (view b))); cbn in S;
    split; intro H; try reflexivity; try lia; try discriminate.
Qed.

(** The free function on two NUL-terminated strings. *)
Theorem C25_StringCompareIgnore : forall (a b : span Z) ta tb fuel, zstring a ta -> zstring b tb ->
  Forall (fun c => 0 <= c) ta -> Forall (fun c => 0 <= c) tb -> (length ta < fuel)%nat ->
  exists r, StringCompareZ sub_int CharUpperAsASCII a b fuel = Some r
    /\ (r = 0 <-> map lower ta = map lower tb)
    /\ says r (lex (map CharUpperAsASCII ta) (map CharUpperAsASCII tb)).
Proof.
  intros a b ta tb fuel [Na Sa] [Nb Sb] Fa Fb Hf.
  assert (G : forall l, Forall (fun c => 0 <= c) l -> Forall (fun c => 0 <= CharUpperAsASCII c) l).
  { intros l. apply Forall_impl. intros c Hc. unfold CharUpperAsASCII.
    destruct ((97 <=? c) && (c <=? 122)) eqn:E; lia. }
  destruct (zcmp_loop_ok sub_int CharUpperAsASCII (fun c => 0 <= c)) with (la := ta) (lb := tb)
    (a := a) (b := b) (i := 0) (fuel := fuel) as (r & E & S); try assumption; try lia;
    try (apply G; assumption).
  - intros x y _ _. apply sub_int_ok; exact I.
  - intros x. unfold CharUpperAsASCII. destruct ((97 <=? x) && (x <=? 122)) eqn:Q; lia.
  - exists r. split; [exact E|]. split; [|exact S]. rewrite <- map_upper_lower, <- lex_eq.
    destruct (lex (map CharUpperAsASCII ta) (map CharUpperAsASCII tb)); cbn in S;
      split; intro H; try reflexivity; try lia; try discriminate.
Qed.

(** The counted free function. *)
Theorem C25_StringCompareIgnore_counted : forall a b : span Z, wf a -> wf b -> sp_len a = sp_len b ->
  exists r, StringCompareIN sub_int CharUpperAsASCII a b (sp_len a) = Some r
    /\ (r = 0 <-> map lower (view a) = map lower (view b))
    /\ says r (lex (map CharUpperAsASCII (view a)) (map CharUpperAsASCII (view b))).
Proof.
  intros a b Ha Hb L. unfold StringCompareIN.
  assert (La := view_length Z a Ha). assert (Lb := view_length Z b Hb). rewrite <- La.
  assert (Sv : forall s : span Z, wf s -> shows s 0 (view s)).
  { intros s Hs. rewrite <- (firstn_all (view s)). apply shows_view, Hs. }
  destruct (cmp_loop_ok sub_int CharUpperAsASCII (fun _ => True) sub_int_ok (view a) (view b) a b 0)
    as [[E1 E2]|(r & E1 & E2)]; try (apply Sv; assumption); try apply Forall_True; [congruence| |].
  - rewrite E2. exists 0. split; [reflexivity|]. rewrite E1. cbn. split; [|reflexivity].
    split; [|reflexivity]. intros _. apply map_upper_lower, lex_eq, E1.
  - rewrite E1. exists r. split; [reflexivity|]. destruct (E2 [] []) as [S NE].
    rewrite !app_nil_r in S, NE. split; [|exact S].
    rewrite <- map_upper_lower, <- lex_eq.
    destruct (lex (map CharUpperAsASCII (view a)) (map CharUpperAsASCII (view b))); cbn in S;
      split; intro H; try reflexivity; try lia; try discriminate.
Qed.

(** Instances. *)
Definition t1 : span Z := mkspan [104; 105; 33] 0 2.       (* "hi" in "hi!" *)
Definition t2 : span Z := mkspan [72; 73; 0] 0 2.          (* "HI" *)
Definition t3 : span Z := mkspan [1; 104; 105; 106] 1 3.   (* "hij" *)
Example ex_wf : wf t1 /\ wf t2 /\ wf t3. Proof. unfold wf, W63; cbn; lia. Qed.
Example ex_cmp : ViewCompare sub_int idc t1 t2 = Some 32 /\ ViewCompare sub_int idc t1 t3 = Some (-1)
  /\ ViewCompare sub_int CharUpperAsASCII t1 t2 = Some 0 /\ ViewCompare sub_u32 idc t2 t1 = Some (-32)
  /\ StringCompareIN sub_int CharUpperAsASCII t1 t2 2 = Some 0
  /\ StringCompareN sub_u32 t1 t2 2 = Some 32.
Proof. repeat split; reflexivity. Qed.
Example ex_z : zstring t2 [72; 73] /\ ViewCompareZ sub_int idc t1 t2 = Some 32
  /\ StringCompareZ sub_int CharUpperAsASCII t2 (mkspan [104; 73; 0] 0 3) 9 = Some 0.
Proof.
  repeat split; try reflexivity.
  - intros [C|[C|[]]]; discriminate.
  - intros k x E. destruct k as [|[|[|k]]]; cbn in E; try (injection E as <-; reflexivity).
    destruct k; discriminate.
Qed.

Print Assumptions C24_Compare_small_chars.
Print Assumptions C24_Compare_char32_partial.
Print Assumptions C24_Compare_char32_refuted.
Print Assumptions C24_total_order.
Print Assumptions C24_only_counted.
Print Assumptions C24_Compare_zstring_partial.
Print Assumptions C24_Compare_zstring_refuted.
Print Assumptions C24_StringCompare.
Print Assumptions C24_StringCompare_counted_partial.
Print Assumptions C24_StringCompare_counted_refuted.
Print Assumptions C25_CompareI.
Print Assumptions C25_CompareI_char32.
Print Assumptions C25_StringCompareIgnore.
Print Assumptions C25_StringCompareIgnore_counted.
