(** C145: the string forms of the path functions give the texts of the view forms. *)
From Coq Require Import ZArith Lia Bool List.
From Verif Require Import Word PathModel PathProofs PathStrModel.
Import ListNotations.
Local Open Scope Z_scope.

(** * Specification *)

(** The characters of the string lie at addresses that exist, not at address 0. *)
Definition placed (b : Z) (p : list Z) : Prop := 0 < b /\ b + Z.of_nat (length p) < 2 ^ 62.

(** A view of characters of the string; the default view is empty and null. *)
Definition inside (b : Z) (p : list Z) (v : view) : Prop :=
  exists o : nat, vp v = At (b + Z.of_nat o) /\ (o + vn v <= length p)%nat.
Definition empty_null (v : view) : Prop := vp v = Null /\ vn v = 0%nat.

(** * Proofs *)
Section Proofs.
  Variable b : Z.
  Variable p : list Z.

  Lemma u64_small : forall x, 0 <= x < 2 ^ 62 -> u64 x = x.
  Proof. intros x H. apply u64_id. unfold is_u64, W64. change (2 ^ 62) with 4611686018427387904 in H. lia. Qed.

  Lemma full_inside : inside b p (full b p).
  Proof. exists 0%nat. cbn. split; [f_equal; lia | lia]. Qed.

  Lemma text_full : text b p (full b p) = p.
  Proof. unfold text. cbn. rewrite Z.sub_diag. cbn [Z.to_nat skipn]. apply firstn_all. Qed.

  Lemma text_at : forall o n, text b p (View (At (b + Z.of_nat o)) n) = firstn n (skipn o p).
  Proof. intros o n. unfold text. cbn. replace (b + Z.of_nat o - b) with (Z.of_nat o) by lia. rewrite Nat2Z.id. reflexivity. Qed.

  Lemma text_length : forall v, inside b p v -> length (text b p v) = vn v.
  Proof.
    intros [q n] (o & E & L). cbn in *. subst q. rewrite text_at, firstn_length, skipn_length. lia.
  Qed.

  Lemma sub_inside : forall v s l, inside b p v -> inside b p (Substring v s l).
  Proof.
    intros [q n] s l (o & E & L). cbn [vp vn] in *. subst q. unfold Substring. cbn [vp vn plus].
    destruct (Nat.ltb_spec s n) as [H | H].
    - exists (o + s)%nat. cbn [vp vn]. split; [f_equal; lia | lia].
    - exists (o + n)%nat. cbn [vp vn]. split; [f_equal; lia | lia].
  Qed.

  Lemma skipn_add : forall (l : list Z) x y, skipn x (skipn y l) = skipn (y + x) l.
  Proof. induction l as [|c l IH]; intros x [|y]; cbn [skipn Nat.add]; try reflexivity; [apply skipn_nil | apply IH]. Qed.

  Lemma sub_text : forall v s l, inside b p v -> text b p (Substring v s l) = firstn l (skipn s (text b p v)).
  Proof.
    intros [q n] s l (o & E & L). cbn [vp vn] in *. subst q. rewrite text_at.
    unfold Substring. cbn [vp vn plus].
    destruct (Nat.ltb_spec s n) as [H | H].
    - replace (b + Z.of_nat o + Z.of_nat s) with (b + Z.of_nat (o + s)) by lia. rewrite text_at.
      rewrite skipn_firstn_comm, firstn_firstn, skipn_add.
      f_equal. lia.
    - replace (b + Z.of_nat o + Z.of_nat n) with (b + Z.of_nat (o + n)) by lia. rewrite text_at.
      cbn [firstn]. symmetry. apply length_zero_iff_nil. rewrite firstn_length, skipn_length, firstn_length. lia.
  Qed.

  Lemma cut_inside : forall strict v, placed b p -> inside b p v -> cut strict b p v = Some (text b p v).
  Proof.
    intros strict [q n] PL (o & E & L). cbn [vp vn] in *. subst q. destruct PL as [B1 B2].
    rewrite text_at. unfold cut, vend, full, diff. cbn [vp vn plus]. f_equal.
    replace (b + Z.of_nat o - b) with (Z.of_nat o) by lia.
    replace (b + Z.of_nat (length p) - (b + Z.of_nat o + Z.of_nat n)) with (Z.of_nat (length p - o - n)) by lia.
    rewrite !u64_small by lia. unfold Slice. rewrite u64_small by lia.
    destruct (Z.leb_spec (Z.of_nat (length p)) (Z.of_nat o + Z.of_nat (length p - o - n))) as [H | H].
    - assert (n = 0)%nat by lia. subst n. reflexivity.
    - assert (N : (0 < n)%nat) by lia.
      assert (E : (if Z.of_nat (length p - o - n) =? 0 then p
                   else Remove p (u64 (Z.of_nat (length p) - Z.of_nat (length p - o - n))) (Z.of_nat (length p - o - n)))
                  = firstn (o + n) p).
      { destruct (Z.eqb_spec (Z.of_nat (length p - o - n)) 0) as [Z0 | Z0].
        - rewrite firstn_all2 by lia. reflexivity.
        - rewrite u64_small by lia. unfold Remove.
          destruct (Z.leb_spec (Z.of_nat (length p)) (Z.of_nat (length p) - Z.of_nat (length p - o - n))); [lia|].
          rewrite (skipn_all2 (n := Z.to_nat _)) by lia. rewrite app_nil_r. f_equal. lia. }
      rewrite E.
      destruct (Z.eqb_spec (Z.of_nat o) 0) as [O | O].
      + assert (o = 0)%nat by lia. subst o. reflexivity.
      + unfold Remove. assert (F : length (firstn (o + n) p) = (o + n)%nat) by (rewrite firstn_length; lia).
        rewrite F. destruct (Z.leb_spec (Z.of_nat (o + n)) 0); [lia|].
        rewrite Z.min_l by lia. cbn [Z.to_nat firstn app]. rewrite Z.add_0_l, Nat2Z.id.
        rewrite skipn_firstn_comm. f_equal. lia.
  Qed.

  (** The null view: the addresses wrap round, so that the sum is the length again. *)
  Lemma cut_null : forall v, placed b p -> empty_null v -> p <> [] -> cut false b p v = Some [] /\ cut true b p v = None.
  Proof.
    intros [q n] PL [E N] NE. cbn in E, N. subst q n. unfold cut, vend, full, diff. cbn [vp vn plus addr].
    split; [|reflexivity]. f_equal. unfold Slice, u64.
    rewrite <- Zplus_mod. replace (0 - b + (b + Z.of_nat (length p) - 0)) with (Z.of_nat (length p)) by lia.
    rewrite Z.leb_refl || idtac. destruct PL as [B1 B2].
    rewrite Z.mod_small by (unfold W64; change (2 ^ 62) with 4611686018427387904 in B2; lia).
    rewrite Z.leb_refl. reflexivity.
  Qed.

  Lemma form_ok : forall strict v, placed b p -> inside b p v \/ empty_null v -> form strict b p v = Some (text b p v).
  Proof.
    intros strict v PL H. unfold form. destruct (Nat.eqb_spec (vn v) 0) as [Z0 | N].
    - f_equal. destruct H as [H | [H1 H2]].
      + symmetry. apply length_zero_iff_nil. rewrite text_length; auto.
      + unfold text. rewrite H1. reflexivity.
    - destruct H as [H | [_ H2]]; [apply cut_inside; assumption | contradiction].
  Qed.

  Variable win : bool.

  Lemma root_view : (inside b p (GetPathRoot_v win b p) \/ empty_null (GetPathRoot_v win b p)) /\
    text b p (GetPathRoot_v win b p) = GetPathRoot win p /\ vn (GetPathRoot_v win b p) = length (GetPathRoot win p).
  Proof.
    unfold GetPathRoot_v. rewrite GetPathRoot_length. unfold GetPathRoot.
    destruct (Nat.eqb_spec (root_len win p) 0) as [Z0 | N].
    - rewrite Z0. split; [right; split; reflexivity|]. split; reflexivity.
    - pose proof (root_len_le win p) as L. split; [left; apply sub_inside, full_inside|].
      rewrite sub_text by apply full_inside. rewrite text_full. cbn [skipn]. split; [reflexivity|].
      unfold Substring, full. cbn [vn vp]. destruct (Nat.ltb_spec 0 (length p)); cbn [vn]; lia.
  Qed.

  Lemma name_view : (inside b p (GetFileName_v win b p) \/ empty_null (GetFileName_v win b p)) /\
    text b p (GetFileName_v win b p) = GetFileName win p.
  Proof.
    destruct root_view as (_ & _ & V). unfold GetFileName_v, GetFileName. rewrite V.
    destruct p as [|c r] eqn:P; [split; [right; split; reflexivity | reflexivity]|]. rewrite <- P in *. clear P c r.
    destruct (LastIndex (sep win) p (length (GetPathRoot win p))) as [k|].
    - split; [left; apply sub_inside, full_inside|]. rewrite sub_text by apply full_inside.
      rewrite text_full. apply firstn_all2. rewrite skipn_length. lia.
    - split; [left; apply full_inside | apply text_full].
  Qed.

  Lemma name_length : length (GetFileName win p) = vn (GetFileName_v win b p).
  Proof.
    destruct name_view as [[I | [E1 E2]] T].
    - rewrite <- T. apply text_length, I.
    - rewrite <- T. unfold text. rewrite E1, E2. reflexivity.
  Qed.

  Lemma tail_view : forall k,
    inside b p (GetFileName_v win b p) ->
    inside b p (Substring (GetFileName_v win b p) k (vn (GetFileName_v win b p))) /\
    text b p (Substring (GetFileName_v win b p) k (vn (GetFileName_v win b p))) = skipn k (GetFileName win p).
  Proof.
    intros k I. split; [apply sub_inside, I|]. rewrite sub_text by exact I.
    rewrite (proj2 name_view). apply firstn_all2. rewrite skipn_length, name_length. lia.
  Qed.

  Lemma dot_inside : forall k, LastIndex (is 46) (GetFileName win p) 0 = Some k -> inside b p (GetFileName_v win b p).
  Proof.
    intros k K. destruct name_view as [[I | [E1 E2]] T]; [exact I|]. exfalso.
    unfold text in T. rewrite E1 in T. rewrite <- T in K. discriminate K.
  Qed.

  Lemma ext_view : (inside b p (GetExtension_v win b p) \/ empty_null (GetExtension_v win b p)) /\
    text b p (GetExtension_v win b p) = GetExtension win p.
  Proof.
    unfold GetExtension_v, GetExtension. rewrite (proj2 name_view).
    destruct (LastIndex (is 46) (GetFileName win p) 0) as [k|] eqn:K.
    - destruct (tail_view k (dot_inside k K)) as [I T]. auto.
    - split; [right; split; reflexivity | reflexivity].
  Qed.

  Lemma noext_view : (inside b p (GetFileNameWithoutExtension_v win b p) \/ empty_null (GetFileNameWithoutExtension_v win b p)) /\
    text b p (GetFileNameWithoutExtension_v win b p) = GetFileNameWithoutExtension win p.
  Proof.
    unfold GetFileNameWithoutExtension_v, GetFileNameWithoutExtension. rewrite (proj2 name_view).
    destruct (LastIndex (is 46) (GetFileName win p) 0) as [k|] eqn:K.
    - destruct (tail_view k (dot_inside k K)) as [I T]. auto.
    - apply name_view.
  Qed.

  (** The null view remains exactly when a name without root has no separator. *)
  Definition bare : Prop := p <> [] /\ root_len win p = 0%nat /\ LastIndex (sep win) p 0 = None.

  Lemma spec_view :
    text b p (fst (RemoveFileSpec_v win b p)) = fst (RemoveFileSpec win p) /\
    snd (RemoveFileSpec_v win b p) = snd (RemoveFileSpec win p) /\
    ((inside b p (fst (RemoveFileSpec_v win b p)) /\ ~ bare) \/
     (empty_null (fst (RemoveFileSpec_v win b p)) /\ bare /\ snd (RemoveFileSpec win p) = true)).
  Proof.
    destruct root_view as (R & T & V). rewrite GetPathRoot_length in V. unfold RemoveFileSpec_v, RemoveFileSpec, bare.
    destruct p as [|c r] eqn:P.
    { cbn. split; [|split; [reflexivity|left; split; [|intros [N _]; contradiction]]].
      - reflexivity.
      - exists 0%nat. cbn. split; [f_equal; lia|lia]. }
    rewrite <- P in *. assert (NE : p <> []) by (rewrite P; discriminate). clear P c r.
    rewrite !GetPathRoot_length, V. destruct (Nat.eqb_spec (root_len win p) (length p)) as [E | N].
    - cbn [fst snd]. rewrite text_full. split; [reflexivity|]. split; [reflexivity|]. left.
      split; [apply full_inside|]. intros (_ & Z0 & _). apply NE, length_zero_iff_nil. congruence.
    - destruct (LastIndex (sep win) p (root_len win p)) as [k|] eqn:K; cbn [fst snd].
      + rewrite sub_text by apply full_inside. rewrite text_full. split; [reflexivity|]. split; [reflexivity|].
        left. split; [apply sub_inside, full_inside|]. intros (_ & Z0 & NN). rewrite Z0 in K. congruence.
      + split; [exact T|]. split; [reflexivity|].
        destruct R as [R | R].
        * left. split; [exact R|]. intros (_ & Z0 & _). destruct R as (o & W & _).
          unfold GetPathRoot_v in W. rewrite Z0 in W. discriminate W.
        * right. split; [exact R|]. split; [|reflexivity]. split; [exact NE|].
          destruct R as [_ R2]. rewrite R2 in V. split; [congruence|]. rewrite <- V in K. exact K.
  Qed.
End Proofs.

(** * Theorems *)

(** The view forms point into the string, or give the default view, and have the texts of PathModel.v. *)
Theorem C145_inside : forall win b p v q,
  In (v, q) [(GetPathRoot_v win b p, GetPathRoot win p); (fst (RemoveFileSpec_v win b p), fst (RemoveFileSpec win p));
             (GetFileName_v win b p, GetFileName win p); (GetExtension_v win b p, GetExtension win p);
             (GetFileNameWithoutExtension_v win b p, GetFileNameWithoutExtension win p)] ->
  (inside b p v \/ empty_null v) /\ text b p v = q.
Proof.
  intros win b p v q H. cbn [In] in H.
  destruct H as [H | [H | [H | [H | [H | []]]]]]; apply pair_equal_spec in H; destruct H as [<- <-].
  - split; apply root_view.
  - destruct (spec_view b p win) as (T & _ & [[I _] | [E _]]); auto.
  - apply name_view.
  - apply ext_view.
  - apply noext_view.
Qed.

(** With addresses subtracted, all string forms give what the view forms give. *)
Theorem C145_same : forall win b p, placed b p ->
  GetPathRoot_s win false b p = Some (GetPathRoot win p) /\
  RemoveFileSpec_s win false b p = Some (RemoveFileSpec win p) /\
  GetFileName_s win false b p = Some (GetFileName win p) /\
  GetExtension_s win false b p = Some (GetExtension win p) /\
  GetFileNameWithoutExtension_s win false b p = Some (GetFileNameWithoutExtension win p) /\
  GetDirectoryPath_s win false b p = Some (GetDirectoryPath win p).
Proof.
  intros win b p PL.
  assert (A : RemoveFileSpec_s win false b p = Some (RemoveFileSpec win p)).
  { destruct (spec_view b p win) as (T & S & C). unfold RemoveFileSpec_s. rewrite S.
    destruct (snd (RemoveFileSpec win p)) eqn:B.
    - replace (RemoveFileSpec win p) with (fst (RemoveFileSpec win p), true) by (rewrite <- B; symmetry; apply surjective_pairing).
      destruct C as [[I _] | (E & (NE & _) & _)].
      + rewrite cut_inside by assumption. rewrite T. reflexivity.
      + rewrite (proj1 (cut_null b p _ PL E NE)). rewrite <- T. unfold text. destruct E as [-> _]. reflexivity.
    - f_equal. unfold RemoveFileSpec in *. destruct p; [reflexivity|].
      destruct (_ =? _)%nat; [reflexivity|]. destruct (LastIndex _ _ _); discriminate B. }
  split; [|split; [exact A|]].
  - unfold GetPathRoot_s. rewrite form_ok by (auto; apply root_view). f_equal. apply root_view.
  - repeat split.
    + unfold GetFileName_s. rewrite form_ok by (auto; apply name_view). f_equal. apply name_view.
    + unfold GetExtension_s. rewrite form_ok by (auto; apply ext_view). f_equal. apply ext_view.
    + unfold GetFileNameWithoutExtension_s. rewrite form_ok by (auto; apply noext_view). f_equal. apply noext_view.
    + unfold GetDirectoryPath_s. rewrite A. unfold GetDirectoryPath. destruct (RemoveFileSpec win p); reflexivity.
Qed.

(** By the letter of the standard the same holds, except that RemoveFileSpec subtracts a null pointer for
    every name without root and separator. *)
Theorem C145_standard_partial : forall win b p, placed b p ->
  GetPathRoot_s win true b p = Some (GetPathRoot win p) /\
  GetFileName_s win true b p = Some (GetFileName win p) /\
  GetExtension_s win true b p = Some (GetExtension win p) /\
  GetFileNameWithoutExtension_s win true b p = Some (GetFileNameWithoutExtension win p) /\
  (RemoveFileSpec_s win true b p = None <-> p <> [] /\ GetPathRoot win p = [] /\ Forall (fun c => sep win c = false) p) /\
  (RemoveFileSpec_s win true b p <> None -> RemoveFileSpec_s win true b p = Some (RemoveFileSpec win p)).
Proof.
  intros win b p PL.
  assert (BA : bare p win <-> p <> [] /\ GetPathRoot win p = [] /\ Forall (fun c => sep win c = false) p).
  { unfold bare. pose proof (LastIndex_spec (sep win) p 0 ltac:(lia)) as L.
    rewrite <- GetPathRoot_length, length_zero_iff_nil.
    destruct (LastIndex (sep win) p 0) as [k|].
    - destruct L as (a & c & d & E & _ & _ & S & _). split; [intros (_ & _ & X); discriminate X|].
      intros (_ & _ & F). rewrite E, Forall_app in F. destruct F as [_ F]. inversion F; subst. congruence.
    - cbn [skipn] in L. tauto. }
  rewrite <- BA.
  split; [|split; [|split; [|split]]].
  - unfold GetPathRoot_s. rewrite form_ok by (auto; apply root_view). f_equal. apply root_view.
  - unfold GetFileName_s. rewrite form_ok by (auto; apply name_view). f_equal. apply name_view.
  - unfold GetExtension_s. rewrite form_ok by (auto; apply ext_view). f_equal. apply ext_view.
  - unfold GetFileNameWithoutExtension_s. rewrite form_ok by (auto; apply noext_view). f_equal. apply noext_view.
  - destruct (spec_view b p win) as (T & S & C). unfold RemoveFileSpec_s. rewrite S.
    destruct C as [[I NB] | (E & B & X)].
    + split.
      * split; [|intros B; contradiction]. destruct (snd (RemoveFileSpec win p)); [|discriminate].
        rewrite cut_inside by assumption. discriminate.
      * intros _. destruct (snd (RemoveFileSpec win p)) eqn:B.
        -- rewrite cut_inside by assumption. rewrite T, <- B. f_equal. symmetry. apply surjective_pairing.
        -- f_equal. unfold RemoveFileSpec in *. destruct p; [reflexivity|].
           destruct (_ =? _)%nat; [reflexivity|]. destruct (LastIndex _ _ _); discriminate B.
    + rewrite X. rewrite (proj2 (cut_null b p _ PL E (proj1 B))). split; [tauto | intros N; contradiction N; reflexivity].
Qed.

(** RemoveFileSpec("file"): undefined by the standard. *)
Theorem C145_null_refuted : forall win, ~ (forall b p, placed b p -> RemoveFileSpec_s win true b p <> None).
Proof.
  intros win H. apply (H 1000 [102; 105; 108; 101]); [unfold placed; cbn [length]; lia|].
  destruct win; reflexivity.
Qed.

(** * Concrete cases: "C:\a\b.txt", "b.txt" *)
Example string_form_case :
  let p := [67; 58; 92; 97; 92; 98; 46; 116; 120; 116] in
  placed 4096 p /\
  GetPathRoot_s true true 4096 p = Some [67; 58; 92] /\
  RemoveFileSpec_s true true 4096 p = Some ([67; 58; 92; 97], true) /\
  GetFileName_s true true 4096 p = Some [98; 46; 116; 120; 116] /\
  GetExtension_s true true 4096 p = Some [46; 116; 120; 116] /\
  RemoveFileSpec_s true false 4096 [98; 46; 116; 120; 116] = Some ([], true) /\
  RemoveFileSpec_s true true 4096 [98; 46; 116; 120; 116] = None.
Proof. cbv zeta. split; [unfold placed; cbn [length]; lia|]. repeat split. Qed.

Print Assumptions C145_inside.
Print Assumptions C145_same.
Print Assumptions C145_standard_partial.
Print Assumptions C145_null_refuted.
