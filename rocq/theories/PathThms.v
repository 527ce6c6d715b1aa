(** C64-C67 and C77: path roots, parents, file names, joining and absolute paths. *)
From Coq Require Import ZArith Lia Bool List.
From Verif Require Import CompareModel PathModel PathProofs.
Import ListNotations.
Local Open Scope Z_scope.

(** * Specification *)

(** Directory separators: '/' everywhere, and '\' on Windows. *)
Definition sepc (win : bool) (c : Z) : Prop := c = 47 \/ (win = true /\ c = 92).
Definition letter (c : Z) : Prop := 65 <= c <= 90 \/ 97 <= c <= 122.
Definition hexdigit (c : Z) : Prop := 48 <= c <= 57 \/ 65 <= c <= 70 \/ 97 <= c <= 102.
Definition nosep (win : bool) (l : list Z) : Prop := forall c, In c l -> ~ sepc win c.

(** [pre] is the beginning of [rest] up to and including its second separator; all of
    [rest] if it has fewer. *)
Definition server_share (win : bool) (rest pre : list Z) : Prop :=
  (exists a s b t tl, rest = a ++ s :: b ++ t :: tl /\ pre = a ++ s :: b ++ [t] /\
     nosep win a /\ nosep win b /\ sepc win s /\ sepc win t) \/
  (pre = rest /\ (nosep win rest \/ exists a s b, rest = a ++ s :: b /\ nosep win a /\ nosep win b)).

(** A volume followed by a separator owns it. *)
Definition with_sep (win : bool) (v rest r : list Z) : Prop :=
  (exists s tl, rest = s :: tl /\ sepc win s /\ r = v ++ [s]) \/
  (r = v /\ match rest with [] => True | c :: _ => ~ sepc win c end).

(** [\\?\] or [\\.\]. *)
Definition device (d : list Z) : Prop :=
  exists a b q s, d = [a; b; q; s] /\ sepc true a /\ sepc true b /\ (q = 63 \/ q = 46) /\ sepc true s.
(** "UNC" and "Volume" in any case. *)
Definition unc_word (l : list Z) : Prop :=
  exists u n c, l = [u; n; c] /\ (u = 85 \/ u = 117) /\ (n = 78 \/ n = 110) /\ (c = 67 \/ c = 99).
Definition volume_word (l : list Z) : Prop :=
  exists v o l' u m e, l = [v; o; l'; u; m; e] /\
    (v = 86 \/ v = 118) /\ (o = 79 \/ o = 111) /\ (l' = 76 \/ l' = 108) /\ (u = 85 \/ u = 117) /\
    (m = 77 \/ m = 109) /\ (e = 69 \/ e = 101).
(** {8-4-4-4-12}. *)
Definition hexes (n : nat) (l : list Z) : Prop := length l = n /\ Forall hexdigit l.
Definition guid (g : list Z) : Prop :=
  exists a b c d e, hexes 8 a /\ hexes 4 b /\ hexes 4 c /\ hexes 4 d /\ hexes 12 e /\
    g = [123] ++ a ++ [45] ++ b ++ [45] ++ c ++ [45] ++ d ++ [45] ++ e ++ [125].

(** [rooted win p r]: the path [p] has the root [r]. *)
Inductive rooted (win : bool) : list Z -> list Z -> Prop :=
| R_single : forall s rest, sepc win s -> match rest with [] => True | c :: _ => ~ sepc win c end ->
    rooted win (s :: rest) [s]
| R_unc : forall s t rest pre, sepc win s -> sepc win t ->
    match rest with [] => True | c :: _ => c <> 63 /\ c <> 46 end ->
    server_share win rest pre -> rooted win (s :: t :: rest) (s :: t :: pre)
| R_device_unc : forall d w s rest pre, win = true -> device d -> unc_word w -> sepc win s ->
    server_share win rest pre -> rooted win (d ++ w ++ s :: rest) (d ++ w ++ s :: pre)
| R_drive : forall c rest r, win = true -> letter c -> with_sep win [c; 58] rest r ->
    rooted win (c :: 58 :: rest) r
| R_device_drive : forall d c rest r, win = true -> device d -> letter c -> with_sep win (d ++ [c; 58]) rest r ->
    rooted win (d ++ c :: 58 :: rest) r
| R_device_volume : forall d v g rest r, win = true -> device d -> volume_word v -> guid g ->
    match rest with [] => True | c :: _ => sepc win c end ->
    with_sep win (d ++ v ++ g) rest r -> rooted win (d ++ v ++ g ++ rest) r.

(** * Reflection lemmas *)
Lemma sep_iff : forall win c, sep win c = true <-> sepc win c.
Proof.
  intros win c. unfold sep, sepc. rewrite orb_true_iff, andb_true_iff, !Z.eqb_eq. tauto.
Qed.
Lemma sep_false : forall win c, sep win c = false <-> ~ sepc win c.
Proof. intros win c. rewrite <- sep_iff. destruct (sep win c); intuition congruence. Qed.
Lemma alpha_iff : forall c, IsAlphaChar c = true <-> letter c.
Proof. intros c. unfold IsAlphaChar, letter. rewrite orb_true_iff, !andb_true_iff, !Z.leb_le. tauto. Qed.
Lemma hex_iff : forall c, IsHexDigit c = true <-> hexdigit c.
Proof. intros c. unfold IsHexDigit, hexdigit. rewrite !orb_true_iff, !andb_true_iff, !Z.leb_le. tauto. Qed.
Lemma either_iff : forall a b c, either a b c = true <-> c = a \/ c = b.
Proof. intros a b c. unfold either. rewrite orb_true_iff, !Z.eqb_eq. tauto. Qed.
Lemma is_iff : forall a c, is a c = true <-> c = a.
Proof. intros a c. unfold is. apply Z.eqb_eq. Qed.
Lemma nosep_Forall : forall win l, nosep win l <-> Forall (fun c => sep win c = false) l.
Proof.
  intros win l. rewrite Forall_forall. unfold nosep. split; intros H c I; specialize (H c I); apply sep_false; exact H.
Qed.

Lemma firstn_exact : forall (x y : list Z) n, n = length x -> firstn n (x ++ y) = x.
Proof. intros x y n ->. rewrite firstn_app, Nat.sub_diag, firstn_all, app_nil_r. reflexivity. Qed.

Lemma skip_0 : forall win l, skip_seps win 0 l = 0%nat.
Proof. intros win [|c l]; reflexivity. Qed.

Lemma server_share_skip : forall win rest pre,
  server_share win rest pre <-> pre = firstn (skip_seps win 2 rest) rest.
Proof.
  intros win rest pre. split.
  - intros [(a & s & b & t & tl & -> & -> & A & B & S1 & T1)|(-> & [N|(a & s & b & -> & A & B)])].
    + apply nosep_Forall in A, B. apply sep_iff in S1, T1.
      rewrite skip_sep, skip_sep by assumption. rewrite skip_0.
      replace (a ++ s :: b ++ t :: tl) with ((a ++ s :: b ++ [t]) ++ tl)
        by (rewrite <- app_assoc; cbn; rewrite <- app_assoc; reflexivity).
      rewrite firstn_exact; [reflexivity|rewrite app_length; cbn; rewrite app_length; cbn; lia].
    + apply nosep_Forall in N. rewrite skip_nosep by exact N. rewrite firstn_all. reflexivity.
    + apply nosep_Forall in A, B. destruct (sep win s) eqn:S1.
      * rewrite skip_sep, skip_nosep by assumption. rewrite firstn_all2; [reflexivity|rewrite app_length; cbn; lia].
      * rewrite skip_nosep; [rewrite firstn_all; reflexivity|].
        apply Forall_app. split; [exact A|]. constructor; assumption.
  - intros ->. destruct (first_sep win rest) as [N|(a & s & b & -> & A & S1)].
    + right. rewrite skip_nosep, firstn_all by exact N. split; [reflexivity|]. left. apply nosep_Forall, N.
    + destruct (first_sep win b) as [N|(c & t & d & -> & C & T1)].
      * right. rewrite skip_sep, skip_nosep by assumption.
        rewrite firstn_all2 by (rewrite app_length; cbn; lia). split; [reflexivity|].
        right. exists a, s, b. split; [reflexivity|]. split; apply nosep_Forall; assumption.
      * left. exists a, s, c, t, d. split; [reflexivity|]. split.
        -- rewrite skip_sep, skip_sep by assumption. rewrite skip_0.
           replace (a ++ s :: c ++ t :: d) with ((a ++ s :: c ++ [t]) ++ d)
             by (rewrite <- app_assoc; cbn; rewrite <- app_assoc; reflexivity).
           rewrite firstn_exact; [reflexivity|rewrite app_length; cbn; rewrite app_length; cbn; lia].
        -- repeat split; try apply nosep_Forall; try apply sep_iff; assumption.
Qed.

Lemma with_sep_iff : forall win v rest r,
  with_sep win v rest r <-> r = firstn (if sep_at win (length v) (v ++ rest) then length v + 1 else length v) (v ++ rest).
Proof.
  intros win v rest r. unfold sep_at. rewrite nth_error_app2, Nat.sub_diag by lia. unfold with_sep.
  destruct rest as [|c rest]; cbn [nth_error].
  - rewrite firstn_app, Nat.sub_diag, firstn_all, app_nil_r. split.
    + intros [(s & tl & E & _)|[-> _]]; [discriminate|reflexivity].
    + intros ->. right. auto.
  - destruct (sep win c) eqn:S1.
    + rewrite firstn_app, firstn_all2 by lia. replace (_ - _)%nat with 1%nat by lia. cbn [firstn]. split.
      * intros [(s & tl & E & _ & ->)|[_ N]]; [injection E as -> ->; reflexivity|].
        apply sep_false in N. congruence.
      * intros ->. left. exists c, rest. split; [reflexivity|]. split; [apply sep_iff, S1|reflexivity].
    + rewrite firstn_app, Nat.sub_diag, firstn_all. cbn [firstn]. rewrite app_nil_r. split.
      * intros [(s & tl & E & S2 & _)|[-> _]]; [|reflexivity]. injection E as -> ->. apply sep_iff in S2. congruence.
      * intros ->. right. split; [reflexivity|]. apply sep_false, S1.
Qed.

Lemma sepc_win : forall win c, win = true -> sepc win c <-> sepc true c.
Proof. intros win c ->. tauto. Qed.

Lemma guid_iff : forall p, starts (volume_guid true) p = true <->
  exists d v g rest, device d /\ volume_word v /\ guid g /\ p = d ++ v ++ g ++ rest.
Proof.
  intros p. unfold volume_guid. rewrite starts_app. split.
  - intros (h & t & -> & Lh & Hh & Ht).
    do 11 (destruct h as [|? h]; [discriminate Lh|]). destruct h; [|discriminate Lh]. clear Lh.
    cbn [starts] in Hh. rewrite !andb_true_iff, !sep_iff in Hh. unfold qdot in Hh. rewrite !either_iff, is_iff in Hh.
    apply starts_app in Ht as (a & t1 & -> & La & Ha & Ht). rewrite repeat_length in La. apply starts_repeat in Ha; [|exact La].
    apply starts_app in Ht as (s1 & t2 & -> & L1 & H1 & Ht).
    apply starts_app in Ht as (b & t3 & -> & Lb & Hb & Ht). rewrite repeat_length in Lb. apply starts_repeat in Hb; [|exact Lb].
    apply starts_app in Ht as (s2 & t4 & -> & L2 & H2 & Ht).
    apply starts_app in Ht as (c & t5 & -> & Lc & Hc & Ht). rewrite repeat_length in Lc. apply starts_repeat in Hc; [|exact Lc].
    apply starts_app in Ht as (s3 & t6 & -> & L3 & H3 & Ht).
    apply starts_app in Ht as (d & t7 & -> & Ld & Hd & Ht). rewrite repeat_length in Ld. apply starts_repeat in Hd; [|exact Ld].
    apply starts_app in Ht as (s4 & t8 & -> & L4 & H4 & Ht).
    apply starts_app in Ht as (e & t9 & -> & Le & He & Ht). rewrite repeat_length in Le. apply starts_repeat in He; [|exact Le].
    destruct t9 as [|x t9]; [discriminate Ht|].
    assert (One : forall s n, length s = length [is n] -> starts [is n] s = true -> s = [n]).
    { intros s n L H. destruct s as [|y [|? ?]]; try discriminate L. cbn in H. rewrite andb_true_r in H. apply is_iff in H. congruence. }
    rewrite (One s1 45), (One s2 45), (One s3 45), (One s4 45) by assumption.
    cbn in Ht. rewrite andb_true_r in Ht. apply is_iff in Ht. subst x.
    assert (HX : forall l, Forall (fun c => IsHexDigit c = true) l -> Forall hexdigit l).
    { intros l. apply Forall_impl. intros y. apply hex_iff. }
    destruct Hh as (? & ? & ? & ? & ? & ? & ? & ? & ? & ? & -> & _).
    exists [z; z0; z1; z2], [z3; z4; z5; z6; z7; z8], ([123] ++ a ++ [45] ++ b ++ [45] ++ c ++ [45] ++ d ++ [45] ++ e ++ [125]), t9.
    split; [|split; [|split]].
    + exists z, z0, z1, z2. repeat split; assumption.
    + exists z3, z4, z5, z6, z7, z8. repeat split; assumption.
    + exists a, b, c, d, e. unfold hexes. repeat split; auto.
    + cbn [app]. repeat (rewrite <- app_assoc; cbn [app]). reflexivity.
  - intros (dv & v & g & rest & (x1 & x2 & x3 & x4 & -> & X1 & X2 & X3 & X4)
      & (v1 & v2 & v3 & v4 & v5 & v6 & -> & V1 & V2 & V3 & V4 & V5 & V6)
      & (a & b & c & d & e & [La Ha] & [Lb Hb] & [Lc Hc] & [Ld Hd] & [Le He] & ->) & ->).
    assert (HX : forall l, Forall hexdigit l -> Forall (fun c => IsHexDigit c = true) l).
    { intros l. apply Forall_impl. intros y. apply hex_iff. }
    exists [x1; x2; x3; x4; v1; v2; v3; v4; v5; v6; 123], (a ++ [45] ++ b ++ [45] ++ c ++ [45] ++ d ++ [45] ++ e ++ [125] ++ rest).
    split; [cbn [app]; repeat (rewrite <- app_assoc; cbn [app]); reflexivity|].
    split; [reflexivity|]. split.
    + cbn [starts]. rewrite !andb_true_iff, !sep_iff. unfold qdot. rewrite !either_iff, is_iff. repeat (split; [assumption|]). split; reflexivity.
    + assert (P : forall us t l w, length l = length us -> starts us l = true -> starts t w = true -> starts (us ++ t) (l ++ w) = true).
      { intros us t l w L A B. apply starts_app. exists l, w. auto. }
      repeat (apply P; [rewrite ?repeat_length; first [assumption|reflexivity]
                       |first [apply starts_repeat; [assumption|apply HX; assumption]|reflexivity]|]).
      reflexivity.
Qed.

Lemma dev_iff : forall p, starts [sep true; sep true; qdot; sep true] p = true <-> exists d t, device d /\ p = d ++ t.
Proof.
  intros p. split.
  - intros H. destruct p as [|a [|b [|c [|d p]]]]; cbn [starts] in H; rewrite ?andb_false_r in H; try discriminate.
    rewrite !andb_true_iff, !sep_iff in H. unfold qdot in H. rewrite either_iff in H.
    exists [a; b; c; d], p. split; [|reflexivity]. exists a, b, c, d. tauto.
  - intros (d & t & (a & b & q & s & -> & A & B & Q & S1) & ->). cbn [starts app].
    rewrite !andb_true_iff, !sep_iff. unfold qdot. rewrite either_iff. tauto.
Qed.

(** What the parts say in terms of the specification. *)
Lemma one_sep_iff : forall win p r,
  (one_sep win p = true /\ r = firstn 1 p) <->
  (exists s rest, p = s :: rest /\ r = [s] /\ sepc win s /\ match rest with [] => True | c :: _ => ~ sepc win c end).
Proof.
  intros win p r. split.
  - intros [H ->]. destruct p as [|s rest]; [discriminate|]. cbn in H. apply andb_true_iff in H as [H1 H2].
    exists s, rest. cbn. apply sep_iff in H1. repeat split; auto. destruct rest; [exact I|].
    apply negb_true_iff in H2. apply sep_false, H2.
  - intros (s & rest & -> & -> & S1 & N). cbn. apply sep_iff in S1. rewrite S1. cbn. split; [|reflexivity].
    destruct rest; [reflexivity|]. apply negb_true_iff, sep_false, N.
Qed.

Lemma unc_two : forall win p, TryParseUncPath win p = 2%nat <->
  exists s t rest, p = s :: t :: rest /\ sepc win s /\ sepc win t /\ match rest with [] => True | c :: _ => c <> 63 /\ c <> 46 end.
Proof.
  intros win p. unfold TryParseUncPath. split.
  - destruct (starts [sep win; sep win] p) eqn:A; [|discriminate].
    destruct (starts [any; any; qdot] p) eqn:B; [destruct (win && _); discriminate|]. intros _.
    destruct p as [|s [|t rest]]; cbn [starts] in A; rewrite ?andb_false_r in A; try discriminate.
    rewrite !andb_true_iff, !sep_iff in A. exists s, t, rest. split; [reflexivity|]. split; [tauto|]. split; [tauto|].
    destruct rest as [|c rest]; [exact I|]. cbn [starts] in B. unfold any in B. rewrite andb_true_r in B. cbn [andb] in B.
    split; intros ->; discriminate B.
  - intros (s & t & rest & -> & S1 & T1 & N). apply sep_iff in S1, T1. cbn [starts]. rewrite S1, T1. cbn [andb any].
    destruct rest as [|c rest]; [reflexivity|]. unfold qdot, either.
    destruct (Z.eqb_spec c 63); [tauto|]. destruct (Z.eqb_spec c 46); [tauto|]. reflexivity.
Qed.

Lemma unc_eight : forall win p, TryParseUncPath win p = 8%nat <->
  win = true /\ exists d w s rest, device d /\ unc_word w /\ sepc true s /\ p = d ++ w ++ s :: rest.
Proof.
  intros win p. unfold TryParseUncPath. split.
  - destruct (starts [sep win; sep win] p) eqn:A; [|discriminate].
    destruct (starts [any; any; qdot] p) eqn:B; [|discriminate].
    destruct (win && _) eqn:C; [|discriminate]. intros _. apply andb_true_iff in C as [W C]. split; [exact W|].
    rewrite W in *.
    destruct p as [|x1 [|x2 [|x3 [|x4 [|x5 [|x6 [|x7 [|x8 rest]]]]]]]]; cbn [starts] in C; rewrite ?andb_false_r in C; try discriminate.
    cbn [starts] in A, B. rewrite ?andb_true_iff, ?sep_iff in *. unfold qdot in B. rewrite !either_iff in *.
    exists [x1; x2; x3; x4], [x5; x6; x7], x8, rest. split; [exists x1, x2, x3, x4; tauto|].
    split; [exists x5, x6, x7; tauto|]. split; [tauto|reflexivity].
  - intros (-> & d & w & s & rest & (a & b & q & t & -> & A & B & Q & T1) & (u & n & c & -> & U & N & C) & S1 & ->).
    cbn [starts app]. apply sep_iff in A, B, T1, S1. rewrite A, B, T1, S1. unfold qdot.
    apply either_iff in Q, U, N, C. rewrite Q, U, N, C. reflexivity.
Qed.

Lemma vol_two : forall win p, TryParseVolumePath win p = 2%nat <-> exists c rest, p = c :: 58 :: rest /\ letter c.
Proof.
  intros win p. unfold TryParseVolumePath. split.
  - destruct (starts [IsAlphaChar; is 58] p) eqn:A.
    + intros _. destruct p as [|c [|d rest]]; cbn [starts] in A; rewrite ?andb_false_r in A; try discriminate.
      rewrite !andb_true_iff, alpha_iff, is_iff in A. exists c, rest. destruct A as (A & -> & _). auto.
    + destruct (starts [sep win; sep win; qdot; sep win; IsAlphaChar; is 58] p); [discriminate|].
      destruct (starts (volume_guid win) p && _); discriminate.
  - intros (c & rest & -> & L). apply alpha_iff in L. cbn [starts]. rewrite L. reflexivity.
Qed.

Lemma sep_not_letter : forall win c, sepc win c -> letter c -> False.
Proof. intros win c [->|[_ ->]] L; unfold letter in L; lia. Qed.

Lemma vol_six : forall p, TryParseVolumePath true p = 6%nat <-> exists d c rest, device d /\ letter c /\ p = d ++ c :: 58 :: rest.
Proof.
  intros p. unfold TryParseVolumePath. split.
  - destruct (starts [IsAlphaChar; is 58] p) eqn:A; [discriminate|].
    destruct (starts [sep true; sep true; qdot; sep true; IsAlphaChar; is 58] p) eqn:B; [|destruct (starts (volume_guid true) p && _); discriminate].
    intros _. destruct p as [|x1 [|x2 [|x3 [|x4 [|x5 [|x6 rest]]]]]]; cbn [starts] in B; rewrite ?andb_false_r in B; try discriminate.
    rewrite !andb_true_iff, !sep_iff, alpha_iff, is_iff in B. unfold qdot in B. rewrite either_iff in B.
    exists [x1; x2; x3; x4], x5, rest. split; [exists x1, x2, x3, x4; tauto|]. split; [tauto|].
    destruct B as (_ & _ & _ & _ & _ & -> & _). reflexivity.
  - intros (d & c & rest & (a & b & q & t & -> & A & B & Q & T1) & L & ->). cbn [app starts].
    assert (N : IsAlphaChar a = false).
    { destruct (IsAlphaChar a) eqn:E; [|reflexivity]. apply alpha_iff in E. exfalso. exact (sep_not_letter true a A E). }
    rewrite N. cbn [andb]. apply sep_iff in A, B, T1. unfold qdot. apply either_iff in Q. apply alpha_iff in L.
    rewrite A, B, T1, Q, L. reflexivity.
Qed.

Lemma guid_head : forall d v g rest, device d -> volume_word v ->
  starts [IsAlphaChar; is 58] (d ++ v ++ g ++ rest) = false /\
  starts [sep true; sep true; qdot; sep true; IsAlphaChar; is 58] (d ++ v ++ g ++ rest) = false.
Proof.
  intros d v g rest (a & b & q & t & -> & A & B & Q & T1) (v1 & v2 & v3 & v4 & v5 & v6 & -> & V1 & V2 & _).
  cbn [app starts]. split.
  - destruct (IsAlphaChar a) eqn:E; [|reflexivity]. apply alpha_iff in E. exfalso. exact (sep_not_letter true a A E).
  - replace (is 58 v2) with false by (destruct V2 as [->| ->]; reflexivity). rewrite !andb_false_r. reflexivity.
Qed.

Lemma guid_total : forall d v g, device d -> volume_word v -> guid g -> length (d ++ v ++ g) = 48%nat.
Proof.
  intros dv v g (x1 & x2 & x3 & x4 & -> & _) (v1 & v2 & v3 & v4 & v5 & v6 & -> & _)
      (a & b & c & d & e & [La _] & [Lb _] & [Lc _] & [Ld _] & [Le _] & ->).
  rewrite !app_length. cbn [length]. lia.
Qed.

Lemma vol_guid : forall p, TryParseVolumePath true p = 48%nat <->
  exists d v g rest, device d /\ volume_word v /\ guid g /\ p = d ++ v ++ g ++ rest /\ match rest with [] => True | c :: _ => sepc true c end.
Proof.
  intros p. unfold TryParseVolumePath. split.
  - destruct (starts [IsAlphaChar; is 58] p) eqn:A; [discriminate|].
    destruct (starts [sep true; sep true; qdot; sep true; IsAlphaChar; is 58] p) eqn:B; [discriminate|].
    destruct (starts (volume_guid true) p && _) eqn:C; [|discriminate]. intros _.
    apply andb_true_iff in C as [C D]. apply guid_iff in C as (d & v & g & rest & Dd & V & G & ->).
    exists d, v, g, rest. repeat (split; [assumption|]). split; [reflexivity|].
    destruct rest as [|c rest]; [exact I|].
    pose proof (guid_total d v g Dd V G) as T.
    replace (d ++ v ++ g ++ c :: rest) with ((d ++ v ++ g) ++ c :: rest) in D by (rewrite <- !app_assoc; reflexivity).
    apply orb_true_iff in D as [D|D].
    + apply Nat.eqb_eq in D. rewrite app_length, T in D. cbn in D. lia.
    + unfold sep_at in D. rewrite nth_error_app2 in D by lia. rewrite T, Nat.sub_diag in D. cbn in D.
      apply sep_iff, D.
  - intros (d & v & g & rest & Dd & V & G & -> & R).
    destruct (guid_head d v g rest Dd V) as [-> ->].
    replace (starts (volume_guid true) (d ++ v ++ g ++ rest)) with true
      by (symmetry; apply guid_iff; exists d, v, g, rest; auto).
    pose proof (guid_total d v g Dd V G) as T.
    replace (d ++ v ++ g ++ rest) with ((d ++ v ++ g) ++ rest) by (rewrite <- !app_assoc; reflexivity).
    destruct rest as [|c rest].
    + rewrite app_nil_r, T. reflexivity.
    + unfold sep_at. rewrite nth_error_app2 by lia. rewrite T, Nat.sub_diag. cbn [nth_error andb].
      apply sep_iff in R. rewrite R, orb_true_r. reflexivity.
Qed.

Lemma vol_values : forall win p, In (TryParseVolumePath win p) [0; 2; 6; 48]%nat.
Proof.
  intros win p. unfold TryParseVolumePath.
  destruct (starts [IsAlphaChar; is 58] p); [right; left; reflexivity|].
  destruct (starts [sep win; sep win; qdot; sep win; IsAlphaChar; is 58] p); [do 2 right; left; reflexivity|].
  destruct (starts (volume_guid win) p && _); [do 3 right; left; reflexivity|left; reflexivity].
Qed.

(** A device prefix is never a share by itself nor a single separator. *)
Lemma device_unc : forall d t, device d -> TryParseUncPath true (d ++ t) <> 2%nat.
Proof.
  intros d t (a & b & q & s & -> & A & B & Q & S1) H. apply unc_two in H as (x & y & rest & E & _ & _ & N).
  cbn in E. injection E as -> -> <-. destruct N. destruct Q; congruence.
Qed.
Lemma device_one : forall d t, device d -> one_sep true (d ++ t) = false.
Proof.
  intros d t (a & b & q & s & -> & A & B & Q & S1). apply sep_iff in A, B. cbn. rewrite A, B. reflexivity.
Qed.
Lemma letter_unc : forall win c l, letter c -> one_sep win (c :: l) = false /\ TryParseUncPath win (c :: l) = 0%nat.
Proof.
  intros win c l L. assert (S1 : sep win c = false).
  { apply sep_false. intros H. eapply sep_not_letter; eassumption. }
  unfold one_sep, TryParseUncPath. cbn [starts]. rewrite S1. auto.
Qed.

Lemma unc_zero : forall win p, TryParseUncPath win p <> 2%nat -> TryParseUncPath win p <> 8%nat -> TryParseUncPath win p = 0%nat.
Proof. intros win p A B. destruct (unc_values win p) as [|[|]]; tauto. Qed.

(** * C64 *)
Theorem C64_root_spec : forall win p r,
  (GetPathRoot win p = r /\ r <> []) <-> rooted win p r.
Proof.
  intros win p r. split.
  - intros [<- N]. unfold GetPathRoot in *. rewrite root_len_eq in *.
    destruct (one_sep win p) eqn:O.
    { destruct (proj1 (one_sep_iff win p _) (conj O eq_refl)) as (s & rest & -> & -> & S1 & M). constructor; assumption. }
    destruct (Nat.eqb_spec (TryParseUncPath win p) 0) as [U|U]; cbn [negb] in *.
    + destruct (win && negb (TryParseVolumePath win p =? 0)%nat) eqn:V; [|exfalso; apply N; reflexivity].
      apply andb_true_iff in V as [W V]. apply negb_true_iff, Nat.eqb_neq in V. subst win.
      destruct (vol_values true p) as [E|[E|[E|[E|[]]]]]; [exfalso; apply V; symmetry; exact E| | |]; symmetry in E; rewrite E in *.
      * apply vol_two in E as (c & rest & -> & L). apply R_drive; [reflexivity|exact L|].
        apply with_sep_iff. reflexivity.
      * apply vol_six in E as (d & c & rest & D & L & ->). apply R_device_drive; [reflexivity|exact D|exact L|].
        apply with_sep_iff. rewrite <- app_assoc.
        assert (length (d ++ [c; 58]) = 6%nat) as -> by (destruct D as (? & ? & ? & ? & -> & _); reflexivity). reflexivity.
      * apply vol_guid in E as (d & v & g & rest & D & V' & G & -> & R).
        apply R_device_volume; try assumption; [reflexivity|].
        apply with_sep_iff. rewrite (guid_total d v g D V' G), <- !app_assoc. reflexivity.
    + destruct (unc_values win p) as [E|[E|E]]; [congruence| |]; rewrite E in *.
      * apply unc_two in E as (s & t & rest & -> & S1 & T1 & M). cbn [skipn firstn plus].
        apply R_unc; try assumption. apply server_share_skip. reflexivity.
      * apply unc_eight in E as (-> & d & w & s & rest & D & Wd & S1 & ->).
        destruct D as (a & b & q & t & -> & D). destruct Wd as (u & n & c & -> & Wd).
        cbn [skipn app firstn plus].
        change (a :: b :: q :: t :: u :: n :: c :: s :: firstn (skip_seps true 2 rest) rest)
          with ([a; b; q; t] ++ [u; n; c] ++ s :: firstn (skip_seps true 2 rest) rest).
        change (a :: b :: q :: t :: u :: n :: c :: s :: rest) with ([a; b; q; t] ++ [u; n; c] ++ s :: rest).
        apply R_device_unc; try assumption; [reflexivity|exists a, b, q, t; tauto|exists u, n, c; tauto|].
        apply server_share_skip. reflexivity.
  - intros R. unfold GetPathRoot. rewrite root_len_eq. destruct R as
      [s rest S1 N|s t rest pre S1 T1 N SS|d w s rest pre W D Wd S1 SS|c rest r W L S1|d c rest r W D L S1|d v g rest r W D V G R S1].
    + replace (one_sep win (s :: rest)) with true.
      * cbn. split; [reflexivity|discriminate].
      * symmetry. apply (proj2 (one_sep_iff win (s :: rest) [s])). exists s, rest. auto.
    + apply server_share_skip in SS.
      replace (one_sep win (s :: t :: rest)) with false.
      * rewrite (proj2 (unc_two win (s :: t :: rest))) by (exists s, t, rest; auto).
        cbn [negb Nat.eqb skipn plus firstn]. rewrite <- SS. split; [reflexivity|discriminate].
      * cbn. apply sep_iff in S1, T1. rewrite S1, T1. reflexivity.
    + apply server_share_skip in SS. subst win. rewrite device_one by exact D.
      rewrite (proj2 (unc_eight true (d ++ w ++ s :: rest))) by (split; [reflexivity|]; exists d, w, s, rest; auto).
      destruct D as (a & b & q & t & -> & _). destruct Wd as (u & n & c & -> & _).
      cbn [negb Nat.eqb skipn plus firstn app]. rewrite <- SS. split; [reflexivity|discriminate].
    + subst win. destruct (letter_unc true c (58 :: rest) L) as [-> ->]. cbn [negb Nat.eqb andb].
      rewrite (proj2 (vol_two true (c :: 58 :: rest))) by (exists c, rest; auto). cbn [negb Nat.eqb].
      apply with_sep_iff in S1. cbn [app length] in S1. rewrite <- S1. split; [reflexivity|].
      rewrite S1. destruct (sep_at _ _ _); discriminate.
    + subst win. rewrite device_one by exact D.
      rewrite unc_zero.
      * cbn [negb Nat.eqb andb].
        rewrite (proj2 (vol_six (d ++ c :: 58 :: rest))) by (exists d, c, rest; auto). cbn [negb Nat.eqb].
        apply with_sep_iff in S1. rewrite <- app_assoc in S1.
        assert (E6 : length (d ++ [c; 58]) = 6%nat) by (destruct D as (? & ? & ? & ? & -> & _); reflexivity).
        rewrite E6 in S1. cbn [app] in S1. rewrite <- S1. split; [reflexivity|].
        rewrite S1. destruct D as (? & ? & ? & ? & -> & _). destruct (sep_at _ _ _); discriminate.
      * apply device_unc, D.
      * intros H. apply unc_eight in H as (_ & d' & w & s & rest' & D' & (u & n & c' & -> & U & Nn & _) & _ & E).
        destruct D as (? & ? & ? & ? & -> & _). destruct D' as (? & ? & ? & ? & -> & _). cbn in E.
        injection E; intros; subst. destruct Nn; discriminate.
    + subst win. rewrite device_one by exact D.
      rewrite unc_zero.
      * cbn [negb Nat.eqb andb].
        rewrite (proj2 (vol_guid (d ++ v ++ g ++ rest))) by (exists d, v, g, rest; auto). cbn [negb Nat.eqb].
        apply with_sep_iff in S1. rewrite <- !app_assoc, (guid_total d v g D V G) in S1. rewrite <- S1. split; [reflexivity|].
        rewrite S1. destruct D as (? & ? & ? & ? & -> & _). destruct (sep_at _ _ _); discriminate.
      * apply device_unc, D.
      * intros H. apply unc_eight in H as (_ & d' & w & s & rest' & D' & (u & n & c' & -> & U & Nn & _) & _ & E).
        destruct V as (v1 & v2 & v3 & v4 & v5 & v6 & -> & V1 & _).
        destruct D as (? & ? & ? & ? & -> & _). destruct D' as (? & ? & ? & ? & -> & _). cbn in E.
        injection E; intros; subst. destruct V1; subst; destruct U; discriminate.
Qed.
Print Assumptions C64_root_spec.

(** The root is a beginning of the path, and a path has at most one root. *)
Theorem C64_root_unique : forall win p r r', rooted win p r -> rooted win p r' -> r = r' /\ exists rest, p = r ++ rest.
Proof.
  intros win p r r' A B. apply C64_root_spec in A as [<- _], B as [<- _]. split; [reflexivity|].
  exists (skipn (root_len win p) p). symmetry. apply firstn_skipn.
Qed.
Print Assumptions C64_root_unique.

(** IsPathRooted says whether there is a root; without one GetPathRoot is empty. *)
Theorem C64_is_rooted : forall win p,
  (IsPathRooted win p = true <-> exists r, rooted win p r) /\
  (IsPathRooted win p = false <-> GetPathRoot win p = []).
Proof.
  intros win p. unfold IsPathRooted. destruct (GetPathRoot win p) as [|c r] eqn:E; cbn.
  - split; split; try discriminate; try reflexivity.
    intros (r & R). apply C64_root_spec in R as [R N]. congruence.
  - split; split; try discriminate; try reflexivity.
    intros _. exists (c :: r). apply C64_root_spec. split; [exact E|discriminate].
Qed.
Print Assumptions C64_is_rooted.

(** The root of a root is the root itself, and the root does not depend on what follows:
    every beginning of the path that includes the root has the same root. *)
Theorem C64_root_stable : forall win p r k, rooted win p r -> (length r <= k)%nat -> rooted win (firstn k p) r.
Proof.
  intros win p r k R K. apply C64_root_spec in R as [<- N]. apply C64_root_spec. split; [|exact N].
  rewrite GetPathRoot_length in K. unfold GetPathRoot in *.
  assert (0 < root_len win p)%nat by (destruct (root_len win p); [exfalso; apply N; reflexivity|lia]).
  rewrite root_len_firstn by lia. rewrite firstn_firstn, Nat.min_l by lia. reflexivity.
Qed.
Print Assumptions C64_root_stable.

Theorem C64_root_idempotent : forall win p, GetPathRoot win (GetPathRoot win p) = GetPathRoot win p.
Proof.
  intros win p. destruct (GetPathRoot win p) as [|c r] eqn:E; [reflexivity|].
  assert (R : rooted win p (c :: r)) by (apply C64_root_spec; split; [exact E|discriminate]).
  pose proof (C64_root_stable win p (c :: r) (length (c :: r)) R (le_n _)) as R'.
  apply C64_root_spec in R' as [R' _].
  replace (firstn (length (c :: r)) p) with (c :: r) in R'; [exact R'|].
  rewrite <- E. unfold GetPathRoot at 1 2. rewrite firstn_length, Nat.min_l by apply root_len_le. reflexivity.
Qed.
Print Assumptions C64_root_idempotent.

(** [\\srv\share\dir], [C:\x], [\\?\C:x], [\x], and the volume named by a GUID. *)
Example C64_root_example :
  rooted true [92; 92; 115; 92; 104; 92; 100] [92; 92; 115; 92; 104; 92] /\
  rooted true [67; 58; 92; 120] [67; 58; 92] /\
  rooted true [92; 92; 63; 92; 67; 58; 120] [92; 92; 63; 92; 67; 58] /\
  rooted true [92; 120] [92] /\ rooted false [47; 120] [47] /\
  rooted true ([92; 92; 63; 92; 86; 111; 108; 117; 109; 101; 123] ++ repeat 97 8 ++ [45] ++ repeat 48 4 ++ [45] ++ repeat 48 4
     ++ [45] ++ repeat 70 4 ++ [45] ++ repeat 57 12 ++ [125; 92; 120])
    ([92; 92; 63; 92; 86; 111; 108; 117; 109; 101; 123] ++ repeat 97 8 ++ [45] ++ repeat 48 4 ++ [45] ++ repeat 48 4
     ++ [45] ++ repeat 70 4 ++ [45] ++ repeat 57 12 ++ [125; 92]) /\
  GetPathRoot true [97; 92; 98] = [].
Proof.
  split; [|split; [|split; [|split; [|split; [|split]]]]]; try (apply C64_root_spec; split; [reflexivity|discriminate]).
  reflexivity.
Qed.

(** * C65: RemoveFileSpec *)
Definition parent (win : bool) (p : list Z) : list Z := fst (RemoveFileSpec win p).

(** [cut win p r q]: [q] is [p] without its last component, where [r] is the root: either
    the last separator after the root and what follows is gone, or all that follows the root. *)
Definition cut (win : bool) (p r q : list Z) : Prop :=
  (exists s f, p = q ++ s :: f /\ sepc win s /\ nosep win f /\ exists m, q = r ++ m) \/
  (exists f, f <> [] /\ p = r ++ f /\ nosep win f /\ q = r).

Theorem C65_remove_spec : forall win p,
  (snd (RemoveFileSpec win p) = true -> cut win p (GetPathRoot win p) (parent win p)) /\
  (snd (RemoveFileSpec win p) = false -> parent win p = p /\ GetPathRoot win p = p).
Proof.
  intros win p. unfold parent, RemoveFileSpec. destruct p as [|c p'].
  { cbn. split; [discriminate|]. auto. }
  remember (c :: p') as p eqn:Ep.
  destruct (Nat.eqb_spec (length (GetPathRoot win p)) (length p)) as [E|E]; cbn [fst snd].
  { split; [discriminate|]. intros _. split; [reflexivity|]. unfold GetPathRoot in *.
    rewrite firstn_length, Nat.min_l in E by apply root_len_le. rewrite E, firstn_all. reflexivity. }
  pose proof (LastIndex_spec (sep win) p (length (GetPathRoot win p))) as H.
  assert (L : (length (GetPathRoot win p) <= length p)%nat) by (rewrite GetPathRoot_length; apply root_len_le).
  specialize (H L). destruct (LastIndex (sep win) p (length (GetPathRoot win p))) as [k|]; cbn [fst snd]; (split; [|discriminate]); intros _.
  - destruct H as (a & s & b & P & -> & K & S1 & F). left. exists s, b.
    assert (FA : firstn (length a) p = a) by (rewrite P; apply firstn_exact; reflexivity). rewrite FA.
    split; [exact P|]. split; [apply sep_iff, S1|]. split; [apply nosep_Forall, F|].
    rewrite GetPathRoot_length in K. unfold GetPathRoot.
    exists (skipn (root_len win p) a).
    assert (Q : firstn (root_len win p) p = firstn (root_len win p) a).
    { rewrite P at 2. rewrite firstn_app. replace (root_len win p - length a)%nat with 0%nat by lia.
      cbn [firstn]. apply app_nil_r. }
    rewrite Q. symmetry. apply firstn_skipn.
  - right. exists (skipn (root_len win p) p). rewrite GetPathRoot_length in H, E. split.
    + intros N. apply (f_equal (@length Z)) in N. rewrite skipn_length in N. cbn in N.
      pose proof (root_len_le win p). lia.
    + split; [symmetry; apply firstn_skipn|]. split; [apply nosep_Forall, H|reflexivity].
Qed.
Print Assumptions C65_remove_spec.

(** The result is a beginning of the path that includes the root; it is shorter exactly when
    the function returns true; a rooted path keeps its root. *)
Theorem C65_remove_shorter : forall win p,
  (exists rest, p = parent win p ++ rest) /\
  (exists m, parent win p = GetPathRoot win p ++ m) /\
  (snd (RemoveFileSpec win p) = true <-> (length (parent win p) < length p)%nat) /\
  (forall r, rooted win p r -> rooted win (parent win p) r).
Proof.
  intros win p. destruct (C65_remove_spec win p) as [T F].
  assert (A : (exists rest, p = parent win p ++ rest) /\ (exists m, parent win p = GetPathRoot win p ++ m) /\
    (snd (RemoveFileSpec win p) = true <-> (length (parent win p) < length p)%nat)).
  { destruct (snd (RemoveFileSpec win p)) eqn:B.
    - destruct (T eq_refl) as [(s & f & P & _ & _ & m & M)|(f & N & P & _ & Q)].
      + split; [exists (s :: f); exact P|]. split; [exists m; exact M|]. split; [intros _|reflexivity].
        rewrite P at 2. rewrite app_length. cbn. lia.
      + split; [exists f; rewrite Q; exact P|]. split; [exists []; rewrite app_nil_r; exact Q|]. split; [intros _|reflexivity].
        rewrite Q. rewrite P at 2. rewrite app_length. destruct f; [congruence|cbn; lia].
    - destruct (F eq_refl) as [-> E]. split; [exists []; rewrite app_nil_r; reflexivity|].
      split; [exists []; rewrite app_nil_r; symmetry; exact E|]. split; [discriminate|lia]. }
  destruct A as (A & B & C). split; [exact A|]. split; [exact B|]. split; [exact C|].
  intros r R. pose proof R as R'. apply C64_root_spec in R as [<- N].
  destruct A as [rest A], B as [m B].
  replace (parent win p) with (firstn (length (parent win p)) p) by (rewrite A at 2; apply firstn_exact; reflexivity).
  apply C64_root_stable; [exact R'|]. rewrite B, app_length. lia.
Qed.
Print Assumptions C65_remove_shorter.

Fixpoint up (win : bool) (n : nat) (p : list Z) : list Z :=
  match n with O => p | S n' => up win n' (parent win p) end.

(** Walking up from a rooted path ends at its root, after at most as many steps as the path
    has characters; the root itself is not shortened. *)
Theorem C65_walk_up : forall win p r, rooted win p r ->
  up win (length p) p = r /\ RemoveFileSpec win r = (r, false).
Proof.
  intros win.
  assert (Stop : forall p, GetPathRoot win p = p -> RemoveFileSpec win p = (p, false)).
  { intros [|c p] E; [reflexivity|]. unfold RemoveFileSpec. rewrite E, Nat.eqb_refl. reflexivity. }
  assert (W : forall n p r, (length p <= n)%nat -> rooted win p r -> up win n p = r).
  { induction n as [|n IH]; intros p r L R.
    - destruct p; [|cbn in L; lia]. apply C64_root_spec in R as [<- N]. exfalso. apply N. reflexivity.
    - cbn [up]. destruct (C65_remove_shorter win p) as (_ & _ & S1 & K). destruct (C65_remove_spec win p) as [_ F].
      destruct (snd (RemoveFileSpec win p)) eqn:B.
      + apply IH; [apply proj1 in S1; specialize (S1 eq_refl); lia|apply K, R].
      + destruct (F eq_refl) as [-> E]. apply C64_root_spec in R as [<- _]. rewrite E.
        clear - E Stop. induction n; [reflexivity|]. cbn. unfold parent. rewrite (Stop p E). exact IHn. }
  intros p r R. split; [apply W; [lia|exact R]|].
  apply Stop. apply C64_root_spec in R as [<- _]. apply C64_root_idempotent.
Qed.
Print Assumptions C65_walk_up.

(** A relative path that does not begin with a separator is used up. *)
Theorem C65_walk_up_relative : forall win c p, ~ sepc win c -> GetPathRoot win (c :: p) = [] ->
  up win (length (c :: p)) (c :: p) = [].
Proof.
  intros win c p N E.
  assert (W : forall n p, (length p <= n)%nat -> GetPathRoot win p = [] -> match p with [] => True | c :: _ => ~ sepc win c end -> up win n p = []).
  { clear. induction n as [|n IH]; intros p L E N.
    - destruct p; [reflexivity|cbn in L; lia].
    - cbn [up]. destruct (C65_remove_shorter win p) as ([rest A] & _ & S1 & _). destruct (C65_remove_spec win p) as [_ F].
      assert (H : (length (parent win p) <= n)%nat).
      { destruct (snd (RemoveFileSpec win p)) eqn:B.
        - apply proj1 in S1. specialize (S1 eq_refl). lia.
        - destruct (F eq_refl) as [-> E']. rewrite E' in E. subst p. cbn. lia. }
      assert (FP : firstn (length (parent win p)) p = parent win p) by (rewrite A at 2; apply firstn_exact; reflexivity).
      apply IH; [exact H| |].
      + unfold GetPathRoot. rewrite <- FP. rewrite root_len_firstn0; [reflexivity| |].
        * rewrite <- GetPathRoot_length, E. reflexivity.
        * destruct p; [reflexivity|]. apply negb_true_iff, sep_false, N.
      + rewrite <- FP. destruct (length (parent win p)); [exact I|]. destruct p; [exact I|]. exact N. }
  apply W; [lia|exact E|exact N].
Qed.
Print Assumptions C65_walk_up_relative.

(** [C:\a\b]: parents are [C:\a] and [C:\]. *)
Example C65_walk_example :
  rooted true [67; 58; 92; 97; 92; 98] [67; 58; 92] /\
  RemoveFileSpec true [67; 58; 92; 97; 92; 98] = ([67; 58; 92; 97], true) /\
  up true 2 [67; 58; 92; 97; 92; 98] = [67; 58; 92] /\
  up true 4 [97; 92; 98] = [].
Proof. split; [apply C64_root_spec; split; [reflexivity|discriminate]|]. repeat split. Qed.

(** A path that begins with a separator but has no root ([\\?a\b]) ends at [\], which does
    have one. *)
Theorem C65_walk_up_refuted : exists p, GetPathRoot true p = [] /\ forall n, (2 <= n)%nat -> up true n p = [92].
Proof.
  exists [92; 92; 63; 97; 92; 98]. split; [reflexivity|]. intros n H.
  destruct n as [|[|n]]; try lia. change (up true n [92] = [92]).
  induction n as [|n IH]; [reflexivity|]. apply IH. lia.
Qed.
Print Assumptions C65_walk_up_refuted.

(** * C66: file names and extensions *)

(** What GetFileName returns: the text after the last separator that follows the root, or the
    whole path if there is none. *)
Theorem C66_file_name_exact : forall win p,
  (exists d s f, p = d ++ s :: f /\ sepc win s /\ nosep win f /\ (length (GetPathRoot win p) <= length d)%nat /\
     GetFileName win p = f) \/
  (nosep win (skipn (length (GetPathRoot win p)) p) /\ GetFileName win p = p).
Proof.
  intros win p. unfold GetFileName. destruct p as [|c p'].
  { right. split; [|reflexivity]. intros c I. destruct I. }
  remember (c :: p') as p eqn:Ep.
  assert (L : (length (GetPathRoot win p) <= length p)%nat) by (rewrite GetPathRoot_length; apply root_len_le).
  pose proof (LastIndex_spec (sep win) p _ L) as H.
  destruct (LastIndex (sep win) p (length (GetPathRoot win p))) as [k|].
  - destruct H as (a & s & b & P & -> & K & S1 & F). left. exists a, s, b.
    split; [exact P|]. split; [apply sep_iff, S1|]. split; [apply nosep_Forall, F|]. split; [exact K|].
    rewrite P. rewrite skipn_app. rewrite skipn_all2 by lia. replace (length a + 1 - length a)%nat with 1%nat by lia. reflexivity.
  - right. split; [apply nosep_Forall, H|reflexivity].
Qed.
Print Assumptions C66_file_name_exact.

(** For a path without root it is the last component, as it should be. *)
Theorem C66_file_name_relative_partial : forall win p, GetPathRoot win p = [] ->
  nosep win (GetFileName win p) /\
  exists d, p = d ++ GetFileName win p /\ (d = [] \/ exists d' s, d = d' ++ [s] /\ sepc win s).
Proof.
  intros win p E. destruct (C66_file_name_exact win p) as [(d & s & f & P & S1 & F & _ & ->)|[N ->]].
  - split; [exact F|]. exists (d ++ [s]). split; [rewrite P, <- app_assoc; reflexivity|]. right. exists d, s. auto.
  - rewrite E in N. split; [exact N|]. exists []. auto.
Qed.
Print Assumptions C66_file_name_relative_partial.

(** For a file directly below the root the root is included: the name of [C:\a.txt] is
    [C:\a.txt]; on Linux that of [/a] is [/a]. *)
Theorem C66_file_name_refuted : forall win, exists p c, In c (GetFileName win p) /\ sepc win c.
Proof.
  intros [|].
  - exists [67; 58; 92; 97; 46; 116; 120; 116], 92. split; [cbn; tauto|]. right. auto.
  - exists [47; 97], 47. split; [cbn; tauto|]. left. reflexivity.
Qed.
Print Assumptions C66_file_name_refuted.

(** [is_ext f e]: [e] is the part of [f] from its last dot on, empty if there is none. *)
Definition is_ext (f e : list Z) : Prop :=
  (e = [] /\ ~ In 46 f) \/ exists stem x, f = stem ++ e /\ e = 46 :: x /\ ~ In 46 x.

Lemma no_dot : forall l, Forall (fun d => is 46 d = false) l -> ~ In 46 l.
Proof. intros l F I. rewrite Forall_forall in F. apply F in I. discriminate. Qed.

Theorem C66_extension : forall win p, is_ext (GetFileName win p) (GetExtension win p).
Proof.
  intros win p. unfold GetExtension. pose proof (LastIndex_spec (is 46) (GetFileName win p) 0 (Nat.le_0_l _)) as H.
  destruct (LastIndex (is 46) (GetFileName win p) 0) as [k|].
  - destruct H as (a & c & b & P & -> & _ & C & F). apply is_iff in C. subst c. right. exists a, b. rewrite P.
    rewrite skipn_app, skipn_all2, Nat.sub_diag by lia. cbn [skipn app].
    split; [reflexivity|]. split; [reflexivity|]. apply no_dot, F.
  - left. split; [reflexivity|]. apply no_dot. exact H.
Qed.
Print Assumptions C66_extension.

(** GetFileNameWithoutExtension returns the name without dots unchanged; otherwise it returns
    the extension itself. *)
Theorem C66_without_extension_exact : forall win p,
  (~ In 46 (GetFileName win p) -> GetFileNameWithoutExtension win p = GetFileName win p) /\
  (In 46 (GetFileName win p) -> GetFileNameWithoutExtension win p = GetExtension win p).
Proof.
  intros win p. pose proof (LastIndex_spec (is 46) (GetFileName win p) 0 (Nat.le_0_l _)) as H.
  unfold GetFileNameWithoutExtension, GetExtension. destruct (LastIndex (is 46) (GetFileName win p) 0) as [k|].
  - destruct H as (a & c & b & P & _ & _ & C & _). apply is_iff in C. subst c. split; [|reflexivity].
    intros N. exfalso. apply N. rewrite P. apply in_or_app. right. left. reflexivity.
  - split; [reflexivity|]. intros I. exfalso. exact (no_dot _ H I).
Qed.
Print Assumptions C66_without_extension_exact.

(** So name and extension do not make up the file name: for [a.txt] it is [.txt]. *)
Theorem C66_without_extension_refuted : forall win, exists p,
  GetFileNameWithoutExtension win p ++ GetExtension win p <> GetFileName win p.
Proof. intros [|]; exists [97; 46; 116]; discriminate. Qed.
Print Assumptions C66_without_extension_refuted.

Example C66_example :
  GetPathRoot true [97; 92; 98; 46; 99] = [] /\ GetFileName true [97; 92; 98; 46; 99] = [98; 46; 99] /\
  GetExtension true [97; 92; 98; 46; 99] = [46; 99] /\ In 46 (GetFileName true [97; 92; 98; 46; 99]) /\
  ~ In 46 (GetFileName true [97; 92; 98]).
Proof. repeat split; cbn; intuition congruence. Qed.

(** * C67: Append *)

(** The paths that replace the base: those with a UNC or volume root; on Linux every rooted
    path. *)
Definition absolute (win : bool) (x : list Z) : Prop :=
  exists r, rooted win x r /\ (win = false \/ (2 <= length r)%nat).

(** [joined win b x y]: [b] followed by [x] without its leading separators, with a separator
    between them unless [b] is empty or ends with one. *)
Definition joined (win : bool) (b x y : list Z) : Prop :=
  exists lead rest, x = lead ++ rest /\ Forall (sepc win) lead /\ rest <> [] /\
    (forall c t, rest = c :: t -> ~ sepc win c) /\
    ((b = [] /\ y = rest) \/
     (exists b' s, b = b' ++ [s] /\ sepc win s /\ y = b ++ rest) \/
     (exists b' c, b = b' ++ [c] /\ ~ sepc win c /\ y = b ++ (if win then 92 else 47) :: rest)).

Lemma absolute_iff : forall win x, absolute win x <->
  x <> [] /\ (negb (TryParseUncPath win x =? 0)%nat = true \/ (win && negb (TryParseVolumePath win x =? 0)%nat) = true \/
              (win = false /\ one_sep win x = true)).
Proof.
  intros win x. split.
  - intros (r & R & A). apply C64_root_spec in R as [E N]. split.
    { intros ->. cbn in E. congruence. }
    assert (L : length r = root_len win x) by (rewrite <- E; apply GetPathRoot_length).
    assert (P : root_len win x <> 0%nat) by (intros H; rewrite H in L; destruct r; [congruence|discriminate]).
    rewrite root_len_eq in L, P. destruct (one_sep win x) eqn:O.
    + right. right. destruct A as [->|A]; [auto|lia].
    + destruct (negb (TryParseUncPath win x =? 0)%nat); [auto|].
      destruct (win && negb (TryParseVolumePath win x =? 0)%nat); [auto|]. congruence.
  - intros (N & H). exists (GetPathRoot win x).
    assert (C : (root_len win x <> 0)%nat /\ (win = false \/ (2 <= root_len win x)%nat)).
    { rewrite root_len_eq. destruct (one_sep win x) eqn:O.
      - split; [lia|]. destruct H as [H|[H|[H _]]]; [| |auto]; exfalso.
        + unfold TryParseUncPath in H. rewrite one_sep_not_two in H by exact O. discriminate.
        + apply andb_true_iff in H as [W H]. apply negb_true_iff, Nat.eqb_neq in H. apply vol_dev in H as [[H _]|[H _]].
          * destruct x as [|c x]; [congruence|]. cbn [starts] in H. apply andb_true_iff in H as [H _].
            apply (alpha_not_sep win) in H. cbn in O. rewrite H in O. discriminate.
          * apply dev_starts in H as [H _]. rewrite one_sep_not_two in H by exact O. discriminate.
      - destruct (negb (TryParseUncPath win x =? 0)%nat) eqn:U.
        + apply negb_true_iff, Nat.eqb_neq in U. destruct (unc_values win x) as [|[|]]; split; try right; lia.
        + destruct H as [H|[H|[_ H]]]; [discriminate| |discriminate]. rewrite H.
          apply andb_true_iff in H as [W H]. apply negb_true_iff, Nat.eqb_neq in H.
          apply vol_dev in H as [[_ H]|[_ H]]; destruct (sep_at _ _ _); split; try right; lia. }
    split.
    + apply C64_root_spec. split; [reflexivity|]. intros E. apply (f_equal (@length Z)) in E.
      rewrite GetPathRoot_length in E. cbn in E. lia.
    + rewrite GetPathRoot_length. tauto.
Qed.

Lemma drop_seps_spec : forall win x, exists lead, x = lead ++ drop_seps win x /\ Forall (sepc win) lead /\
  forall c t, drop_seps win x = c :: t -> ~ sepc win c.
Proof.
  intros win. induction x as [|c x IH]; cbn [drop_seps].
  - exists []. split; [reflexivity|]. split; [constructor|]. intros; discriminate.
  - destruct (sep win c) eqn:S1.
    + destruct IH as (lead & E & F & H). exists (c :: lead). cbn. rewrite <- E. split; [reflexivity|].
      split; [constructor; [apply sep_iff, S1|exact F]|exact H].
    + exists []. split; [reflexivity|]. split; [constructor|]. intros d t E. injection E as <- <-. apply sep_false, S1.
Qed.

(** An absolute path replaces the base; separators alone leave it as it is; otherwise, for an
    unshared base, the two are joined with a separator between them. *)
Theorem C67_append_unshared_partial : forall win base x,
  (absolute win x -> Append win false base x = x) /\
  (~ absolute win x -> Forall (sepc win) x -> Append win false base x = base) /\
  (~ absolute win x -> ~ Forall (sepc win) x -> joined win base x (Append win false base x)).
Proof.
  intros win base x. unfold Append.
  destruct x as [|c r].
  { split; [|split].
    - intros A. apply absolute_iff in A as [A _]. congruence.
    - reflexivity.
    - intros _ N. exfalso. apply N. constructor. }
  remember (c :: r) as x eqn:Ex.
  assert (O : (negb win && (sep win c && match r with [] => true | d :: _ => negb (sep win d) end)) = negb win && one_sep win x)
    by (rewrite Ex; reflexivity).
  rewrite O. clear O.
  assert (Nx : x <> []) by (rewrite Ex; discriminate). clear Ex.
  destruct (negb (TryParseUncPath win x =? 0)%nat) eqn:U.
  { split; [reflexivity|]. split; intros A; exfalso; apply A, absolute_iff; rewrite U; auto. }
  destruct (win && negb (TryParseVolumePath win x =? 0)%nat) eqn:V.
  { split; [reflexivity|]. split; intros A; exfalso; apply A, absolute_iff; rewrite V; auto. }
  destruct (negb win && one_sep win x) eqn:O.
  { apply andb_true_iff in O as [W O]. apply negb_true_iff in W.
    split; [reflexivity|]. split; intros A; exfalso; apply A, absolute_iff; auto. }
  assert (NA : ~ absolute win x).
  { intros A. apply absolute_iff in A as [_ [A|[A|[W A]]]]; try congruence. rewrite A, andb_true_r in O. apply negb_false_iff in O. congruence. }
  split; [intros A; contradiction|].
  destruct (drop_seps_spec win x) as (lead & E & F & H).
  destruct (drop_seps win x) as [|y ys] eqn:D.
  { split; [reflexivity|]. rewrite app_nil_r in E. subst lead. intros _ N. contradiction. }
  split.
  { intros _ A. exfalso. apply (H y ys); [reflexivity|]. rewrite E in A. apply Forall_app in A as [_ A]. inversion A; assumption. }
  intros _ _. exists lead, (y :: ys). split; [exact E|]. split; [exact F|]. split; [discriminate|]. split; [exact H|].
  destruct base as [|b0 base']; [left; auto|]. right.
  remember (b0 :: base') as b eqn:Eb. assert (Nb : b <> []) by (rewrite Eb; discriminate). clear Eb.
  destruct (exists_last Nb) as (b' & s & ->). unfold ends_with_sep. rewrite rev_unit.
  destruct (b' ++ [s]) eqn:Q; [destruct b'; discriminate|]. rewrite <- Q.
  destruct (sep win s) eqn:S1.
  - left. exists b', s. split; [reflexivity|]. split; [apply sep_iff, S1|reflexivity].
  - right. exists b', s. split; [reflexivity|]. split; [apply sep_false, S1|]. rewrite <- app_assoc. reflexivity.
Qed.
Print Assumptions C67_append_unshared_partial.

(** The text of a base whose buffer is shared with another string is lost. *)
Theorem C67_append_shared_refuted : exists base x, ~ absolute true x /\ ~ Forall (sepc true) x /\
  ~ joined true base x (Append true true base x).
Proof.
  exists [97], [98]. split.
  - intros A. apply absolute_iff in A as [_ [A|[A|[A _]]]]; discriminate.
  - split; [intros F; inversion F as [|? ? [H|[_ H]]]; discriminate|].
    change (Append true true [97] [98]) with [98].
    intros (lead & rest & E & _ & _ & _ & [[B _]|[(b' & s & B & S1 & Y)|(b' & s & B & _ & Y)]]); discriminate.
Qed.
Print Assumptions C67_append_shared_refuted.

Theorem C67_append_shared_exact : forall win base x, ~ absolute win x ->
  Append win true base x = (if forallb (sep win) x then base else drop_seps win x).
Proof.
  intros win base x NA.
  assert (H : forallb (sep win) x = match drop_seps win x with [] => true | _ => false end).
  { clear. induction x as [|c x IH]; [reflexivity|]. cbn. destruct (sep win c); [exact IH|reflexivity]. }
  rewrite H. unfold Append. destruct x as [|c r]; [reflexivity|].
  assert (O : (negb win && (sep win c && match r with [] => true | d :: _ => negb (sep win d) end)) = negb win && one_sep win (c :: r)) by reflexivity.
  rewrite O. remember (c :: r) as x eqn:Ex. assert (Nx : x <> []) by (rewrite Ex; discriminate). clear Ex O H.
  destruct (negb (TryParseUncPath win x =? 0)%nat) eqn:U; [exfalso; apply NA, absolute_iff; rewrite U; auto|].
  destruct (win && negb (TryParseVolumePath win x =? 0)%nat) eqn:V; [exfalso; apply NA, absolute_iff; rewrite V; auto|].
  destruct (negb win && one_sep win x) eqn:O.
  { apply andb_true_iff in O as [W O]. apply negb_true_iff in W. exfalso. apply NA, absolute_iff; auto. }
  destruct (drop_seps win x); reflexivity.
Qed.
Print Assumptions C67_append_shared_exact.

(** A device path such as [\\.\pipe\x] has no root for the parser and is glued to the base
    as if it were relative: [C:\] and [\\.\a] give [C:\.\a]. *)
Theorem C67_append_device_refuted : exists base d t, device d /\ Append true false base (d ++ t) <> d ++ t /\
  Append true false base (d ++ t) = base ++ skipn 2 (d ++ t).
Proof.
  exists [67; 58; 92], [92; 92; 46; 92], [97]. split.
  - exists 92, 92, 46, 92. unfold sepc. tauto.
  - split; [discriminate|reflexivity].
Qed.
Print Assumptions C67_append_device_refuted.

Example C67_append_example :
  absolute true [67; 58; 92] /\ ~ absolute true [98] /\ ~ Forall (sepc true) [98] /\
  Append true false [97] [92; 98] = [97; 92; 98] /\ Append false false [97; 47] [98] = [97; 47; 98].
Proof.
  split; [apply absolute_iff; split; [discriminate|right; left; reflexivity]|].
  split; [intros A; apply absolute_iff in A as [_ [A|[A|[A _]]]]; discriminate|].
  split; [intros F; inversion F as [|? ? [H|[_ H]]]; discriminate|]. split; reflexivity.
Qed.

(** * C77: GetFullPath *)

(** Fully qualified paths: UNC paths, volumes that are complete or followed by a separator; on
    Linux those that begin with exactly one separator. *)
Theorem C77_qualified : forall win cwd p, IsPathFullyQualified win p = Some true -> GetFullPath win cwd p = p.
Proof. intros win cwd [|c p] H; [reflexivity|]. unfold GetFullPath. rewrite H. reflexivity. Qed.
Print Assumptions C77_qualified.

Lemma vol_last : forall p, TryParseVolumePath true p <> 0%nat ->
  exists w c, firstn (TryParseVolumePath true p) p = w ++ [c] /\ ~ sepc true c.
Proof.
  intros p V. destruct (vol_values true p) as [E|[E|[E|[E|[]]]]]; [exfalso; apply V; symmetry; exact E| | |];
    symmetry in E; rewrite E.
  - apply vol_two in E as (c & rest & -> & L). exists [c], 58. split; [reflexivity|]. intros [H|[_ H]]; discriminate.
  - apply vol_six in E as (d & c & rest & (a & b & q & t & -> & _) & L & ->).
    exists [a; b; q; t; c], 58. split; [reflexivity|]. intros [H|[_ H]]; discriminate.
  - apply vol_guid in E as (d & v & g & rest & D & Vw & G & -> & R).
    pose proof (guid_total d v g D Vw G) as T.
    replace (d ++ v ++ g ++ rest) with ((d ++ v ++ g) ++ rest) by (rewrite <- !app_assoc; reflexivity).
    rewrite firstn_exact by (symmetry; exact T).
    destruct G as (x1 & x2 & x3 & x4 & x5 & _ & _ & _ & _ & _ & ->).
    exists (d ++ v ++ [123] ++ x1 ++ [45] ++ x2 ++ [45] ++ x3 ++ [45] ++ x4 ++ [45] ++ x5), 125.
    split; [repeat (rewrite <- app_assoc; cbn [app]); reflexivity|]. intros [H|[_ H]]; discriminate.
Qed.

(** Every path that is not fully qualified has no root that names a place: it is relative, or
    (Windows) its root is one separator or a volume without separator. *)
Theorem C77_qualified_root : forall win p, p <> [] ->
  (IsPathFullyQualified win p = Some true <->
   exists r, rooted win p r /\
     ((win = false) \/
      (exists s t q, r = s :: t :: q /\ sepc win s /\ sepc win t /\ TryParseUncPath win p <> 0%nat) \/
      (TryParseUncPath win p = 0%nat /\ (2 <= length r)%nat /\ (r = p \/ exists v s, r = v ++ [s] /\ sepc win s)))).
Proof.
  intros win p Np. unfold IsPathFullyQualified.
  destruct (Nat.eqb_spec (TryParseUncPath win p) 0) as [U|U]; cbn [negb].
  - split.
    + destruct win eqn:W.
      * destruct (Nat.eqb_spec (TryParseVolumePath true p) 0) as [V|V]; cbn [negb]; [discriminate|].
        intros H. injection H as H.
        assert (A : absolute true p).
        { apply absolute_iff. split; [exact Np|]. right. left. cbn. apply negb_true_iff, Nat.eqb_neq, V. }
        destruct A as (r & R & L). exists r. split; [exact R|]. right. right. split; [exact U|].
        split; [destruct L; [discriminate|assumption]|].
        apply C64_root_spec in R as [<- _]. unfold GetPathRoot. rewrite root_len_eq.
        assert (O : one_sep true p = false).
        { destruct (one_sep true p) eqn:O; [|reflexivity]. exfalso. apply vol_dev in V as [[H' _]|[H' _]].
          - destruct p as [|c x]; [congruence|]. cbn [starts] in H'. apply andb_true_iff in H' as [H' _].
            apply (alpha_not_sep true) in H'. unfold one_sep in O. rewrite H' in O. discriminate.
          - apply dev_starts in H' as [H' _]. rewrite one_sep_not_two in H' by exact O. discriminate. }
        rewrite O, U. cbn [negb Nat.eqb andb]. apply Nat.eqb_neq in V. rewrite V. cbn [negb].
        destruct (sep_at true (TryParseVolumePath true p) p) eqn:S1.
        -- right. apply sep_at_true in S1 as (a & c & b & E & La & Sc).
           exists a, c. split; [|apply sep_iff, Sc]. rewrite <- La. rewrite E.
           change (c :: b) with ([c] ++ b). rewrite app_assoc. apply firstn_exact. rewrite app_length. reflexivity.
        -- left. rewrite orb_false_r in H. apply Nat.eqb_eq in H. rewrite H. apply firstn_all.
      * intros H. destruct p as [|c p]; [congruence|]. injection H as H.
        exists [c]. split; [|left; reflexivity]. apply C64_root_spec. split; [|discriminate].
        unfold GetPathRoot. rewrite root_len_eq. unfold one_sep. rewrite H. reflexivity.
    + intros (r & R & H). destruct win eqn:W.
      * destruct H as [H|[(s & t & q & _ & _ & _ & H)|(_ & L & H)]]; [discriminate|congruence|].
        assert (A : absolute true p) by (exists r; auto).
        apply absolute_iff in A as [_ [A|[A|[A _]]]]; [rewrite U in A; discriminate| |discriminate].
        cbn [andb] in A. rewrite A. f_equal. apply negb_true_iff in A.
        apply C64_root_spec in R as [E _].
        unfold GetPathRoot in E. rewrite root_len_eq, U in E. cbn [negb Nat.eqb andb] in E. rewrite A in E. cbn [negb] in E.
        destruct (one_sep true p) eqn:O.
        { exfalso. apply (f_equal (@length Z)) in E. rewrite firstn_length in E. lia. }
        destruct (sep_at true (TryParseVolumePath true p) p) eqn:S1; [apply orb_true_r|].
        rewrite orb_false_r. apply Nat.eqb_eq. pose proof (vol_le true p) as VL.
        destruct H as [->|(v & s & -> & S2)].
        -- apply (f_equal (@length Z)) in E. rewrite firstn_length in E. lia.
        -- exfalso. apply Nat.eqb_neq in A. apply vol_last in A. destruct A as (w & c & EA & NS). rewrite EA in E.
           apply app_inj_tail in E as [_ ->]. exact (NS S2).
      * destruct p as [|c p]; [congruence|]. f_equal. apply C64_root_spec in R as [E N].
        unfold GetPathRoot in E. rewrite root_len_eq, U in E. cbn [negb Nat.eqb andb] in E.
        destruct (one_sep false (c :: p)) eqn:O; [exact O|]. cbn in E. congruence.
  - split; [|reflexivity]. intros _.
    assert (A : absolute win p) by (apply absolute_iff; split; [exact Np|]; left; apply negb_true_iff, Nat.eqb_neq, U).
    destruct A as (r & R & _). exists r. split; [exact R|]. right. left.
    assert (T : exists s t q, p = s :: t :: q /\ sepc win s /\ sepc win t).
    { destruct (unc_values win p) as [E|[E|E]]; [congruence| |].
      - apply unc_two in E as (s & t & rest & -> & S1 & T1 & _). exists s, t, rest. auto.
      - apply unc_eight in E as (-> & d & w & s & rest & (a & b & q & t & -> & A & B & _) & _ & _ & ->).
        cbn. exists a, b, (q :: t :: w ++ s :: rest). auto. }
    destruct T as (s & t & q & -> & S1 & T1).
    apply C64_root_spec in R as [<- _]. unfold GetPathRoot. rewrite root_len_eq.
    assert (O : one_sep win (s :: t :: q) = false) by (cbn; apply sep_iff in S1, T1; rewrite S1, T1; reflexivity).
    rewrite O. destruct (Nat.eqb_spec (TryParseUncPath win (s :: t :: q)) 0) as [|_]; [congruence|]. cbn [negb].
    destruct (unc_values win (s :: t :: q)) as [E|[E|E]]; [congruence| |]; rewrite E.
    + cbn [plus firstn]. exists s, t, (firstn (skip_seps win 2 (skipn 2 (s :: t :: q))) q). split; [reflexivity|]. split; [exact S1|]. split; [exact T1|lia].
    + cbn [plus firstn]. eexists s, t, _. split; [reflexivity|]. split; [exact S1|]. split; [exact T1|lia].
Qed.
Print Assumptions C77_qualified_root.

Lemma not_absolute_single : forall s rest, sepc true s -> match rest with [] => True | c :: _ => ~ sepc true c end ->
  ~ absolute true (s :: rest).
Proof.
  intros s rest S1 N (r & R & A). pose proof (R_single true s rest S1 N) as R'.
  destruct (C64_root_unique _ _ _ _ R R') as [-> _]. destruct A as [A|A]; [discriminate|cbn in A; lia].
Qed.

Lemma not_rooted_absolute : forall win p, GetPathRoot win p = [] -> ~ absolute win p.
Proof. intros win p E (r & R & _). apply C64_root_spec in R as [R N]. congruence. Qed.

Lemma not_absolute_volume : forall win p, ~ absolute win p -> TryParseUncPath win p = 0%nat /\ (win = true -> TryParseVolumePath win p = 0%nat).
Proof.
  intros win p NA. destruct p as [|c p].
  - split; [|intros _]; reflexivity.
  - split; [|intros W]; match goal with |- ?x = 0%nat => destruct (Nat.eq_dec x 0) as [|N]; [assumption|exfalso] end;
      apply NA, absolute_iff; (split; [discriminate|]); [left|right; left]; rewrite ?W;
      [|rewrite W in N; cbn [andb]]; apply negb_true_iff, Nat.eqb_neq, N.
Qed.

(** A relative path (no root, no leading separator) is joined to the current directory. *)
Theorem C77_relative : forall win cwd c p, cwd <> [] -> GetPathRoot win (c :: p) = [] -> ~ sepc win c ->
  joined win cwd (c :: p) (GetFullPath win cwd (c :: p)).
Proof.
  intros win cwd c p Nc E N. pose proof (not_rooted_absolute win _ E) as NA.
  assert (G : GetFullPath win cwd (c :: p) = Append win false cwd (c :: p)).
  { unfold GetFullPath. destruct (not_absolute_volume win _ NA) as [U V].
    assert (Q : IsPathFullyQualified win (c :: p) = Some false).
    { unfold IsPathFullyQualified. rewrite U. cbn [negb Nat.eqb]. destruct win eqn:W.
      - rewrite V by reflexivity. reflexivity.
      - apply sep_false in N. rewrite N. reflexivity. }
    rewrite Q. destruct cwd; [congruence|]. apply sep_false in N. rewrite N, andb_false_r.
    destruct win; [rewrite V by reflexivity|]; reflexivity. }
  rewrite G. apply C67_append_unshared_partial; [exact NA|].
  intros F. inversion F; contradiction.
Qed.
Print Assumptions C77_relative.

(** Windows: a path with one leading separator is joined to the root of the current
    directory. *)
Theorem C77_root_relative : forall cwd r s c rest, rooted true cwd r -> sepc true s -> ~ sepc true c ->
  joined true r (s :: c :: rest) (GetFullPath true cwd (s :: c :: rest)).
Proof.
  intros cwd r s c rest R S1 N.
  assert (NA : ~ absolute true (s :: c :: rest)) by (apply not_absolute_single; assumption).
  assert (G : GetFullPath true cwd (s :: c :: rest) = Append true false r (s :: c :: rest)).
  { unfold GetFullPath. destruct (not_absolute_volume true _ NA) as [U V]. specialize (V eq_refl).
    assert (Q : IsPathFullyQualified true (s :: c :: rest) = Some false).
    { unfold IsPathFullyQualified. rewrite U, V. reflexivity. }
    rewrite Q. apply C64_root_spec in R as [R Nr]. destruct cwd as [|x cwd]; [cbn in R; congruence|].
    rewrite V. cbn [negb Nat.eqb andb]. apply sep_iff in S1. rewrite S1, R. destruct r; [congruence|reflexivity]. }
  rewrite G. apply C67_append_unshared_partial; [exact NA|].
  intros F. inversion F as [|? ? ? F']; subst. inversion F'; contradiction.
Qed.
Print Assumptions C77_root_relative.

(** A drive-relative path [c:x]: with the current directory on drive [d], the function
    appends [x] to [c:\] when the drives are the same, and to the current directory of the
    other drive when they differ (IsSameVolume answers the wrong way round). *)
Theorem C77_drive_relative_exact : forall cwd d s c x, letter d -> letter c -> sepc true s ->
  rooted true cwd [d; 58; s] -> ~ absolute true x -> x <> [] -> match x with [] => True | y :: _ => ~ sepc true y end ->
  (CharUpperAsASCII d = CharUpperAsASCII c -> GetFullPath true cwd (c :: 58 :: x) = [c; 58; 92] ++ x) /\
  (CharUpperAsASCII d <> CharUpperAsASCII c -> joined true cwd x (GetFullPath true cwd (c :: 58 :: x))).
Proof.
  intros cwd d s c x Ld Lc Ss R NA Nx Hx.
  assert (V : TryParseVolumePath true (c :: 58 :: x) = 2%nat) by (apply vol_two; exists c, x; auto).
  destruct (letter_unc true c (58 :: x) Lc) as [_ U].
  assert (Q : IsPathFullyQualified true (c :: 58 :: x) = Some false).
  { unfold IsPathFullyQualified. rewrite U, V. cbn [negb Nat.eqb length]. unfold sep_at.
    destruct x as [|y x]; [congruence|]. cbn [length Nat.eqb nth_error orb]. apply sep_false in Hx. rewrite Hx. reflexivity. }
  assert (NS : ~ Forall (sepc true) x).
  { intros F. destruct x as [|y x]; [congruence|]. inversion F; contradiction. }
  assert (G : GetFullPath true cwd (c :: 58 :: x) =
    Append true false (if CharUpperAsASCII d =? CharUpperAsASCII c then [c; 58] else cwd) x).
  { unfold GetFullPath. rewrite Q. apply C64_root_spec in R as [R _]. destruct cwd as [|z cwd]; [cbn in R; congruence|].
    rewrite V. cbn [negb Nat.eqb andb]. rewrite R. cbn [firstn skipn].
    unfold IsSameVolume, strip_dev. cbn [starts]. rewrite !andb_false_r.
    assert (Sd : sep true d = false) by (apply sep_false; intros H; exact (sep_not_letter true d H Ld)).
    assert (Sc : sep true c = false) by (apply sep_false; intros H; exact (sep_not_letter true c H Lc)).
    apply sep_iff in Ss. cbn [drop_end]. rewrite Ss. change (sep true 58) with false. cbn iota. cbn [length Nat.eqb negb differI].
    destruct (CharUpperAsASCII d =? CharUpperAsASCII c); reflexivity. }
  rewrite G. split.
  - intros E. rewrite E, Z.eqb_refl.
    destruct (C67_append_unshared_partial true [c; 58] x) as (_ & _ & J). specialize (J NA NS).
    destruct J as (lead & rest & Ex & F & Nr & Hr & [[B _]|[(b' & s' & B & S' & _)|(b' & s' & B & _ & Y)]]).
    + discriminate.
    + exfalso. change [c; 58] with ([c] ++ [58]) in B. apply app_inj_tail in B as [_ <-]. destruct S' as [S'|[_ S']]; discriminate.
    + rewrite Y. cbn [app]. destruct lead as [|l lead]; [cbn in Ex; congruence|].
      exfalso. rewrite Ex in Hx. cbn in Hx. inversion F; contradiction.
  - intros E. apply Z.eqb_neq in E. rewrite E. apply C67_append_unshared_partial; assumption.
Qed.
Print Assumptions C77_drive_relative_exact.

(** In the directory [C:\d], the path [C:x] becomes [C:\x] instead of [C:\d\x], and the path
    [D:x] becomes [C:\d\x]. *)
Theorem C77_drive_relative_refuted :
  GetFullPath true [67; 58; 92; 100] [67; 58; 120] = [67; 58; 92; 120] /\
  GetFullPath true [67; 58; 92; 100] [68; 58; 120] = [67; 58; 92; 100; 92; 120] /\
  ~ joined true [67; 58; 92; 100] [120] (GetFullPath true [67; 58; 92; 100] [67; 58; 120]).
Proof.
  split; [reflexivity|]. split; [reflexivity|].
  change (GetFullPath true [67; 58; 92; 100] [67; 58; 120]) with [67; 58; 92; 120].
  intros (lead & rest & E & _ & Nr & _ & [[B _]|[(b' & s & B & _ & Y)|(b' & s & B & _ & Y)]]); try discriminate.
Qed.
Print Assumptions C77_drive_relative_refuted.

(** IsPathFullyQualified on Linux reads the first character of an empty path. *)
Theorem C77_qualified_empty_refuted : IsPathFullyQualified false [] = None.
Proof. reflexivity. Qed.
Print Assumptions C77_qualified_empty_refuted.

Example C77_example :
  rooted true [67; 58; 92; 100] [67; 58; 92] /\ GetFullPath true [67; 58; 92; 100] [92; 120] = [67; 58; 92; 120] /\
  GetPathRoot true [120] = [] /\ GetFullPath true [67; 58; 92; 100] [120] = [67; 58; 92; 100; 92; 120] /\
  IsPathFullyQualified true [67; 58; 92; 100] = Some true /\ ~ absolute true [120].
Proof.
  split; [apply C64_root_spec; split; [reflexivity|discriminate]|]. repeat (split; [reflexivity|]).
  apply not_rooted_absolute. reflexivity.
Qed.
