(** C77, C129: which texts IsSameVolume (src/YY/Base/IO/Path.cpp 228-262) takes for the same
    volume, and the room in which an ANSI text is appended to another. *)
From Coq Require Import List Bool ZArith Lia.
From Verif Require Import Word CompareModel PathModel PathProofs PathThms AnsiModel AnsiThms.
Import ListNotations.
Local Open Scope Z_scope.

(** The device prefixes [\\?\] and [\\.\]. *)
Definition device (win : bool) (p : list Z) : Prop :=
  exists a b q c, p = [a; b; q; c] /\ sepc win a /\ sepc win b /\ sepc win c /\ (q = 63 \/ q = 46).

(** [names win x a]: [a] is what is left of [x] without a device prefix in front and
    separators at the end. *)
Definition names (win : bool) (x a : list Z) : Prop :=
  exists p t, x = p ++ a ++ t /\ Forall (sepc win) t /\
    (device win p \/ (p = [] /\ forall p' r, device win p' -> x <> p' ++ r)) /\
    (forall a' c, a = a' ++ [c] -> ~ sepc win c).

(** Equal texts when ASCII letters count as capitals. *)
Definition same (a b : list Z) : Prop := map CharUpperAsASCII a = map CharUpperAsASCII b.

Lemma device_starts win x : starts [sep win; sep win; qdot; sep win] x = true <-> exists p r, device win p /\ x = p ++ r.
Proof.
  split.
  - intros H. destruct x as [|a [|b [|q [|c r]]]]; cbn in H; rewrite ?andb_false_r in H; try discriminate.
    rewrite !andb_true_r, !andb_true_iff in H. destruct H as (Ha & Hb & Hq & Hc).
    exists [a; b; q; c], r. split; [|reflexivity]. exists a, b, q, c. rewrite !sep_iff in *.
    unfold qdot, either in Hq. apply orb_prop in Hq. rewrite !Z.eqb_eq in Hq. auto.
  - intros (p & r & (a & b & q & c & -> & Ha & Hb & Hc & Hq) & ->). cbn.
    rewrite !andb_true_iff. rewrite <- sep_iff in *. unfold qdot, either. rewrite orb_true_iff, !Z.eqb_eq. auto.
Qed.

Lemma drop_end_all win t : Forall (sepc win) t -> drop_end win t = [].
Proof. induction 1 as [|c t Hc _ IH]; [reflexivity|]. cbn. rewrite IH. apply sep_iff in Hc. rewrite Hc. reflexivity. Qed.
Lemma drop_end_app win a t : Forall (sepc win) t -> (forall a' c, a = a' ++ [c] -> ~ sepc win c) -> drop_end win (a ++ t) = a.
Proof.
  intros Ht. induction a as [|x a IH]; intros Ha; [apply drop_end_all, Ht|].
  cbn. rewrite IH by (intros a' c E; apply (Ha (x :: a') c); rewrite E; reflexivity).
  destruct a; [|reflexivity]. assert (N : sep win x = false) by (apply sep_false, (Ha [] x eq_refl)). rewrite N. reflexivity.
Qed.

Lemma names_strip win x a : names win x a -> drop_end win (strip_dev win x) = a.
Proof.
  intros (p & t & -> & Ht & Hp & Ha). unfold strip_dev.
  destruct Hp as [Hp|[-> Hp]].
  - assert (E : starts [sep win; sep win; qdot; sep win] (p ++ a ++ t) = true) by (apply device_starts; eauto).
    rewrite E. destruct Hp as (a1 & b & q & c & -> & _). cbn [app skipn]. apply drop_end_app; assumption.
  - destruct (starts _ _) eqn:E.
    + apply device_starts in E as (p' & r & D & E). exfalso. exact (Hp p' r D E).
    + cbn [app]. apply drop_end_app; assumption.
Qed.

Lemma differI_same a : forall b, length a = length b -> (differI a b = true <-> ~ same a b).
Proof.
  induction a as [|x a IH]; intros [|y b] L; try discriminate.
  - cbn. unfold same. split; [discriminate|intros H; exfalso; apply H; reflexivity].
  - cbn. unfold same. cbn. injection L as L. specialize (IH b L). unfold same in IH.
    destruct (Z.eqb_spec (CharUpperAsASCII x) (CharUpperAsASCII y)) as [E|E].
    + rewrite IH, E. split; intros H H'; apply H; congruence.
    + split; [|reflexivity]. intros _ H. injection H as H _. contradiction.
Qed.

(** Every path has a volume text in this sense. *)
Lemma names_total win x : exists a, names win x a.
Proof.
  assert (G : forall y, exists a t, y = a ++ t /\ Forall (sepc win) t /\ (forall a' c, a = a' ++ [c] -> ~ sepc win c)).
  { induction y as [|c y IH] using rev_ind.
    - exists [], []. repeat split; auto. intros a' c E. destruct a'; discriminate.
    - destruct (sep win c) eqn:E.
      + destruct IH as (a & t & -> & Ht & Ha). exists a, (t ++ [c]). rewrite app_assoc. split; [reflexivity|]. split; [|exact Ha].
        apply Forall_app. split; [exact Ht|]. constructor; [apply sep_iff, E|constructor].
      + exists (y ++ [c]), []. rewrite app_nil_r. repeat split; auto. intros a' c' E'. apply app_inj_tail in E' as [_ <-]. apply sep_false, E. }
  destruct (starts [sep win; sep win; qdot; sep win] x) eqn:E.
  - apply device_starts in E as (p & r & D & ->). destruct (G r) as (a & t & -> & Ht & Ha). exists a, p, t. auto.
  - destruct (G x) as (a & t & Ex & Ht & Ha). exists a, [], t. cbn. repeat split; auto. right. split; [reflexivity|].
    intros p' r D E'. assert (starts [sep win; sep win; qdot; sep win] x = true) by (apply device_starts; eauto). congruence.
Qed.

(** IsSameVolume says yes exactly for different volumes whose names have the same length. *)
Theorem C77_same_volume_exact : forall win x y a b, names win x a -> names win y b ->
  (IsSameVolume win x y = true <-> length a = length b /\ ~ same a b).
Proof.
  intros win x y a b Hx Hy. unfold IsSameVolume. rewrite (names_strip _ _ _ Hx), (names_strip _ _ _ Hy).
  destruct (Nat.eqb_spec (length a) (length b)) as [E|E]; cbn [negb].
  - rewrite differI_same by exact E. tauto.
  - split; [discriminate|tauto].
Qed.

(** So it never says yes for the same volume, and says yes for all different drives. *)
Theorem C77_same_volume_refuted : forall win x y a b, names win x a -> names win y b ->
  (same a b -> IsSameVolume win x y = false) /\
  (forall c d, a = [c; 58] -> b = [d; 58] -> CharUpperAsASCII c <> CharUpperAsASCII d -> IsSameVolume win x y = true).
Proof.
  intros win x y a b Hx Hy. pose proof (C77_same_volume_exact win x y a b Hx Hy) as H. split.
  - intros S. destruct (IsSameVolume win x y); [|reflexivity]. destruct H as [H _]. destruct (H eq_refl) as [_ N]. contradiction.
  - intros c d -> -> N. apply H. split; [reflexivity|]. unfold same. cbn. congruence.
Qed.

(** [\\?\C:\] and [c:]; [D:/] and [C:]. *)
Example ex_volume :
  names true [92; 92; 63; 92; 67; 58; 92] [67; 58] /\ names true [99; 58] [99; 58] /\ same [67; 58] [99; 58] /\
  IsSameVolume true [92; 92; 63; 92; 67; 58; 92] [99; 58] = false /\
  IsSameVolume true [68; 58; 47] [67; 58] = true.
Proof.
  assert (S : forall c, c = 92 \/ c = 47 -> sepc true c) by (intros c [->| ->]; [right|left]; auto).
  assert (L : forall k a' c, [k; 58] = a' ++ [c] -> ~ sepc true c).
  { intros k a' c E. change [k; 58] with ([k] ++ [58]) in E. apply app_inj_tail in E as [_ <-]. intros [H|[_ H]]; discriminate. }
  split; [|split; [|split; [reflexivity|split; reflexivity]]].
  - exists [92; 92; 63; 92], [92]. split; [reflexivity|]. split; [constructor; auto|]. split; [|apply L].
    left. exists 92, 92, 63, 92. split; [reflexivity|]. auto 8.
  - exists [], []. split; [reflexivity|]. split; [constructor|]. split; [|apply L]. right. split; [reflexivity|].
    intros p' r (a & b & q & c & -> & [H|[_ H]] & _) E; subst; discriminate.
Qed.

(** An ANSI text is appended in a buffer that has room for both, and whenever there is
    one. *)
Theorem C129_room : forall lock src d h d', lock_ok lock -> ansi_to_ansi lock src (Some d) = (h, Some d') ->
  txt src <> [] -> txt d <> [] ->
  (h = Sok -> txt d' = txt d ++ txt src /\ page d' = page d /\ exists k n cap, lock k n = Some cap /\ zlen (txt d') <= cap) /\
  ((forall k n, n <= zlen (txt d) + zlen (txt src) -> lock k n <> None) -> h = Sok).
Proof.
  intros lock src d h d' Hl H Ns Nd. unfold ansi_to_ansi, view_to_ansi in H.
  assert (E1 : (zlen (txt src) =? 0) = false) by (apply Z.eqb_neq; intros E; apply Ns, zlen_nil, E).
  assert (E2 : (zlen (txt d) =? 0) = false) by (apply Z.eqb_neq; intros E; apply Nd, zlen_nil, E).
  rewrite E1, E2 in H. destruct (lock 0%nat (zlen (txt d) + zlen (txt src))) as [cap|] eqn:El; injection H as <- <-.
  - split; [|reflexivity]. intros _. cbn. split; [reflexivity|]. split; [reflexivity|].
    exists 0%nat, (zlen (txt d) + zlen (txt src)), cap. split; [exact El|].
    apply Hl in El. unfold zlen in *. rewrite app_length. lia.
  - split; [discriminate|]. intros G. exfalso. apply (G 0%nat (zlen (txt d) + zlen (txt src))); [lia|exact El].
Qed.
Example ex_room : lock_ok toy_lock /\ ansi_to_ansi toy_lock (Str [66] 1252) (Some (Str [65] 1252)) = (Sok, Some (Str [65; 66] 1252)).
Proof. split; [exact toy_lock_ok|reflexivity]. Qed.

Print Assumptions C77_same_volume_exact.
Print Assumptions C77_same_volume_refuted.
Print Assumptions C129_room.
