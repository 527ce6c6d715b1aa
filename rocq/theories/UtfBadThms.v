(** What the transcoders of UtfModel.v make of text that is not well formed: C147 and C148. *)
From Coq Require Import ZArith Lia Bool List ZifyBool.
From Verif Require Import Word UtfModel UtfProofs UtfThms.
Import ListNotations.
Local Open Scope Z_scope.
Ltac Zify.zify_post_hook ::= Z.to_euclidean_division_equations.

(** ** Specification *)
Definition byte (b : Z) : Prop := 0 <= b < 256.
Definition unit16 (u : Z) : Prop := 0 <= u < 65536.
Definition trail (b : Z) : Prop := 128 <= b < 192.
Definition low (u : Z) : Prop := 56320 <= u < 57344.
(** How many bytes have to follow a first byte. *)
Definition follow (b : Z) : nat := if b <? 224 then 1%nat else if b <? 240 then 2%nat else 3%nat.

(** What a UTF-8 text means: '?' stands for a byte that is part of no character, and for an incomplete
    character at the end. *)
Inductive utf8 : list Z -> list Z -> Prop :=
| u8_end : utf8 [] []
| u8_char c s t : scalar c -> utf8 s t -> utf8 (enc8 c ++ s) (c :: t)
| u8_stray b s t : trail b \/ 248 <= b < 256 -> utf8 s t -> utf8 (b :: s) (63 :: t)
| u8_broken b s t : 192 <= b < 248 -> (follow b <= length s)%nat -> ~ Forall trail (firstn (follow b) s) ->
    utf8 s t -> utf8 (b :: s) (63 :: t)
| u8_cut b s : 192 <= b < 248 -> (length s < follow b)%nat -> Forall trail s -> utf8 (b :: s) [63].

(** Forms that UTF-8 forbids: too long ones, surrogates, and numbers that are no code points. *)
Inductive forbidden : list Z -> Prop :=
| f_long2 a b : 192 <= a < 194 -> trail b -> forbidden [a; b]
| f_long3 b c : 128 <= b < 160 -> trail c -> forbidden [224; b; c]
| f_surrogate b c : 160 <= b < 192 -> trail c -> forbidden [237; b; c]
| f_long4 b c d : 128 <= b < 144 -> trail c -> trail d -> forbidden [240; b; c; d]
| f_large b c d : 144 <= b < 192 -> trail c -> trail d -> forbidden [244; b; c; d]
| f_large' a b c d : 245 <= a < 248 -> trail b -> trail c -> trail d -> forbidden [a; b; c; d].
(** A first byte so near to the end that its character cannot be complete, with other text behind it. *)
Definition short_tail (s : list Z) : Prop := exists p b r, s = p ++ b :: r /\ 192 <= b < 248
  /\ (length r < follow b)%nat /\ ~ Forall trail r.
Definition has_forbidden (s : list Z) : Prop := exists p q r, s = p ++ q ++ r /\ forbidden q.

(** What a UTF-16 text means: '?' stands for a surrogate that is alone. *)
Inductive utf16 : list Z -> list Z -> Prop :=
| u16_end : utf16 [] []
| u16_char c s t : scalar c -> utf16 s t -> utf16 (enc16 c ++ s) (c :: t)
| u16_alone u s t : 55296 <= u < 57344 -> ~ (u < 56320 /\ exists v r, s = v :: r /\ low v) ->
    utf16 s t -> utf16 (u :: s) (63 :: t).
Definition well8 (l : list Z) : Prop := exists cs, Forall scalar cs /\ l = flat_map enc8 cs.
Definition well16 (l : list Z) : Prop := exists cs, Forall scalar cs /\ l = flat_map enc16 cs.

(** ** UTF-8 *)
Lemma cont_trail : forall b, byte b -> (cont b = true <-> trail b).
Proof.
  intros b H. unfold trail.
  assert (E : Bool.eqb (cont b) ((128 <=? b) && (b <? 192)) = true).
  { apply (all_below 256 (fun b => Bool.eqb (cont b) ((128 <=? b) && (b <? 192)))); [vm_compute; reflexivity|exact H]. }
  apply eqb_prop in E. rewrite E. lia.
Qed.
Lemma cont_all : forall l, Forall byte l -> (forallb cont l = true <-> Forall trail l).
Proof.
  intros l F. rewrite forallb_forall, Forall_forall. rewrite Forall_forall in F.
  split; intros H x I; specialize (H x I); specialize (F x I); apply (cont_trail x F); exact H.
Qed.

(** One byte that is replaced. *)
Lemma u8_u16_mark : forall sw b s d, Forall byte (b :: s) ->
  (trail b \/ 248 <= b < 256)
  \/ (192 <= b < 248 /\ (follow b <= length s)%nat /\ ~ Forall trail (firstn (follow b) s)) ->
  (length (out d) < cap d)%nat ->
  u8_u16_loop sw (b :: s) d = u8_u16_loop sw s (mkdst (out d ++ [sw qmark]) (cap d)).
Proof.
  intros sw b s d F H C. inversion F as [|? ? _ Fs]; subst.
  destruct H as [[H|H]|(H & L & N)]; cbn [u8_u16_loop].
  - unfold trail in H. replace (248 <=? b) with false by lia. replace (240 <=? b) with false by lia.
    replace (224 <=? b) with false by lia. replace (192 <=? b) with false by lia. replace (128 <=? b) with true by lia.
    rewrite put_ok by exact C. reflexivity.
  - replace (248 <=? b) with true by lia. rewrite put_ok by exact C. reflexivity.
  - replace (248 <=? b) with false by lia. unfold follow in *.
    assert (K : forallb cont (firstn (if b <? 224 then 1%nat else if b <? 240 then 2%nat else 3%nat) s) = false).
    { apply not_true_is_false. intros T. apply N. apply cont_all; [|exact T].
      rewrite Forall_forall in Fs |- *. intros x I. apply Fs. rewrite <- (firstn_skipn (if b <? 224 then 1 else if b <? 240 then 2 else 3) s).
      apply in_or_app. left. exact I. }
    destruct (Z.ltb_spec b 224) as [B|B]; [|destruct (Z.ltb_spec b 240) as [B'|B']].
    + replace (240 <=? b) with false by lia. replace (224 <=? b) with false by lia. replace (192 <=? b) with true by lia.
      destruct s as [|b1 s]; cbn [length] in L; [lia|]. cbn [firstn forallb] in K. rewrite andb_true_r in K. rewrite K.
      rewrite put_ok by exact C. reflexivity.
    + replace (240 <=? b) with false by lia. replace (224 <=? b) with true by lia.
      destruct s as [|b1 [|b2 s]]; cbn [length] in L; try lia. cbn [firstn forallb] in K. rewrite andb_true_r in K. rewrite K.
      rewrite put_ok by exact C. reflexivity.
    + replace (240 <=? b) with true by lia.
      destruct s as [|b1 [|b2 [|b3 s]]]; cbn [length] in L; try lia. cbn [firstn forallb] in K. rewrite andb_true_r, andb_assoc in K. rewrite K.
      rewrite put_ok by exact C. reflexivity.
Qed.
Lemma u8_u16_stop : forall sw b s d, 192 <= b < 248 -> (length s < follow b)%nat ->
  u8_u16_loop sw (b :: s) d = Some (d, true).
Proof.
  intros sw b s d H L. cbn [u8_u16_loop]. replace (248 <=? b) with false by lia. unfold follow in L.
  destruct (Z.ltb_spec b 224) as [B|B]; [|destruct (Z.ltb_spec b 240) as [B'|B']].
  - replace (240 <=? b) with false by lia. replace (224 <=? b) with false by lia. replace (192 <=? b) with true by lia.
    destruct s; [reflexivity|cbn [length] in L; lia].
  - replace (240 <=? b) with false by lia. replace (224 <=? b) with true by lia.
    destruct s as [|? [|? ?]]; try reflexivity. cbn [length] in L; lia.
  - replace (240 <=? b) with true by lia.
    destruct s as [|? [|? [|? ?]]]; try reflexivity. cbn [length] in L; lia.
Qed.
(** The loop and the '?' behind it. *)
Lemma u8_u16_means : forall sw s t, utf8 s t -> Forall byte s -> forall d, (length (out d) + length s <= cap d)%nat ->
  match u8_u16_loop sw s d with
  | Some (d', b) => out d' ++ (if b then [sw qmark] else []) = out d ++ map sw (flat_map enc16 t)
       /\ cap d' = cap d /\ (length (out d') + (if b then 1 else 0) <= cap d)%nat
  | None => False
  end.
Proof.
  intros sw s t U. induction U as [|c s t Sc U IH|b s t H U IH|b s t H L N U IH|b s H L T]; intros F d C.
  - cbn. rewrite !app_nil_r. split; [reflexivity|]. split; [reflexivity|]. lia.
  - assert (E := enc_len c). rewrite app_length in C. apply Forall_app in F. destruct F as [_ F].
    rewrite u8_u16_step by (assumption || lia). specialize (IH F (mkdst (out d ++ map sw (enc16 c)) (cap d))).
    cbn [out cap] in IH. rewrite app_length, map_length in IH. specialize (IH ltac:(lia)).
    destruct (u8_u16_loop sw s _) as [[d' b]|]; [|exact IH]. destruct IH as (IH & C' & L'). cbn [flat_map]. rewrite map_app, app_assoc.
    split; [exact IH|]. split; [exact C'|exact L'].
  - cbn [length] in C. rewrite u8_u16_mark by (assumption || lia || (left; exact H)). inversion F as [|? ? _ Fs]; subst.
    specialize (IH Fs (mkdst (out d ++ [sw qmark]) (cap d))). cbn [out cap] in IH. rewrite app_length in IH. specialize (IH ltac:(cbn [length]; lia)).
    destruct (u8_u16_loop sw s _) as [[d' b']|]; [|exact IH]. destruct IH as (IH & C' & L'). rewrite IH, <- app_assoc.
    split; [reflexivity|]. split; [exact C'|exact L'].
  - cbn [length] in C. rewrite u8_u16_mark by (assumption || lia || (right; auto)). inversion F as [|? ? _ Fs]; subst.
    specialize (IH Fs (mkdst (out d ++ [sw qmark]) (cap d))). cbn [out cap] in IH. rewrite app_length in IH. specialize (IH ltac:(cbn [length]; lia)).
    destruct (u8_u16_loop sw s _) as [[d' b']|]; [|exact IH]. destruct IH as (IH & C' & L'). rewrite IH, <- app_assoc.
    split; [reflexivity|]. split; [exact C'|exact L'].
  - rewrite u8_u16_stop by assumption. cbn [length] in C. split; [reflexivity|]. split; [reflexivity|]. lia.
Qed.
Lemma once_means : forall g sw old s t, granted g -> plenty g -> utf8 s t -> Forall byte s ->
  once g (u8_u16_loop sw s) (sw qmark) (length s) old s = Done (old ++ map sw (flat_map enc16 t)).
Proof.
  intros g sw old s t G P U F. unfold once. destruct s as [|b s].
  { inversion U as [|c s' t' Sc U' E| | |]; subst; [cbn; rewrite app_nil_r; reflexivity|].
    exfalso. revert E. unfold enc8. destruct (c <? 128), (c <? 2048), (c <? 65536); discriminate. }
  destruct (g 0%nat _) as [c|] eqn:E; [|destruct (P _ _ E)]. apply G in E.
  assert (M := u8_u16_means sw _ _ U F (mkdst old c) E). destruct (u8_u16_loop sw (b :: s) _) as [[d' st]|]; [|destruct M].
  cbn [out cap] in M. destruct M as (M & C & L). destruct st.
  - rewrite put_ok by lia. cbn [out]. rewrite M. reflexivity.
  - rewrite app_nil_r in M. rewrite M. reflexivity.
Qed.
Lemma means_scalar : forall s t, utf8 s t -> Forall scalar t.
Proof. intros s t U. induction U; constructor; try assumption; try (unfold scalar; lia). constructor. Qed.

Lemma forbidden_more : forall p s, has_forbidden s -> has_forbidden (p ++ s).
Proof. intros p s (p' & q & r & -> & H). exists (p ++ p'), q, r. rewrite <- app_assoc. split; [reflexivity|exact H]. Qed.
Lemma short_more : forall p s, short_tail s -> short_tail (p ++ s).
Proof. intros p s (p' & b & r & -> & H). exists (p ++ p'), b, r. rewrite <- app_assoc. split; [reflexivity|exact H]. Qed.
Lemma trail_dec : forall l, Forall trail l \/ ~ Forall trail l.
Proof.
  intros l. destruct (Forall_dec trail) with (l := l) as [H|H]; [|left; exact H|right; exact H].
  intros x. unfold trail. destruct (Z_le_dec 128 x), (Z_lt_dec x 192); [left; lia|right; lia|right; lia|right; lia].
Qed.
(** Every text has a meaning, unless it contains one of the two. *)
Lemma utf8_total : forall n s, (length s <= n)%nat -> Forall byte s -> (exists t, utf8 s t) \/ has_forbidden s \/ short_tail s.
Proof.
  induction n as [|n IH]; intros s L F.
  { destruct s; [|cbn [length] in L; lia]. left. exists []. constructor. }
  destruct s as [|b s]; [left; exists []; constructor|]. cbn [length] in L.
  inversion F as [|? ? Fb Fs]; subst.
  assert (More : forall c q r, scalar c -> b :: s = q ++ r -> enc8 c = q -> (length r <= n)%nat -> Forall byte r ->
    (exists t, utf8 (b :: s) t) \/ has_forbidden (b :: s) \/ short_tail (b :: s)).
  { intros c q r Sc E Q Lr Fr. rewrite E. destruct (IH r Lr Fr) as [[t U]|[H|H]].
    - left. exists (c :: t). rewrite <- Q. constructor; assumption.
    - right; left. apply forbidden_more. exact H.
    - right; right. apply short_more. exact H. }
  assert (Mark : (forall t, utf8 s t -> utf8 (b :: s) (63 :: t)) ->
    (exists t, utf8 (b :: s) t) \/ has_forbidden (b :: s) \/ short_tail (b :: s)).
  { intros K. destruct (IH s ltac:(lia) Fs) as [[t U]|[H|H]].
    - left. exists (63 :: t). apply K. exact U.
    - right; left. apply (forbidden_more [b]). exact H.
    - right; right. apply (short_more [b]). exact H. }
  unfold byte in Fb. destruct (Z_lt_dec b 128) as [B|B].
  { apply (More b [b] s); [unfold scalar; lia|reflexivity| |lia|exact Fs]. unfold enc8. replace (b <? 128) with true by lia. reflexivity. }
  destruct (Z_lt_dec b 192) as [B1|B1]; [apply Mark; intros t U; apply u8_stray; [unfold trail; lia|exact U]|].
  destruct (Z_lt_dec b 248) as [B2|B2]; [|apply Mark; intros t U; apply u8_stray; [lia|exact U]].
  destruct (Nat.lt_ge_cases (length s) (follow b)) as [S|S].
  { destruct (trail_dec s) as [T|T].
    - left. exists [63]. apply u8_cut; [lia|exact S|exact T].
    - right; right. exists [], b, s. split; [reflexivity|]. split; [lia|]. split; assumption. }
  destruct (trail_dec (firstn (follow b) s)) as [T|T]; [|apply Mark; intros t U; apply u8_broken; [lia|exact S|exact T|exact U]].
  unfold follow in *. destruct (Z.ltb_spec b 224) as [A|A]; [|destruct (Z.ltb_spec b 240) as [A'|A']].
  - destruct s as [|b1 s]; [cbn [length] in S; lia|]. cbn [firstn] in T. inversion T as [|? ? T1 _]; subst.
    inversion Fs as [|? ? _ F1]; subst. cbn [length] in *. unfold trail in T1. destruct (Z_lt_dec b 194) as [O|O].
    + right; left. exists [], [b; b1], s. split; [reflexivity|]. constructor; [lia|exact T1].
    + apply (More ((b - 192) * 64 + (b1 - 128)) [b; b1] s); [unfold scalar; lia|reflexivity| |lia|exact F1].
      unfold enc8. replace (_ <? 128) with false by lia. replace (_ <? 2048) with true by lia.
      f_equal; [clear - T1; lia|f_equal; clear - T1; lia].
  - destruct s as [|b1 [|b2 s]]; cbn [length] in S; try lia. cbn [firstn] in T. inversion T as [|? ? T1 T']; subst. inversion T' as [|? ? T2 _]; subst.
    inversion Fs as [|? ? _ F1]; subst. inversion F1 as [|? ? _ F2]; subst. cbn [length] in *.
    destruct (Z.eq_dec b 224) as [->|N1]; [destruct (Z_lt_dec b1 160) as [O|O]|destruct (Z.eq_dec b 237) as [->|N2]; [destruct (Z_le_dec 160 b1) as [O|O]|]].
    + right; left. exists [], [224; b1; b2], s. split; [reflexivity|]. unfold trail in T1. constructor; [lia|exact T2].
    + unfold trail in T1, T2. apply (More ((224 - 224) * 4096 + (b1 - 128) * 64 + (b2 - 128)) [224; b1; b2] s); [unfold scalar; lia|reflexivity| |lia|exact F2].
      unfold enc8. replace (_ <? 128) with false by lia. replace (_ <? 2048) with false by lia. replace (_ <? 65536) with true by lia.
      f_equal; [clear - T1 T2; lia|f_equal; [clear - T1 T2; lia|f_equal; clear - T1 T2; lia]].
    + right; left. exists [], [237; b1; b2], s. split; [reflexivity|]. unfold trail in T1. constructor; [lia|exact T2].
    + unfold trail in T1, T2. apply (More ((237 - 224) * 4096 + (b1 - 128) * 64 + (b2 - 128)) [237; b1; b2] s); [unfold scalar; lia|reflexivity| |lia|exact F2].
      unfold enc8. replace (_ <? 128) with false by lia. replace (_ <? 2048) with false by lia. replace (_ <? 65536) with true by lia.
      f_equal; [clear - T1 T2; lia|f_equal; [clear - T1 T2; lia|f_equal; clear - T1 T2; lia]].
    + unfold trail in T1, T2. apply (More ((b - 224) * 4096 + (b1 - 128) * 64 + (b2 - 128)) [b; b1; b2] s); [unfold scalar; lia|reflexivity| |lia|exact F2].
      unfold enc8. replace (_ <? 128) with false by lia. replace (_ <? 2048) with false by lia. replace (_ <? 65536) with true by lia.
      f_equal; [clear - T1 T2; lia|f_equal; [clear - T1 T2; lia|f_equal; clear - T1 T2; lia]].
  - destruct s as [|b1 [|b2 [|b3 s]]]; cbn [length] in S; try lia. cbn [firstn] in T. inversion T as [|? ? T1 T']; subst. inversion T' as [|? ? T2 T'']; subst.
    inversion T'' as [|? ? T3 _]; subst.
    inversion Fs as [|? ? _ F1]; subst. inversion F1 as [|? ? _ F2]; subst. inversion F2 as [|? ? _ F3]; subst. cbn [length] in *.
    destruct (Z_le_dec 245 b) as [N0|N0].
    { right; left. exists [], [b; b1; b2; b3], s. split; [reflexivity|]. apply f_large'; [lia|assumption..]. }
    assert (D : (b = 240 /\ b1 < 144) \/ (b = 244 /\ 144 <= b1) \/ (b = 240 /\ 144 <= b1) \/ 241 <= b < 244 \/ (b = 244 /\ b1 < 144)) by lia.
    destruct D as [[-> O]|[[-> O]|D]].
    + right; left. exists [], [240; b1; b2; b3], s. split; [reflexivity|]. unfold trail in T1. constructor; [lia|assumption..].
    + right; left. exists [], [244; b1; b2; b3], s. split; [reflexivity|]. unfold trail in T1. constructor; [lia|assumption..].
    + unfold trail in T1, T2, T3. apply (More ((b - 240) * 262144 + (b1 - 128) * 4096 + (b2 - 128) * 64 + (b3 - 128)) [b; b1; b2; b3] s);
        [unfold scalar; lia|reflexivity| |lia|exact F3].
      unfold enc8. replace (_ <? 128) with false by lia. replace (_ <? 2048) with false by lia. replace (_ <? 65536) with false by lia.
      f_equal; [clear - T1 T2 T3; lia|f_equal; [clear - T1 T2 T3; lia|f_equal; [clear - T1 T2 T3; lia|f_equal; clear - T1 T2 T3; lia]]].
Qed.

(** ** C147: what is malformed becomes '?', everything else is converted *)
Theorem C147_means : forall g old s t, granted g -> plenty g -> Forall byte s -> utf8 s t ->
  Forall scalar t
  /\ u8_u16LE g old s = Done (old ++ flat_map enc16 t)
  /\ u8_u16BE g old s = Done (old ++ map store_be16 (flat_map enc16 t)).
Proof.
  intros g old s t G P F U. assert (St := means_scalar s t U). split; [exact St|]. unfold u8_u16LE, u8_u16BE. split.
  - change qmark with (same qmark). rewrite (once_means g same old s t G P U F). unfold same. rewrite map_id. reflexivity.
  - rewrite (once_means g bswap16 old s t G P U F). rewrite swap16_units by (apply enc16_range; exact St). reflexivity.
Qed.
Theorem C147_marked_partial : forall g old s, granted g -> plenty g -> Forall byte s -> ~ has_forbidden s -> ~ short_tail s ->
  exists t, utf8 s t /\ u8_u16LE g old s = Done (old ++ flat_map enc16 t)
    /\ u8_u16BE g old s = Done (old ++ map store_be16 (flat_map enc16 t)) /\ well16 (flat_map enc16 t).
Proof.
  intros g old s G P F N1 N2. destruct (utf8_total (length s) s (le_n _) F) as [[t U]|[H|H]]; [|destruct (N1 H)|destruct (N2 H)].
  destruct (C147_means g old s t G P F U) as (St & A & B). exists t. split; [exact U|]. split; [exact A|]. split; [exact B|].
  exists t. split; [exact St|reflexivity].
Qed.
(** A stray byte, a first byte followed by "ab", and an incomplete euro sign at the end. *)
Example C147_case : utf8 [65; 128; 228; 97; 98; 226; 130] [65; 63; 63; 97; 98; 63]
  /\ u8_u16LE exact [120] [65; 128; 228; 97; 98; 226; 130] = Done [120; 65; 63; 63; 97; 98; 63].
Proof.
  split; [|vm_compute; reflexivity].
  apply (u8_char 65 [128; 228; 97; 98; 226; 130]); [unfold scalar; lia|].
  apply u8_stray; [left; unfold trail; lia|]. apply u8_broken; [lia|vm_compute; lia| |].
  - intros H. inversion H as [|? ? T _]. unfold trail in T. lia.
  - apply (u8_char 97 [98; 226; 130]); [unfold scalar; lia|]. apply (u8_char 98 [226; 130]); [unfold scalar; lia|].
    apply u8_cut; [lia|vm_compute; lia|]. repeat constructor; unfold trail; lia.
Qed.

(** The first unit of a well-formed text is no low surrogate, and a high one is not alone. *)
Lemma enc16_head : forall x l, scalar x -> exists u r, enc16 x ++ l = u :: r /\ (u < 56320 \/ 57344 <= u)
  /\ (55296 <= u < 57344 -> r <> []).
Proof.
  intros x l Sx. unfold enc16, scalar in *. destruct (Z.ltb_spec x 65536) as [L|L].
  - exists x, l. split; [reflexivity|]. lia.
  - exists (55296 + (x - 65536) / 1024), (56320 + (x - 65536) mod 1024 :: l). split; [reflexivity|].
    split; [|discriminate]. assert (D : (x - 65536) / 1024 < 1024) by (apply Z.div_lt_upper_bound; lia). clear - D. lia.
Qed.
Lemma alone16 : forall c, 55296 <= c < 57344 -> ~ well16 [c].
Proof.
  intros c H (cs & F & E). destruct cs as [|x cs]; [discriminate|]. inversion F as [|? ? Sx F']; subst. cbn [flat_map] in E.
  destruct (enc16_head x (flat_map enc16 cs) Sx) as (u & r & E' & _ & R). rewrite E' in E. inversion E. subst. apply R; [exact H|reflexivity].
Qed.
(** Every ASCII character, the terminator and the slash included, has a second form in two bytes, which the
    code accepts. *)
Theorem C147_overlong_refuted : forall g old c, granted g -> plenty g -> 0 <= c < 128 ->
  has_forbidden [192 + c / 64; 128 + c mod 64]
  /\ u8_u16LE g old [192 + c / 64; 128 + c mod 64] = Done (old ++ [c]).
Proof.
  intros g old c G P H. split.
  - exists [], [192 + c / 64; 128 + c mod 64], []. split; [reflexivity|]. constructor; unfold trail; lia.
  - unfold u8_u16LE. apply once_text; [exact G|exact P|discriminate|]. intros k Hk. cbn [length] in Hk. cbn [u8_u16_loop].
    replace (248 <=? 192 + c / 64) with false by lia. replace (240 <=? 192 + c / 64) with false by lia.
    replace (224 <=? 192 + c / 64) with false by lia. replace (192 <=? 192 + c / 64) with true by lia.
    rewrite cont_ok by lia. unfold low6, to16. rewrite land31, land63, lor2 by lia.
    replace (((192 + c / 64) mod 32 * 64 + (128 + c mod 64) mod 64) mod 65536) with c by (clear - H; lia).
    rewrite put_ok by (cbn [out cap]; lia). reflexivity.
Qed.
Theorem C147_surrogate_refuted : forall g old c, granted g -> plenty g -> 55296 <= c < 57344 ->
  u8_u16LE g old [224 + c / 4096; 128 + c / 64 mod 64; 128 + c mod 64] = Done (old ++ [c]) /\ ~ well16 [c].
Proof.
  intros g old c G P H. split; [|apply alone16; exact H].
  unfold u8_u16LE. apply once_text; [exact G|exact P|discriminate|]. intros k Hk. cbn [length] in Hk. cbn [u8_u16_loop].
  replace (248 <=? 224 + c / 4096) with false by lia. replace (240 <=? 224 + c / 4096) with false by lia.
  replace (224 <=? 224 + c / 4096) with true by lia.
  rewrite !cont_ok by lia. cbn [andb]. unfold low6, to16. rewrite land15, !land63, lor3 by lia.
  replace (((224 + c / 4096) mod 16 * 4096 + (128 + c / 64 mod 64) mod 64 * 64 + (128 + c mod 64) mod 64) mod 65536)
    with c by (clear - H; lia).
  rewrite put_ok by (cbn [out cap]; lia). reflexivity.
Qed.
(** Numbers behind the last code point become two low surrogates. *)
Theorem C147_number_refuted : forall g old c, granted g -> plenty g -> 1114112 <= c < 1310720 ->
  exists a b, low a /\ low b /\ ~ well16 [a; b]
    /\ u8_u16LE g old [240 + c / 262144; 128 + c / 4096 mod 64; 128 + c / 64 mod 64; 128 + c mod 64] = Done (old ++ [a; b]).
Proof.
  intros g old c G P H. exists (55296 + (c - 65536) / 1024), (56320 + (c - 65536) mod 1024).
  assert (A : low (55296 + (c - 65536) / 1024)) by (unfold low; clear - H; lia).
  split; [exact A|]. split; [unfold low; clear; lia|]. split.
  - revert A. generalize (55296 + (c - 65536) / 1024) (56320 + (c - 65536) mod 1024). clear.
    intros a b A (cs & F & E). destruct cs as [|x cs]; [discriminate|]. inversion F as [|? ? Sx F']; subst. cbn [flat_map] in E.
    destruct (enc16_head x (flat_map enc16 cs) Sx) as (u & r & E' & U & _). rewrite E' in E. inversion E. subst. unfold low in A. lia.
  - unfold u8_u16LE. apply once_text; [exact G|exact P|discriminate|]. intros k Hk. cbn [length] in Hk. cbn [u8_u16_loop].
    replace (248 <=? 240 + c / 262144) with false by (clear - H; lia).
    replace (240 <=? 240 + c / 262144) with true by (clear - H; lia).
    rewrite !cont_ok by (clear; lia). cbn [andb]. unfold low6. rewrite land7, !land63, lor4 by (clear; lia).
    replace ((240 + c / 262144) mod 8 * 262144 + (128 + c / 4096 mod 64) mod 64 * 4096
       + (128 + c / 64 mod 64) mod 64 * 64 + (128 + c mod 64) mod 64) with c by (clear - H; lia).
    rewrite shr, land1023 by lia. change (2 ^ 10) with 1024. unfold to32, to16.
    rewrite (Z.mod_small (c - 65536)) by lia.
    rewrite (Z.mod_small ((c - 65536) / 1024 + 55296)) by (clear - H; lia).
    rewrite (Z.mod_small ((c - 65536) mod 1024 + 56320)) by (clear - H; lia).
    rewrite (Z.add_comm _ 55296), (Z.add_comm _ 56320).
    rewrite puts_ok by (cbn [out cap length]; lia). reflexivity.
Qed.
(** Up to two characters behind a first byte near the end are lost. *)
Theorem C147_tail_refuted : forall g old cs b r, granted g -> plenty g -> Forall scalar cs -> 192 <= b < 248 ->
  (length r < follow b)%nat -> u8_u16LE g old (flat_map enc8 cs ++ b :: r) = Done (old ++ flat_map enc16 cs ++ [63]).
Proof.
  intros g old cs b r G P F H L. unfold u8_u16LE, once.
  destruct (flat_map enc8 cs ++ b :: r) as [|u l] eqn:E; [destruct (flat_map enc8 cs); discriminate|]. rewrite <- E.
  destruct (g 0%nat _) as [c|] eqn:Ec; [|destruct (P _ _ Ec)]. apply G in Ec. rewrite app_length in Ec. cbn [length] in Ec.
  assert (K : forall cs d, Forall scalar cs -> (length (out d) + length (flat_map enc8 cs) <= cap d)%nat ->
    u8_u16_loop same (flat_map enc8 cs ++ b :: r) d = Some (mkdst (out d ++ flat_map enc16 cs) (cap d), true)).
  { clear - H L. intros cs. induction cs as [|x cs IH]; intros d F C.
    - cbn [flat_map app]. rewrite u8_u16_stop by assumption. rewrite app_nil_r. destruct d; reflexivity.
    - inversion F as [|? ? F1 F2]; subst. cbn [flat_map] in *. rewrite app_length in C. assert (E := enc_len x).
      rewrite <- app_assoc, u8_u16_step by (assumption || lia).
      rewrite IH by (cbn [out cap]; try rewrite app_length, map_length; assumption || lia).
      cbn [out cap]. unfold same. rewrite map_id, app_assoc. reflexivity. }
  rewrite K by (cbn [out cap]; assumption || lia). cbn [out cap].
  assert (M : forall cs, (length (flat_map enc16 cs) <= length (flat_map enc8 cs))%nat).
  { clear. induction cs as [|x cs IH]; [reflexivity|]. cbn [flat_map]. rewrite !app_length. assert (E := enc_len x). lia. }
  specialize (M cs). rewrite put_ok by (cbn [out cap]; rewrite app_length; lia). cbn [out]. rewrite <- app_assoc. reflexivity.
Qed.
(** "hi" behind the first byte of an emoji. *)
Example C147_tail_case : u8_u16LE exact [] [65; 240; 104; 105] = Done [65; 63]
  /\ u8_u16LE exact [] [65; 240; 104; 105; 33] = Done [65; 63; 104; 105; 33].
Proof. vm_compute. auto. Qed.

(** ** UTF-16 *)
Lemma utf16_total : forall n s, (length s <= n)%nat -> Forall unit16 s -> exists t, utf16 s t.
Proof.
  induction n as [|n IH]; intros s L F; [destruct s; [exists []; constructor|cbn [length] in L; lia]|].
  destruct s as [|u s]; [exists []; constructor|]. cbn [length] in L. inversion F as [|? ? Fu Fs]; subst.
  unfold unit16 in Fu.
  destruct (Z_lt_dec u 55296) as [A|A]; [|destruct (Z_lt_dec u 57344) as [B|B]].
  - destruct (IH s ltac:(lia) Fs) as [t U]. exists (u :: t). replace (u :: s) with (enc16 u ++ s).
    + constructor; [unfold scalar; lia|exact U].
    + unfold enc16. replace (u <? 65536) with true by lia. reflexivity.
  - assert (D : (u < 56320 /\ exists v r, s = v :: r /\ low v) \/ ~ (u < 56320 /\ exists v r, s = v :: r /\ low v)).
    { destruct s as [|v r]; [right; intros (_ & v & r & E & _); discriminate|].
      assert (D : (u < 56320 /\ low v) \/ ~ (u < 56320 /\ low v)) by (unfold low; lia).
      destruct D as [[D1 D2]|D]; [left; split; [exact D1|exists v, r; split; [reflexivity|exact D2]]|].
      right. intros (D1 & v' & r' & E & D2). inversion E. subst. tauto. }
    destruct D as [(U1 & v & r & -> & V)|D].
    + inversion Fs as [|? ? _ Fr]; subst. cbn [length] in L. destruct (IH r ltac:(lia) Fr) as [t U].
      unfold low in V. set (c := 65536 + (u - 55296) * 1024 + (v - 56320)).
      exists (c :: t). replace (u :: v :: r) with (enc16 c ++ r).
      * constructor; [unfold scalar, c; lia|exact U].
      * unfold enc16. replace (c <? 65536) with false by (unfold c; lia). cbn [app].
        replace (c - 65536) with ((u - 55296) * 1024 + (v - 56320)) by (unfold c; lia).
        f_equal; [clear - V; lia|f_equal; clear - V; lia].
    + destruct (IH s ltac:(lia) Fs) as [t U]. exists (63 :: t). apply u16_alone; [lia|exact D|exact U].
  - destruct (IH s ltac:(lia) Fs) as [t U]. exists (u :: t). replace (u :: s) with (enc16 u ++ s).
    + constructor; [unfold scalar; lia|exact U].
    + unfold enc16. replace (u <? 65536) with true by lia. reflexivity.
Qed.
Lemma utf16_scalar : forall s t, utf16 s t -> Forall scalar t.
Proof. intros s t U. induction U; constructor; try assumption. unfold scalar. lia. Qed.

(** No low surrogate stands directly behind a low surrogate or U+E000. *)
Definition tame (s : list Z) : Prop := forall p a b r, s = p ++ a :: b :: r -> low b -> a < 56320 \/ 57344 < a.
Lemma tame_app : forall p s, tame (p ++ s) -> tame s.
Proof. intros p s H q a b r E. apply (H (p ++ q) a b r). rewrite E, app_assoc. reflexivity. Qed.
Lemma tame_next : forall a s, tame (a :: s) -> 56320 <= a <= 57344 ->
  match s with u :: _ => u < 56320 \/ 57344 <= u | [] => True end.
Proof.
  intros a [|b r] H A; [exact I|]. specialize (H [] a b r eq_refl). unfold low in H.
  destruct (Z_lt_dec b 56320), (Z_le_dec 57344 b); lia.
Qed.

Lemma p16_8_means : forall s t, utf16 s t -> tame s -> fin (p16_8 0 s) = flat_map enc8 (map dec32q t).
Proof.
  intros s t U. induction U as [|c s t H U IH|u s t H N U IH]; intros T; [reflexivity| |].
  - specialize (IH (tame_app _ _ T)). cbn [map flat_map]. rewrite <- IH. unfold enc16. unfold enc16 in T.
    destruct (Z.ltb_spec c 65536) as [L|L].
    + cbn [app p16_8] in *. unfold low_after. cbn [Z.eqb negb andb].
      destruct (Z.eq_dec c 57344) as [->|NE].
      * change (lead8 57344) with 57344. change (w16_8 57344) with (@nil Z). change (enc8 (dec32q 57344)) with [qmark].
        cbn [app]. rewrite <- (p16_8_q 57344 s) by (lia || (apply (tame_next 57344); [exact T|lia])).
        destruct (p16_8 57344 s). reflexivity.
      * assert (E : w16_8 c = enc8 (dec32q c) /\ lead8 c = 0).
        { unfold w16_8, lead8, dec32q, enc8, scalar in *. replace (c =? 57344) with false by lia.
          destruct (Z.ltb_spec c 128); [unfold to8; rewrite Z.mod_small by lia; split; reflexivity|].
          destruct (Z.ltb_spec c 2048); [rewrite form2_spec by lia; split; reflexivity|].
          replace ((c <? 55296) || (57344 <? c)) with true by lia. replace (c <? 65536) with true by lia.
          rewrite form3_spec by lia. split; reflexivity. }
        destruct E as [-> ->]. destruct (p16_8 0 s) as [l e].
        unfold fin. cbn [fst snd app]. rewrite <- app_assoc. reflexivity.
    + assert (R : 65536 <= c < 1114112) by (unfold scalar in H; lia).
      cbn [app]. set (hi := 55296 + (c - 65536) / 1024). set (lo := 56320 + (c - 65536) mod 1024).
      assert (Hhi : 55296 <= hi < 56320) by (unfold hi; clear - R; lia).
      assert (Hlo : 56320 <= lo < 57344) by (unfold lo; clear - R; lia).
      assert (P := pair_spec c R). fold hi lo in P. clear T. clearbody hi lo.
      cbn [p16_8]. unfold low_after at 1. cbn [Z.eqb negb andb]. unfold w16_8, lead8.
      replace (hi <? 128) with false by lia. replace (hi <? 2048) with false by lia.
      replace ((hi <? 55296) || (57344 <? hi)) with false by lia.
      unfold low_after. replace (hi =? 0) with false by lia.
      replace (negb false && (56320 <=? lo) && (lo <? 57344)) with true by lia. rewrite P.
      destruct (p16_8 0 s) as [l e]. unfold fin. cbn [fst snd app]. rewrite <- app_assoc.
      rewrite form4_spec by lia. unfold dec32q, enc8. replace (c =? 57344) with false by lia.
      replace (c <? 128) with false by lia. replace (c <? 2048) with false by lia. replace (c <? 65536) with false by lia.
      reflexivity.
  - specialize (IH (tame_app [u] s T)). cbn [map flat_map]. rewrite <- IH. change (enc8 (dec32q 63)) with [qmark]. cbn [app].
    rewrite <- (p16_8_q u s).
    + cbn [p16_8]. unfold low_after. cbn [Z.eqb negb andb]. unfold w16_8, lead8.
      replace (u <? 128) with false by lia. replace (u <? 2048) with false by lia.
      replace ((u <? 55296) || (57344 <? u)) with false by lia. destruct (p16_8 u s). reflexivity.
    + lia.
    + destruct s as [|v r]; [exact I|]. destruct (Z_lt_dec u 56320) as [A|A].
      * destruct (Z_lt_dec v 56320), (Z_le_dec 57344 v); try lia. exfalso. apply N. split; [exact A|].
        exists v, r. split; [reflexivity|unfold low; lia].
      * apply (tame_next u (v :: r)); [exact T|lia].
Qed.
Lemma p16_32_means : forall s t, utf16 s t -> tame s -> fin32 (p16_32 0 s) = map dec32q t.
Proof.
  intros s t U. induction U as [|c s t H U IH|u s t H N U IH]; intros T; [reflexivity| |].
  - specialize (IH (tame_app _ _ T)). cbn [map]. rewrite <- IH. unfold enc16. unfold enc16 in T.
    destruct (Z.ltb_spec c 65536) as [L|L].
    + cbn [app p16_32] in *. unfold low_after. cbn [Z.eqb negb andb]. unfold lead32.
      destruct (Z.eq_dec c 57344) as [->|NE].
      * change ((55296 <=? 57344) && (57344 <=? 57344)) with true. change (dec32q 57344) with qmark.
        cbn [app]. rewrite <- (p16_32_q 57344 s) by (lia || (apply (tame_next 57344); [exact T|lia])).
        destruct (p16_32 57344 s). reflexivity.
      * unfold dec32q. replace (c =? 57344) with false by lia.
        replace ((55296 <=? c) && (c <=? 57344)) with false by (unfold scalar in H; lia).
        destruct (p16_32 0 s) as [l e]. reflexivity.
    + assert (R : 65536 <= c < 1114112) by (unfold scalar in H; lia).
      cbn [app]. set (hi := 55296 + (c - 65536) / 1024). set (lo := 56320 + (c - 65536) mod 1024).
      assert (Hhi : 55296 <= hi < 56320) by (unfold hi; clear - R; lia).
      assert (Hlo : 56320 <= lo < 57344) by (unfold lo; clear - R; lia).
      assert (P := pair_spec c R). fold hi lo in P. clear T. clearbody hi lo.
      cbn [p16_32]. unfold low_after at 1. cbn [Z.eqb negb andb]. unfold lead32.
      replace ((55296 <=? hi) && (hi <=? 57344)) with true by lia.
      unfold low_after. replace (hi =? 0) with false by lia.
      replace (negb false && (56320 <=? lo) && (lo <? 57344)) with true by lia. rewrite P.
      destruct (p16_32 0 s) as [l e]. unfold dec32q. replace (c =? 57344) with false by lia. reflexivity.
  - specialize (IH (tame_app [u] s T)). cbn [map]. rewrite <- IH. change (dec32q 63) with qmark.
    rewrite <- (p16_32_q u s).
    + cbn [p16_32]. unfold low_after. cbn [Z.eqb negb andb]. unfold lead32.
      replace ((55296 <=? u) && (u <=? 57344)) with true by lia. destruct (p16_32 u s). reflexivity.
    + lia.
    + destruct s as [|v r]; [exact I|]. destruct (Z_lt_dec u 56320) as [A|A].
      * destruct (Z_lt_dec v 56320), (Z_le_dec 57344 v); try lia. exfalso. apply N. split; [exact A|].
        exists v, r. split; [reflexivity|unfold low; lia].
      * apply (tame_next u (v :: r)); [exact T|lia].
Qed.

Lemma pair_any : forall a b, 55296 <= a <= 57344 -> low b -> pair a b = 65536 + (a - 55296) * 1024 + (b - 56320).
Proof.
  intros a b A B. unfold low in B. unfold pair, to32. rewrite shl by lia. change (2 ^ 10) with 1024.
  rewrite (Z.mod_small (a - 55296)) by lia. rewrite (Z.mod_small ((a - 55296) * 1024)) by lia.
  rewrite (Z.mod_small (b - 56320)) by lia.
  change ((a - 55296) * 1024) with ((a - 55296) * 2 ^ 10) at 1. rewrite (lor_disjoint_add (a - 55296) (b - 56320) 10) by (change (2 ^ 10) with 1024; lia).
  change (2 ^ 10) with 1024. rewrite Z.mod_small by lia. lia.
Qed.
Lemma enc8_head : forall x l b0 b1 r, scalar x -> enc8 x ++ l = b0 :: b1 :: r -> 224 <= b0 ->
  (b0 < 240 /\ b0 = 224 + x / 4096 /\ b1 = 128 + x / 64 mod 64 /\ x < 65536)
  \/ (b0 = 240 + x / 4096 / 64 /\ b1 = 128 + x / 4096 mod 64 /\ 65536 <= x).
Proof.
  intros x l b0 b1 r S E B. unfold scalar in S. unfold enc8 in E.
  destruct (Z.ltb_spec x 128); [|destruct (Z.ltb_spec x 2048); [|destruct (Z.ltb_spec x 65536)]]; cbn [app] in E;
    assert (E0 := f_equal (hd 0) E); cbn [hd] in E0.
  - lia.
  - exfalso. assert (x / 64 < 32) by (apply Z.div_lt_upper_bound; lia). clear - E0 B H1. lia.
  - left. assert (E1 := f_equal (fun l => hd 0 (tl l)) E). cbn [hd tl] in E1. clear E. subst b0 b1.
    assert (x / 4096 < 16) by (apply Z.div_lt_upper_bound; lia). split; [clear - H2; lia|]. split; [reflexivity|]. split; [reflexivity|exact H1].
  - right. assert (E1 := f_equal (fun l => hd 0 (tl l)) E). cbn [hd tl] in E1. clear E. subst b0 b1.
    rewrite Z.div_div by lia. split; [reflexivity|]. split; [reflexivity|exact H1].
Qed.
Lemma ill3 : forall c r, 55296 <= c < 57344 -> ~ well8 (224 + c / 4096 :: 128 + c / 64 mod 64 :: r).
Proof.
  intros c r H (cs & F & E). destruct cs as [|x cs]; [discriminate|]. inversion F as [|? ? Sx F']; subst. clear F F'. cbn [flat_map] in E.
  symmetry in E. apply enc8_head in E; [|exact Sx|clear - H; lia]. destruct E as [(B & E0 & E1 & L)|(E0 & _ & L)].
  - assert (K : x / 64 = c / 64).
    { rewrite (Z.div_mod (x / 64) 64), (Z.div_mod (c / 64) 64) by lia.
      rewrite !Z.div_div by lia. change (64 * 64) with 4096. clear - E0 E1. lia. }
    unfold scalar in Sx. clear E0 E1 B. lia.
  - assert (x / 4096 / 64 >= 0) by (clear - L; lia). clear - E0 H0 H. lia.
Qed.
Lemma ill4 : forall q r, 0 <= q < 16 \/ 272 <= q < 512 -> ~ well8 (240 + q / 64 :: 128 + q mod 64 :: r).
Proof.
  intros q r H (cs & F & E). destruct cs as [|x cs]; [discriminate|]. inversion F as [|? ? Sx F']; subst. clear F F'. cbn [flat_map] in E.
  symmetry in E. apply enc8_head in E; [|exact Sx|clear - H; lia]. destruct E as [(B & _)|(E0 & E1 & L)]; [clear - B H; lia|].
  assert (K : x / 4096 = q) by (rewrite (Z.div_mod (x / 4096) 64), (Z.div_mod q 64) by lia; clear - E0 E1; lia).
  unfold scalar in Sx. clear E0 E1. lia.
Qed.

(** ** C148: the result of a conversion is well formed *)
(** What C27 and C75 say about U+E000 holds here, too. *)
Definition shown (c : Z) : Z := if c =? 57344 then 63 else c.
Theorem C148_units_partial : forall g old s, granted g -> plenty g -> Forall unit16 s -> tame s ->
  exists t, utf16 s t /\ Forall scalar t
    /\ u16LE_u8 g old s = Done (old ++ flat_map enc8 (map shown t))
    /\ u16BE_u8 g old (map store_be16 s) = Done (old ++ flat_map enc8 (map shown t))
    /\ u16LE_u32LE g old s = Done (old ++ map shown t)
    /\ u16BE_u32LE g old (map store_be16 s) = Done (old ++ map shown t)
    /\ u16BE_u32BE g old (map store_be16 s) = Done (old ++ map store_be32 (map shown t)).
Proof.
  intros g old s G P F T. destruct (utf16_total (length s) s (le_n _) F) as [t U]. exists t. split; [exact U|].
  assert (St := utf16_scalar s t U). split; [exact St|].
  assert (E8 := p16_8_means s t U T). assert (E32 := p16_32_means s t U T). change shown with dec32q.
  unfold u16LE_u8, u16BE_u8, u16LE_u32LE, u16BE_u32LE, u16BE_u32BE. split; [|split; [|split; [|split]]].
  - destruct (u16_u8_writes g same true old s G) as [E|[_ NP]]; [|destruct (NP P)].
    rewrite E. unfold same at 1. rewrite map_id, E8. reflexivity.
  - destruct (u16_u8_writes g bswap16 false old (map store_be16 s) G) as [E|[_ NP]]; [|destruct (NP P)].
    rewrite E, read16_units, E8 by exact F. reflexivity.
  - rewrite (u16_u32_once g same same old _ qmark G P eq_refl). unfold same at 1 2. rewrite !map_id, E32. reflexivity.
  - rewrite (u16_u32_once g bswap16 same old _ qmark G P eq_refl). unfold same. rewrite map_id, read16_units, E32 by exact F. reflexivity.
  - rewrite (u16_u32_once g bswap16 bswap32 old _ (bswap32 qmark) G P eq_refl). rewrite read16_units, E32 by exact F.
    do 2 f_equal. rewrite !map_map. apply (map_ext_forall scalar); [exact St|]. intros c H. apply bswap32_spec. unfold dec32q, qmark.
    apply scalar32 in H. destruct (c =? 57344); lia.
Qed.
(** The results above are well formed. *)
Lemma shown_scalar : forall t, Forall scalar t -> Forall scalar (map shown t).
Proof. intros t F. induction F as [|c t H F IH]; constructor; [|exact IH]. unfold shown, scalar in *. destruct (c =? 57344); lia. Qed.
Theorem C148_well_formed_partial : forall g s, granted g -> plenty g -> Forall unit16 s -> tame s ->
  (exists l, u16LE_u8 g [] s = Done l /\ well8 l) /\ (exists l, u16BE_u8 g [] (map store_be16 s) = Done l /\ well8 l)
  /\ (exists l, u16LE_u32LE g [] s = Done l /\ Forall scalar l).
Proof.
  intros g s G P F T. destruct (C148_units_partial g [] s G P F T) as (t & _ & St & A & B & C & _).
  apply shown_scalar in St. split; [|split]; eexists; (split; [eassumption|]); [|exists (map shown t); split; [exact St|reflexivity]|exact St].
  exists (map shown t). split; [exact St|reflexivity].
Qed.
(** "A", a high surrogate alone, a pair, a low surrogate alone. *)
Example C148_case : u16LE_u8 exact [] [65; 55296; 55357; 56832; 66; 56320] = Done [65; 63; 240; 159; 152; 128; 66; 63]
  /\ u16LE_u32LE exact [] [65; 55296; 55357; 56832; 66; 56320] = Done [65; 63; 128512; 66; 63].
Proof. vm_compute. auto. Qed.
Example C148_tame : tame [65; 55296; 55357; 56832; 66; 56320].
Proof.
  intros p a b r E L. unfold low in L. do 6 (destruct p as [|? p]; [inversion E; subst; lia|]; injection E as _ E).
  destruct p; discriminate.
Qed.

(** Two low surrogates become four bytes that are no UTF-8, and a number that is no code point. *)
Theorem C148_low_refuted : forall g old a b, granted g -> plenty g -> low a -> low b ->
  (exists l, u16LE_u8 g old [a; b] = Done (old ++ l) /\ ~ well8 l)
  /\ (exists v, u16LE_u32LE g old [a; b] = Done (old ++ [v]) /\ ~ scalar v).
Proof.
  intros g old a b G P A B. assert (K := pair_any a b ltac:(unfold low in A; lia) B).
  unfold low in A, B. set (v := 65536 + (a - 55296) * 1024 + (b - 56320)) in K.
  assert (V : 1114112 <= v < 2162688) by (unfold v; lia). clearbody v. split.
  - exists (form4 v). split.
    + unfold u16LE_u8. destruct (u16_u8_writes g same true old [a; b] G) as [E|[_ NP]]; [|destruct (NP P)].
      rewrite E. unfold same. cbn [map p16_8]. unfold low_after at 1. cbn [Z.eqb negb andb]. unfold w16_8, lead8.
      replace (a <? 128) with false by lia. replace (a <? 2048) with false by lia. replace ((a <? 55296) || (57344 <? a)) with false by lia.
      unfold low_after. replace (a =? 0) with false by lia. replace (negb false && (56320 <=? b) && (b <? 57344)) with true by lia.
      rewrite K. unfold fin. cbn [fst snd app Z.eqb negb]. rewrite !app_nil_r. reflexivity.
    + destruct (Z_lt_dec v 2097152) as [L|L].
      * rewrite form4_spec by lia.
        replace (v / 262144) with (v / 4096 / 64) by (rewrite Z.div_div by lia; reflexivity).
        apply ill4. right. split; [apply Z.div_le_lower_bound; lia|apply Z.div_lt_upper_bound; lia].
      * assert (E : form4 v = form4 (v - 2097152)).
        { unfold form4. rewrite !land7, !land63, !shr by lia. change (2 ^ 18) with 262144. change (2 ^ 12) with 4096. change (2 ^ 6) with 64.
          set (w := v - 2097152). replace v with (w + 8 * 262144) by (unfold w; lia).
          rewrite Z.div_add by lia. replace (w + 8 * 262144) with (w + 512 * 4096) by lia. rewrite Z.div_add by lia.
          replace (w + 512 * 4096) with (w + 32768 * 64) by lia. rewrite Z.div_add, Z.mod_add by lia.
          replace ((w / 262144 + 8) mod 8) with (w / 262144 mod 8) by (rewrite <- (Z.mod_add (w / 262144) 1 8) by lia; reflexivity).
          replace ((w / 4096 + 512) mod 64) with (w / 4096 mod 64) by (rewrite <- (Z.mod_add (w / 4096) 8 64) by lia; reflexivity).
          replace ((w / 64 + 32768) mod 64) with (w / 64 mod 64) by (rewrite <- (Z.mod_add (w / 64) 512 64) by lia; reflexivity).
          reflexivity. }
        rewrite E, form4_spec by lia. set (w := v - 2097152). assert (W : 0 <= w < 65536) by (unfold w; lia). clearbody w.
        replace (w / 262144) with (w / 4096 / 64) by (rewrite Z.div_div by lia; reflexivity).
        apply ill4. left. split; [apply Z.div_pos; lia|apply Z.div_lt_upper_bound; lia].
  - exists v. split; [|unfold scalar; lia].
    unfold u16LE_u32LE. rewrite (u16_u32_once g same same old _ qmark G P eq_refl). unfold same. rewrite !map_id.
    cbn [p16_32]. unfold low_after at 1. cbn [Z.eqb negb andb]. unfold lead32.
    replace ((55296 <=? a) && (a <=? 57344)) with true by lia.
    unfold low_after. replace (a =? 0) with false by lia. replace (negb false && (56320 <=? b) && (b <? 57344)) with true by lia.
    rewrite K. reflexivity.
Qed.
(** UTF-32: surrogates and numbers behind the last code point are written as if they were characters. *)
Theorem C148_u32_refuted : forall g old c, granted g -> plenty g -> 55296 <= c < 57344 ->
  (exists l, u32LE_u8 g old [c] = Done (old ++ l) /\ ~ well8 l)
  /\ (exists l, u32BE_u16LE g old [store_be32 c] = Done (old ++ l) /\ ~ well16 l).
Proof.
  intros g old c G P H. split.
  - exists [224 + c / 4096; 128 + c / 64 mod 64; 128 + c mod 64]. split; [|apply ill3; exact H]. unfold u32LE_u8.
    destruct (grow_writes g (u32_u8_loop g same [c] 1) (length [c] * 3) old [c] (flat_map (fun u => w32_8 (same u)) [c]) G) as [E|[_ N]].
    + intros k Hk. apply u32_u8_run. exact G.
    + discriminate.
    + rewrite E. cbn [flat_map]. rewrite app_nil_r. unfold same, w32_8. replace (c <? 128) with false by lia. replace (c <? 2048) with false by lia.
      replace (c <? 65536) with true by lia. rewrite form3_spec by lia. reflexivity.
    + destruct (N P).
  - exists [c]. split; [|apply alone16; exact H]. unfold u32BE_u16LE.
    destruct (grow_writes g (u32_u16_loop g bswap32 same to16 qmark [store_be32 c] 1) (length [store_be32 c]) old [store_be32 c]
      (flat_map (fun u => w32_16 same to16 qmark (bswap32 u)) [store_be32 c]) G) as [E|[_ N]].
    + intros k Hk. apply u32_u16_run. exact G.
    + discriminate.
    + rewrite E. cbn [flat_map]. rewrite app_nil_r, bswap32_be by lia. unfold same, w32_16, to16. replace (c <? 65536) with true by lia.
      rewrite Z.mod_small by lia. reflexivity.
    + destruct (N P).
Qed.
Theorem C148_number_refuted : forall g old c, granted g -> plenty g -> 1114112 <= c < 2097152 ->
  exists l, u32LE_u8 g old [c] = Done (old ++ l) /\ ~ well8 l.
Proof.
  intros g old c G P H.
  exists [240 + c / 262144; 128 + c / 4096 mod 64; 128 + c / 64 mod 64; 128 + c mod 64]. split.
  - unfold u32LE_u8.
    destruct (grow_writes g (u32_u8_loop g same [c] 1) (length [c] * 3) old [c] (flat_map (fun u => w32_8 (same u)) [c]) G) as [E|[_ N]].
    + intros k Hk. apply u32_u8_run. exact G.
    + discriminate.
    + rewrite E. cbn [flat_map]. rewrite app_nil_r. unfold same, w32_8. replace (c <? 128) with false by lia. replace (c <? 2048) with false by lia.
      replace (c <? 65536) with false by lia. replace (c <? 2097152) with true by lia. rewrite form4_spec by lia. reflexivity.
    + destruct (N P).
  - replace (c / 262144) with (c / 4096 / 64) by (rewrite Z.div_div by lia; reflexivity).
    apply ill4. right. split; [apply Z.div_le_lower_bound; lia|apply Z.div_lt_upper_bound; lia].
Qed.
(** Numbers that are no code points are marked in UTF-16. *)
Theorem C148_u32_u16_marks : forall g old c, granted g -> plenty g -> 1114112 <= c < 2 ^ 32 ->
  u32LE_u16LE g old [c] = Done (old ++ [63]) /\ u32BE_u16LE g old [store_be32 c] = Done (old ++ [63])
  /\ u32BE_u16BE g old [store_be32 c] = Done (old ++ [store_be16 63]).
Proof.
  assert (K : forall g si so cast q old u c, granted g -> plenty g -> si u = c -> 1114112 <= c ->
    grow g (u32_u16_loop g si so cast q [u] 1) (length [u]) old [u] = Done (old ++ [q])).
  { intros g si so cast q old u c G P E H.
    destruct (grow_writes g (u32_u16_loop g si so cast q [u] 1) (length [u]) old [u] (flat_map (fun u => w32_16 so cast q (si u)) [u]) G) as [E'|[_ N]].
    - intros k Hk. apply u32_u16_run. exact G.
    - discriminate.
    - rewrite E'. cbn [flat_map]. rewrite app_nil_r, E. unfold w32_16. replace (c <? 65536) with false by lia. replace (c <? 1114112) with false by lia. reflexivity.
    - destruct (N P). }
  intros g old c G P H. change (2 ^ 32) with 4294967296 in H. split; [|split].
  - apply (K g same same to8 qmark old c c G P); [reflexivity|lia].
  - apply (K g bswap32 same to16 qmark old (store_be32 c) c G P); [apply bswap32_be; lia|lia].
  - unfold u32BE_u16BE. rewrite (K g bswap32 bswap16 to16 (bswap16 qmark) old (store_be32 c) c G P); [reflexivity|apply bswap32_be; lia|lia].
Qed.
Example C148_low_case : u16LE_u8 exact [] [56320; 56321] = Done [244; 144; 128; 129]
  /\ u16LE_u32LE exact [] [56320; 56321] = Done [1114113] /\ u32LE_u8 exact [] [55296] = Done [237; 160; 128]
  /\ u16LE_u8 exact [] [57344; 56320] = Done (enc8 65536).
Proof. vm_compute. auto. Qed.

Print Assumptions C147_means.
Print Assumptions C147_marked_partial.
Print Assumptions C147_overlong_refuted.
Print Assumptions C147_surrogate_refuted.
Print Assumptions C147_number_refuted.
Print Assumptions C147_tail_refuted.
Print Assumptions C148_units_partial.
Print Assumptions C148_well_formed_partial.
Print Assumptions C148_low_refuted.
Print Assumptions C148_u32_refuted.
Print Assumptions C148_number_refuted.
Print Assumptions C148_u32_u16_marks.
