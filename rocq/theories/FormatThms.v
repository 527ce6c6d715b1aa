(** C146: formatting appends the formatted text, or reports an error and changes nothing. *)
From Coq Require Import ZArith Lia Bool List.
From Verif Require Import FormatModel.
Import ListNotations.

(** * Specification *)

(** The text a format gives with these arguments; [t] is the text of the object at the call. *)
Inductive gives (t : list Z) : list item -> list arg -> list Z -> Prop :=
| G_end : forall a, gives t [] a []
| G_ch : forall c f a l, gives t f a l -> gives t (Ch c :: f) a (c :: l)
| G_val : forall v f a l, gives t f a l -> gives t (Conv :: f) (Val v :: a) (v ++ l)
| G_self : forall f a l, gives t f a l -> gives t (Conv :: f) (Self :: a) (t ++ l).

(** A conversion that is reached fails. *)
Inductive fails : list item -> list arg -> Prop :=
| F_ch : forall c f a, fails f a -> fails (Ch c :: f) a
| F_next : forall x f a, x <> Bad -> fails f a -> fails (Conv :: f) (x :: a)
| F_here : forall f a, fails (Conv :: f) (Bad :: a).

(** Strings the class makes: the const object holds nothing, others have room for their text. *)
Definition valid (s : str) : Prop :=
  (length (txt s) <= cap s)%nat /\ (kd s = Static <-> cap s = 0%nat).

Definition is_int (n : nat) : Prop := (Z.of_nat n < 2147483647)%Z.

(** What is claimed of a call that should leave [want], or [old] on failure. *)
Definition right (oom : bool) (old want : list Z) (r : option (code * str)) : Prop :=
  exists c s', r = Some (c, s') /\ valid s' /\
    ((c = S_OK /\ txt s' = want) \/ (c = E_OUTOFMEMORY /\ oom = true /\ txt s' = old)).

(** No argument is the text of the object in its own buffer. *)
Definition foreign (s : str) (a : list arg) : Prop := kd s = Own -> ~ In Self a.
Definition plain (f : list item) : Prop := ~ In Conv f.

(** * Proofs *)
Lemma printf_gives : forall t f a l, gives t f a l -> exists r, printf (Some t) f a = Text l r.
Proof.
  induction 1 as [a | c f a l _ (r & IH) | v f a l _ (r & IH) | f a l _ (r & IH)]; cbn [printf].
  - eauto.
  - rewrite IH. eauto.
  - rewrite IH. eauto.
  - rewrite IH. eauto.
Qed.

Lemma printf_own : forall o t f a, ~ In Self a -> printf o f a = printf (Some t) f a.
Proof.
  intros o t f. induction f as [|[c|] f IH]; intros a N; cbn [printf].
  - reflexivity.
  - rewrite IH by assumption. reflexivity.
  - destruct a as [|[v| |] a]; try reflexivity.
    + rewrite IH; [reflexivity|]. intros X. apply N. right. exact X.
    + contradiction N. left. reflexivity.
Qed.

Lemma printf_fails : forall t f a, fails f a -> printf (Some t) f a = Error.
Proof.
  induction 1 as [c f a _ IH | x f a NB _ IH | f a]; cbn [printf]; try rewrite IH; try reflexivity.
  destruct x; try contradiction; rewrite ?IH; try reflexivity.
Qed.

Lemma printf_plain : forall o f a, plain f -> exists l, printf o f a = Text l a /\ (forall o' a', printf o' f a' = Text l a').
Proof.
  intros o f. induction f as [|[c|] f IH]; intros a P.
  - exists []. split; reflexivity.
  - destruct (IH a) as (l & E & U); [intros X; apply P; right; exact X|].
    exists (c :: l). cbn [printf]. split; [rewrite E; reflexivity|]. intros o' a'. rewrite U. reflexivity.
  - contradiction P. left. reflexivity.
Qed.

Lemma gives_fun : forall t f a l, gives t f a l -> forall l', gives t f a l' -> l = l'.
Proof.
  induction 1 as [a | c f a l _ IH | v f a l _ IH | f a l _ IH]; intros l' H; inversion H; subst; try reflexivity; f_equal; auto.
Qed.

Lemma round16_ge : forall n, (n <= round16 n)%nat.
Proof.
  intros n. unfold round16. pose proof (Nat.div_mod (n + 15) 16 ltac:(lia)).
  pose proof (Nat.mod_upper_bound (n + 15) 16 ltac:(lia)). lia.
Qed.

Lemma lock_ok : forall oom s n, valid s -> (length (txt s) <= n)%nat -> (n <> 0 \/ kd s = Own)%nat ->
  LockBuffer oom s n = Some None /\ oom = true \/
  exists s1, LockBuffer oom s n = Some (Some s1) /\ kd s1 = Own /\ (n <= cap s1)%nat /\ cap s1 <> 0%nat /\ txt s1 = txt s.
Proof.
  intros oom s n [V1 V2] L N. unfold LockBuffer, IsShared.
  destruct (kd s) eqn:K.
  - assert (n <> 0)%nat by (destruct N; [assumption | discriminate]).
    destruct (Nat.eqb_spec n 0); [lia|]. cbn [andb]. destruct oom; [left; auto|right].
    eexists. split; [reflexivity|]. cbn [kd cap txt]. pose proof (round16_ge (n + 1)). repeat split; lia.
  - assert (C : cap s <> 0%nat) by (intros C; apply V2 in C; discriminate).
    destruct (Nat.eqb_spec (cap s) 0); [lia|]. rewrite andb_false_r.
    destruct (Nat.ltb_spec (cap s) n).
    + destruct oom; [left; auto|right]. eexists. split; [reflexivity|]. cbn [kd cap txt].
      set (m := max (cap s + cap s / 2) (n + 1)). pose proof (round16_ge m).
      assert (n + 1 <= m)%nat by (unfold m; lia). repeat split; lia.
    + right. exists s. repeat split; auto.
  - assert (n <> 0)%nat by (destruct N; [assumption | discriminate]).
    destruct (Nat.eqb_spec n 0); [lia|]. cbn [andb]. destruct oom; [left; auto|right].
    eexists. split; [reflexivity|]. cbn [kd cap txt]. pose proof (round16_ge (n + 1)). repeat split; lia.
Qed.

Lemma all_text : forall (t l junk : list Z) n c, n = length l -> (length t + n <= c)%nat ->
  firstn (min c (length t + length l)) (t ++ firstn n l ++ 0%Z :: junk) = t ++ l.
Proof.
  intros t l junk n c -> L. rewrite firstn_all, Nat.min_r by lia. rewrite app_assoc, firstn_app.
  rewrite app_length. replace (length t + length l - (length t + length l))%nat with 0%nat by lia.
  cbn [firstn]. rewrite app_nil_r. apply firstn_all2. rewrite app_length. lia.
Qed.

(** The common part: both calls print the same. *)
Lemma append_ok : forall (win : bool) junk oom s f a l, valid s -> is_int (length l) ->
  (txt s ++ l <> [] \/ kd s = Own) ->
  forall r, printf (Some (txt s)) f a = Text l r ->
  (exists r', printf (match kd s with Own => None | _ => Some (txt s) end) f (if win then a else r) = Text l r') ->
  right oom (txt s) (txt s ++ l) (AppendFormatV win junk oom s (Some f) a).
Proof.
  intros win junk oom s f a l V I N r P (r' & P2). unfold AppendFormatV. rewrite P. unfold is_int in I.
  cbv zeta. destruct (Z.ltb_spec INT_MAX (Z.of_nat (length l))) as [X|_]; [unfold INT_MAX in X; lia|].
  assert (N' : (length (txt s) + length l <> 0 \/ kd s = Own)%nat).
  { destruct N as [N | N]; [left | right; exact N]. rewrite <- app_length. intros Z0. apply N, length_zero_iff_nil, Z0. }
  destruct (lock_ok oom s (length (txt s) + length l) V ltac:(lia) N') as [[E O] | (s1 & E & K & C & C0 & T)]; rewrite E.
  - exists E_OUTOFMEMORY, s. split; [reflexivity|]. split; [exact V|]. right. auto.
  - destruct (Z.eqb_spec (Z.of_nat (length l)) INT_MAX) as [X|_]; [unfold INT_MAX in X; lia|].
    rewrite K, P2. eexists _, _. split; [reflexivity|].
    rewrite all_text by (reflexivity || lia). split.
    + split; cbn [txt cap kd]; [rewrite app_length; lia|]. split; [discriminate | intros X; contradiction].
    + left. auto.
Qed.

Lemma made_gives : forall s f a l, gives (txt s) f a l -> gives (txt s) f (made s a) l.
Proof.
  intros s f a l H. unfold made. induction H; cbn [map].
  - apply G_end.
  - apply G_ch. assumption.
  - apply G_val. assumption.
  - destruct (IsShared s); [apply G_val | apply G_self]; assumption.
Qed.

Lemma made_self : forall s a, foreign s a -> ~ In Self (made s a).
Proof.
  intros s a F H. unfold made in H. apply in_map_iff in H. destruct H as (x & E & I).
  destruct x; try discriminate. unfold IsShared, foreign in *. destruct (kd s); try discriminate. apply F; auto.
Qed.

Lemma gives_foreign : forall t t' f a l, gives t f a l -> ~ In Self a -> gives t' f a l.
Proof.
  induction 1; intros N.
  - apply G_end.
  - apply G_ch. auto.
  - apply G_val. apply IHgives. intros X. apply N. right. exact X.
  - contradiction N. left. reflexivity.
Qed.

Lemma clear_valid : forall s, valid s -> valid (Clear s).
Proof.
  intros s [V1 V2]. unfold Clear, IsShared. destruct (kd s) eqn:K; split; cbn; try lia; try tauto.
Qed.

(** * Theorems *)

(** Visual C++: the text is appended, whoever shares the buffer; without memory nothing changes.  Left out
    are an empty result in an empty string without a buffer, and the object's own text as an argument. *)
Theorem C146_append_partial : forall junk oom s f a l, valid s -> gives (txt s) f a l -> is_int (length l) ->
  foreign s a -> (txt s ++ l <> [] \/ kd s = Own) ->
  right oom (txt s) (txt s ++ l) (AppendFormat true junk oom s (Some f) a).
Proof.
  intros junk oom s f a l V G I F N. unfold AppendFormat.
  assert (G' := made_gives s f a l G). destruct (printf_gives _ _ _ _ G') as (r & P).
  apply (append_ok true junk oom s f (made s a) l V I N r P).
  exists r. cbv iota. rewrite (printf_own _ (txt s)) by (apply made_self; exact F). exact P.
Qed.

(** Format: the new text is the formatted one.  A failure leaves the string empty. *)
Theorem C146_format_partial : forall junk oom s f a l, valid s -> gives (txt s) f a l -> is_int (length l) ->
  foreign s a -> (l <> [] \/ kd s = Own) ->
  right oom [] l (Format true junk oom s (Some f) a).
Proof.
  intros junk oom s f a l V G I F N. unfold Format.
  assert (G' := gives_foreign _ [] _ _ _ (made_gives s f a l G) (made_self s a F)).
  assert (T : txt (Clear s) = []) by (unfold Clear; destruct (IsShared s); reflexivity).
  destruct (printf_gives _ _ _ _ G') as (r & P). rewrite <- T in P.
  replace (right oom [] l) with (right oom (txt (Clear s)) (txt (Clear s) ++ l)) by (rewrite T; reflexivity).
  apply (append_ok true junk oom (Clear s) f (made s a) l (clear_valid s V) I) with (r := r).
  - rewrite T. cbn [app]. unfold Clear, IsShared. destruct N as [N | N]; [auto | rewrite N; auto].
  - exact P.
  - exists r. cbv iota. rewrite (printf_own _ (txt (Clear s))) by (apply made_self; exact F). exact P.
Qed.

(** Everywhere: a format without conversions is appended. *)
Theorem C146_plain_partial : forall win junk oom s f a l, valid s -> plain f -> gives (txt s) f a l -> is_int (length l) ->
  (txt s ++ l <> [] \/ kd s = Own) ->
  right oom (txt s) (txt s ++ l) (AppendFormat win junk oom s (Some f) a).
Proof.
  intros win junk oom s f a l V PL G I N. unfold AppendFormat.
  assert (G' := made_gives s f a l G). destruct (printf_gives _ _ _ _ G') as (r & P).
  apply (append_ok win junk oom s f (made s a) l V I N r P).
  destruct (printf_plain (Some (txt s)) f (made s a) PL) as (l' & P' & U). rewrite P in P'.
  exists (if win then made s a else r). rewrite U. f_equal. injection P' as E _. auto.
Qed.

(** Everywhere: an argument that cannot be converted, and a null format, are reported and change nothing
    (AppendFormat). *)
Theorem C146_error : forall win junk oom s f a,
  AppendFormat win junk oom s None a = Some (E_INVALIDARG, s) /\
  Format win junk oom s None a = Some (E_INVALIDARG, s) /\
  (fails f a -> AppendFormat win junk oom s (Some f) a = Some (E_INVALIDARG, s)).
Proof.
  intros win junk oom s f a. split; [reflexivity|]. split; [reflexivity|]. intros F. unfold AppendFormat, AppendFormatV.
  assert (F' : fails f (made s a)).
  { unfold made. induction F; cbn [map].
    - apply F_ch. assumption.
    - apply F_next; [destruct x; try discriminate; try contradiction; destruct (IsShared s); discriminate | assumption].
    - apply F_here. }
  rewrite (printf_fails _ _ _ F'). reflexivity.
Qed.

(** REFUTED elsewhere than with Visual C++: with just the arguments that the format asks for, one or more,
    the second call reads arguments that are not there, for every string and every text. *)
Fixpoint convs (f : list item) : nat := match f with [] => 0 | Ch _ :: f => convs f | Conv :: f => S (convs f) end.

Theorem C146_args_refuted : forall junk s f a l, valid s -> gives (txt s) f a l -> is_int (length l) ->
  length a = convs f -> (0 < convs f)%nat ->
  AppendFormat false junk false s (Some f) a = None /\ Format false junk false s (Some f) a = None.
Proof.
  assert (R : forall t f a, length a = convs f -> match printf (Some t) f a with Text _ r => r = [] | _ => True end).
  { intros t f. induction f as [|[c|] f IH]; intros a E; cbn [convs] in E.
    - destruct a; [reflexivity | discriminate].
    - cbn [printf]. specialize (IH a E). destruct (printf (Some t) f a); auto.
    - destruct a as [|x a]; [discriminate|]. cbn [length] in E. cbn [printf].
      specialize (IH a ltac:(lia)). destruct x; auto; destruct (printf (Some t) f a); auto. }
  assert (U : forall o f, (0 < convs f)%nat -> printf o f [] = Undefined).
  { intros o f. induction f as [|[c|] f IH]; cbn [convs]; intros C; [lia| |reflexivity].
    cbn [printf]. rewrite IH by assumption. reflexivity. }
  assert (X : forall junk s f a l r, valid s -> printf (Some (txt s)) f a = Text l r -> length a = convs f -> (0 < convs f)%nat ->
    is_int (length l) -> AppendFormatV false junk false s (Some f) a = None).
  { intros junk s f a l r V P L C I. unfold AppendFormatV. pose proof (R (txt s) f a L) as E. rewrite P in *. subst r.
    unfold is_int in I. cbv zeta. destruct (Z.ltb_spec INT_MAX (Z.of_nat (length l))) as [B|_]; [unfold INT_MAX in B; lia|].
    destruct (LockBuffer false s (length (txt s) + length l)) as [[s1|]|] eqn:K; [|exfalso|reflexivity].
    - destruct (_ =? _)%Z; [reflexivity|]. destruct (kd s1); rewrite ?U by assumption; reflexivity.
    - unfold LockBuffer in K. destruct (_ && _); [discriminate|]. destruct (IsShared s).
      + destruct (_ =? _)%nat; discriminate.
      + destruct (_ <? _)%nat; discriminate. }
  intros junk s f a l V G I L C. assert (L' : length (made s a) = convs f) by (unfold made; rewrite map_length; exact L).
  split.
  - destruct (printf_gives _ _ _ _ (made_gives s f a l G)) as (r & P). unfold AppendFormat. eapply X; eauto.
  - unfold Format.
    assert (Y : exists l' r, printf (Some (txt (Clear s))) f (made s a) = Text l' r /\ (length l' <= length l)%nat).
    { assert (T : txt (Clear s) = []) by (unfold Clear; destruct (IsShared s); reflexivity). rewrite T.
      assert (H := made_gives s f a l G). clear - H. induction H as [b | c g b m _ (l' & r & E & M) | v g b m _ (l' & r & E & M) | g b m _ (l' & r & E & M)]; cbn [printf].
      - exists [], b. split; [reflexivity | cbn; lia].
      - rewrite E. exists (c :: l'), r. split; [reflexivity | cbn; lia].
      - rewrite E. exists (v ++ l'), r. split; [reflexivity | rewrite !app_length; lia].
      - rewrite E. exists l', r. split; [reflexivity | rewrite app_length; lia]. }
    destruct Y as (l' & r & P & M). eapply X; eauto using clear_valid. unfold is_int in *. lia.
Qed.

(** With an argument to spare the wrong ones are printed: "%s" with "a", "b" gives "b". *)
Theorem C146_spare_refuted : forall junk s, valid s ->
  exists s', AppendFormat false junk false s (Some [Conv]) [Val [97%Z]; Val [98%Z]] = Some (S_OK, s') /\
  txt s' = txt s ++ [98%Z] /\ gives (txt s) [Conv] [Val [97%Z]; Val [98%Z]] [97%Z].
Proof.
  intros junk s V. unfold AppendFormat, AppendFormatV. cbn [made map printf app length]. cbv zeta.
  destruct (lock_ok false s (length (txt s) + 1) V ltac:(lia) ltac:(left; lia)) as [[_ E] | (s1 & E & K & C & _ & T)]; [discriminate|].
  change (INT_MAX <? Z.of_nat 1)%Z with false. cbv iota. rewrite E.
  change (Z.of_nat 1 =? INT_MAX)%Z with false. cbv iota. rewrite K.
  eexists. split; [reflexivity|]. split.
  - cbn [txt]. apply all_text with (l := [98%Z]); [reflexivity | exact C].
  - apply (G_val (txt s) [97%Z] [] _ []). apply G_end.
Qed.

(** REFUTED everywhere: an empty result, in a string without a buffer of its own, is written as a terminator
    into the const object. *)
Theorem C146_empty_refuted : forall win junk oom s f a, valid s -> txt s = [] -> kd s <> Own ->
  gives [] f a [] -> AppendFormat win junk oom s (Some f) a = None /\ Format win junk oom s (Some f) a = None.
Proof.
  assert (X : forall win junk oom s f a, valid s -> txt s = [] -> kd s <> Own -> gives [] f a [] ->
    AppendFormatV win junk oom s (Some f) a = None).
  { intros win junk oom s f a [V1 V2] T K G. destruct (printf_gives _ _ _ _ G) as (r & P).
    unfold AppendFormatV. rewrite T, P. cbv zeta. cbn [length Nat.add].
    change (INT_MAX <? Z.of_nat 0)%Z with false. cbv iota. unfold LockBuffer.
    cbn [Nat.eqb andb]. unfold IsShared. destruct (Nat.eqb_spec (cap s) 0) as [C | C].
    - apply V2 in C. destruct (_ =? _)%Z; [reflexivity|]. rewrite C. reflexivity.
    - destruct (kd s) eqn:D; [|contradiction|]; destruct (_ =? _)%Z; reflexivity. }
  intros win junk oom s f a V T K G.
  assert (G' : gives [] f (made s a) []) by (rewrite <- T in G |- * at 1; apply made_gives; rewrite T in *; exact G).
  split.
  - unfold AppendFormat. apply X; assumption.
  - unfold Format. apply X; try assumption.
    + apply clear_valid, V.
    + unfold Clear. destruct (IsShared s); reflexivity.
    + unfold Clear, IsShared. destruct (kd s); try contradiction; discriminate.
Qed.

(** REFUTED everywhere: the object's own text as an argument, when the buffer is its own. *)
Theorem C146_self_refuted : forall junk s f a l, valid s -> kd s = Own -> is_int (length l) ->
  gives (txt s) (Conv :: f) (Self :: a) l ->
  AppendFormat true junk false s (Some (Conv :: f)) (Self :: a) = None.
Proof.
  intros junk s f a l V K I G.
  assert (G' := made_gives _ _ _ _ G). destruct (printf_gives _ _ _ _ G') as (r & P).
  unfold AppendFormat, AppendFormatV. rewrite P. unfold is_int in I. cbv zeta.
  destruct (Z.ltb_spec INT_MAX (Z.of_nat (length l))) as [B|_]; [unfold INT_MAX in B; lia|].
  destruct (lock_ok false s (length (txt s) + length l) V ltac:(lia) ltac:(right; exact K)) as [[_ E] | (s1 & E & K1 & _)]; [discriminate|].
  rewrite E. destruct (_ =? _)%Z; [reflexivity|]. rewrite K1, K.
  unfold made, IsShared. cbn [map]. rewrite K. reflexivity.
Qed.

(** Format drops the text before it is printed: Format("%s!", own text) would have to give the text and "!". *)
Theorem C146_format_self_refuted : forall win junk oom s, kd s = Own ->
  match Format win junk oom s (Some [Conv; Ch 33%Z]) [Self] with
  | Some (S_OK, s') => txt s' <> txt s ++ [33%Z]
  | _ => True
  end.
Proof.
  intros win junk oom s K. unfold Format, Clear, made, IsShared. rewrite K. cbn [map].
  unfold AppendFormatV. cbn [printf txt app length Nat.add]. cbv zeta.
  change (INT_MAX <? Z.of_nat 1)%Z with false. cbv iota.
  destruct (LockBuffer oom (Str Own (cap s) []) 1) as [[s1|]|]; auto.
  change (Z.of_nat 1 =? INT_MAX)%Z with false. cbv iota. destruct (kd s1); auto; destruct win; cbn [kd printf]; auto.
Qed.

(** * Concrete cases *)
Example format_case :
  let s := Str Shared 15 [104; 105]%Z in
  let f := [Ch 58%Z; Conv; Ch 45%Z; Conv] in
  let a := [Val [52; 50]%Z; Self] in
  valid s /\ foreign s a /\ gives (txt s) f a [58; 52; 50; 45; 104; 105]%Z /\
  AppendFormat true [] false s (Some f) a = Some (S_OK, Str Own 15 [104; 105; 58; 52; 50; 45; 104; 105]%Z) /\
  AppendFormat true [] true s (Some f) a = Some (E_OUTOFMEMORY, s) /\
  Format true [] false (Str Own 15 [104]%Z) (Some f) [Val [49]%Z; Val [50]%Z] = Some (S_OK, Str Own 15 [58; 49; 45; 50]%Z) /\
  AppendFormat false [] false s (Some f) a = None /\
  AppendFormat true [] false (Str Static 0 []) (Some [Conv]) [Val []] = None /\
  fails f [Val [49]%Z; Bad].
Proof.
  cbv zeta. split; [split; cbn; [lia | split; discriminate]|]. split; [intros X; discriminate|]. split.
  { apply G_ch. apply (G_val _ [52; 50]%Z). apply G_ch. apply (G_self [104; 105]%Z [] [] []). apply G_end. }
  repeat split. apply F_ch, F_next; [discriminate|]. apply F_ch, F_here.
Qed.

Print Assumptions C146_append_partial.
Print Assumptions C146_format_partial.
Print Assumptions C146_plain_partial.
Print Assumptions C146_error.
Print Assumptions C146_args_refuted.
Print Assumptions C146_spare_refuted.
Print Assumptions C146_empty_refuted.
Print Assumptions C146_self_refuted.
Print Assumptions C146_format_self_refuted.
