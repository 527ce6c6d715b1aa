(** C98-C100: NString. *)
From Coq Require Import List Bool Arith ZArith Lia.
From Verif Require Import Slots SlotsProofs Threads NStringModel NStringProofs.
Import ListNotations.

(** ** Specification: an object is a class ([None] is NString), an encoding and a text. *)
Definition value := (option enc * (enc * list nat))%type.
Section NString.
  Variable conv : enc -> enc -> list nat -> option (list nat).
  Variable slack : enc -> enc -> list nat -> nat.
  Definition convert (e0 e : enc) (l : list nat) : option (list nat) := if enc_dec e0 e then Some l else conv e0 e l.
  Definition at_ (v : list (option value)) (i : nat) : option value := match nth_error v i with Some x => x | None => None end.
  Definition vacant (v : list (option value)) (i : nat) : bool := match nth_error v i with Some None => true | _ => false end.
  Definition spec (v : list (option value)) (o : op) : option (list (option value)) :=
    match o with
    | New i None => if vacant v i then Some (set v i (Some (None, (ANSI 0, [])))) else None
    | New i (Some e) => if vacant v i then Some (set v i (Some (Some (cls e), (cls e, [])))) else None
    | NewView i e l => if vacant v i then Some (set v i (Some (Some (cls e), (e, l)))) else None
    | Copy i j => match at_ v j with Some (Some c, x) => if vacant v i then Some (set v i (Some (Some c, x))) else None | _ => None end
    | FromStr i j => match at_ v j with Some (Some c, x) => if vacant v i then Some (set v i (Some (None, x))) else None | _ => None end
    | FromMove i j => match at_ v j with Some (Some c, x) => if vacant v i then Some (set (set v i (Some (None, x))) j (Some (Some c, (c, [])))) else None | _ => None end
    | Drop i => match at_ v i with Some _ => Some (set v i None) | None => None end
    | Set_ i l => match at_ v i with Some (Some c, (e, _)) => Some (set v i (Some (Some c, (e, l)))) | _ => None end
    | App i l => match at_ v i with Some (Some c, (e, t)) => Some (set v i (Some (Some c, (e, t ++ l)))) | _ => None end
    | Page i e => match at_ v i with Some (Some (ANSI k), (e0, t)) => Some (set v i (Some (Some (ANSI k), (if is_ansi e then e else e0, t)))) | _ => None end
    | NSet i e l => match at_ v i with Some (None, _) => Some (set v i (Some (None, (e, l)))) | _ => None end
    | NSetStr i j => match at_ v i, at_ v j with Some (None, _), Some (Some _, x) => Some (set v i (Some (None, x))) | _, _ => None end
    | NSetMove i j => match at_ v i, at_ v j with Some (None, _), Some (Some c, x) => Some (set (set v i (Some (None, x))) j (Some (Some c, (c, [])))) | _, _ => None end
    | NApp i e l => match at_ v i with Some (None, (e0, t)) => Some (set v i (Some (None, (e0, match convert e e0 l with Some r => t ++ (match l with [] => [] | _ => r end) | None => t end)))) | _ => None end
    | NEnc i e => match at_ v i with
                  | Some (None, (e0, [])) => Some (set v i (Some (None, (e, []))))
                  | Some (None, (e0, t)) => Some (set v i (Some (None, match convert e0 e t with Some r => (e, r) | None => (e0, t) end)))
                  | _ => None end
    | NGet i j => match at_ v i, at_ v j with
                  | Some (None, (e, t)), Some (Some c, (e1, _)) =>
                      (* text of a code page keeps it *)
                      Some (set v j (Some (Some c, if enc_dec (cls e) c then (e, t) else (e1, match t with [] => [] | _ => match convert e e1 t with Some r => r | None => [] end end))))
                  | _, _ => None end
    | NClear i => match at_ v i with Some (None, (e, _)) => Some (set v i (Some (None, (e, [])))) | _ => None end
    end.
  (** A string that is moved to an NString with the same text may keep it. *)
  Definition steps_to (v : list (option value)) (o : op) (v' : list (option value)) : Prop :=
    spec v o = Some v' \/ (exists i j c x, o = NSetMove i j /\ at_ v i = Some (None, x) /\ at_ v j = Some (Some c, x) /\ v' = v).
  (** Operations that do not apply are skipped. *)
  Inductive specs : list (option value) -> list op -> list (option value) -> Prop :=
  | specs_nil : forall v, specs v [] v
  | specs_step : forall v o v' r v2, steps_to v o v' -> specs v' r v2 -> specs v (o :: r) v2
  | specs_skip : forall v o r v2, spec v o = None -> specs v r v2 -> specs v (o :: r) v2.

  (** The operations that are excluded below: what the string at slot [i] is now. *)
  Definition shared_page (s : st) (i : nat) : Prop := exists o e t, get s i = Some o /\ look (fst s) (optr o) = Some (e, t, true) /\ e <> cls e.
  Definition excluded (s : st) (o : op) : Prop :=
    match o with
    | Set_ i l => shared_page s i
    | App i l | NApp i _ l => l <> [] /\ shared_page s i \/ (exists e p e0 t sh, o = NApp i e l /\ get s i = Some (mkobj None p) /\ look (fst s) p = Some (e0, t, sh) /\ l <> [] /\ e <> e0 /\ is_ansi e && is_ansi e0 = true)
    | Page i e => exists o e0 t, get s i = Some o /\ look (fst s) (optr o) = Some (e0, t, true) /\ e0 <> e /\ t <> [] /\ is_ansi e = true
    | NEnc i e => exists p e0 t sh, get s i = Some (mkobj None p) /\ look (fst s) p = Some (e0, t, sh) /\ e0 <> e
        /\ ((t = [] /\ exists a, p = Heap a) \/ (t <> [] /\ (is_ansi e0 && is_ansi e = true \/ endian e0 e = true \/ conv e0 e t = None)))
    | _ => False
    end.
  Fixpoint fine (s : st) (l : list op) : Prop :=
    match l with [] => True | o :: r => ~ excluded s o /\ match exec conv slack s o with Ok s' _ => fine s' r | _ => fine s r end end.

  (** What the objects hold. *)
  Definition holds (h : heap) (o : option obj) : option value :=
    match o with Some o => Some (ocls o, match look h (optr o) with Some (e, t, _) => (e, t) | None => (ANSI 0, []) end) | None => None end.
  Definition vals (s : st) : list (option value) := map (holds (fst s)) (snd s).

  (** ** Refinement *)
  Definition ow (a : nat) (o : option obj) : nat := match o with Some o => own (optr o) a | None => 0 end.
  Definition cnt (l : list (option obj)) (a : nat) : nat := suml (ow a) l.
  Definition clsok (h : heap) (o : option obj) : Prop := match o with Some (mkobj (Some c) p) => exists e t, val h p = Some (e, t) /\ cls e = c | _ => True end.
  Definition Inv (s : st) : Prop := W (fst s) (cnt (snd s)) /\ forall i o, nth_error (snd s) i = Some o -> clsok (fst s) o.
  Definition rest (l : list (option obj)) (i : nat) : nat -> nat := cnt (set l i None).
  Lemma cnt_set : forall l i x o a, nth_error l i = Some x -> cnt (set l i o) a = rest l i a + ow a o.
  Proof.
    intros l i x o a G. unfold rest, cnt. pose proof (suml_set _ (ow a) _ _ _ o G). pose proof (suml_set _ (ow a) _ _ _ None G) as H0. cbn [ow] in H0. lia.
  Qed.
  Lemma cnt_at : forall l i o a, nth_error l i = Some o -> cnt l a = rest l i a + ow a o.
  Proof. intros l i o a G. unfold rest, cnt. pose proof (suml_set _ (ow a) _ _ _ None G) as H0. cbn [ow] in H0. lia. Qed.
  Lemma rest_other : forall l i j o a, i <> j -> nth_error l j = Some o -> ow a o <= rest l i a.
  Proof. intros l i j o a N G. unfold rest, cnt. apply (suml_ge _ (ow a) _ j). rewrite nth_set_neq by assumption. exact G. Qed.
  Lemma val_same : forall h h' l i j o p, same h h' (rest l i) -> i <> j -> nth_error l j = Some (Some (mkobj o p)) -> val h' p = val h p.
  Proof.
    intros h h' l i j o [e|a] S N G; [reflexivity|]. apply S. pose proof (rest_other _ _ _ _ a N G) as R. cbn in R. rewrite Nat.eqb_refl in R. lia.
  Qed.
  Lemma val_look : forall h h' p, val h' p = val h p -> match look h' p with Some (e, t, _) => (e, t) | None => (ANSI 0, []) end = match look h p with Some (e, t, _) => (e, t) | None => (ANSI 0, []) end.
  Proof. intros h h' p V. unfold val in V. destruct (look h' p) as [[[? ?] ?]|], (look h p) as [[[? ?] ?]|]; congruence. Qed.
  Lemma nth_ext' : forall A (a b : list A), (forall i, nth_error a i = nth_error b i) -> a = b.
  Proof.
    induction a as [|x a IH]; intros [|y b] H; [reflexivity|specialize (H 0); discriminate|specialize (H 0); discriminate|]. pose proof (H 0) as E. injection E as ->. f_equal. apply IH. intros i. exact (H (S i)).
  Qed.
  Lemma map_set : forall A B (f : A -> B) l i x, map f (set l i x) = set (map f l) i (f x).
  Proof. induction l as [|y l IH]; intros [|i] x; cbn; try reflexivity. rewrite IH. reflexivity. Qed.
  (** One slot gets a new object (or none). *)
  Lemma slot : forall s i x o h', Inv s -> nth_error (snd s) i = Some x -> W h' (fun a => rest (snd s) i a + ow a o) -> same (fst s) h' (rest (snd s) i) -> clsok h' o ->
    Inv (h', set (snd s) i o) /\ vals (h', set (snd s) i o) = set (vals s) i (holds h' o).
  Proof.
    intros s i x o h' (IW & IC) G WH S C. split.
    - split; cbn [fst snd].
      + apply W_ext with (2 := WH). intros a. symmetry. exact (cnt_set _ _ _ _ _ G).
      + intros j y H. apply nth_set in H. destruct H as [(<- & ->)|(N & H)]; [assumption|]. pose proof (IC _ _ H) as K. destruct y as [[[c|] p]|]; auto. destruct K as (e & t & V & E). exists e, t. split; [|assumption]. rewrite (val_same _ _ _ _ _ _ _ S N H). exact V.
    - unfold vals. cbn [fst snd]. apply nth_ext'. intros j. rewrite map_set. destruct (Nat.eq_dec i j) as [->|N].
      + rewrite !nth_set_eq; [reflexivity| |]; rewrite map_length; apply nth_error_Some; congruence.
      + rewrite !nth_set_neq by assumption. rewrite !nth_error_map. destruct (nth_error (snd s) j) as [y|] eqn:H; [|reflexivity]. cbn. f_equal. destruct y as [[c p]|]; [|reflexivity]. cbn. f_equal. f_equal. apply val_look. exact (val_same _ _ _ _ _ _ _ S N H).
  Qed.
  Lemma get_nth : forall s i o, get s i = Some o -> nth_error (snd s) i = Some (Some o).
  Proof. intros s i o. unfold get. destruct (nth_error (snd s) i) as [[y|]|]; congruence. Qed.
  Lemma free_nth : forall s i, free_slot s i = true -> nth_error (snd s) i = Some None.
  Proof. intros s i. unfold free_slot. destruct (nth_error (snd s) i) as [[y|]|]; congruence. Qed.
  Lemma at_vals : forall s i, at_ (vals s) i = match get s i with Some o => holds (fst s) (Some o) | None => None end.
  Proof. intros s i. unfold at_, vals, get. rewrite nth_error_map. destruct (nth_error (snd s) i) as [[y|]|]; reflexivity. Qed.
  Lemma vacant_vals : forall s i, vacant (vals s) i = free_slot s i.
  Proof. intros s i. unfold vacant, vals, free_slot. rewrite nth_error_map. destruct (nth_error (snd s) i) as [[y|]|]; reflexivity. Qed.
  Lemma own_at : forall s i o, Inv s -> get s i = Some o -> W (fst s) (plus (rest (snd s) i) (optr o)).
  Proof. intros s i o (IW & _) G. apply W_ext with (2 := IW). intros a. rewrite (cnt_at _ _ _ a (get_nth _ _ _ G)). reflexivity. Qed.
  Lemma cls_at : forall s i c p, Inv s -> get s i = Some (mkobj (Some c) p) -> exists e t sh, look (fst s) p = Some (e, t, sh) /\ cls e = c.
  Proof. intros s i c p (_ & IC) G. destruct (IC _ _ (get_nth _ _ _ G)) as (e & t & V & E). unfold val in V. destruct (look (fst s) p) as [[[e1 t1] sh]|]; [|discriminate]. injection V as -> ->. exists e, t, sh. auto. Qed.
  (** The rest of two slots. *)
  Lemma own_two : forall s i j o q, Inv s -> get s i = Some o -> get s j = Some q -> i <> j -> exists c, (forall a, rest (snd s) i a = plus c (optr q) a) /\ (forall a, rest (snd s) j a = plus c (optr o) a).
  Proof.
    intros s i j o q _ GI GJ N. apply get_nth in GI, GJ. exists (rest (set (snd s) i None) j). split; intros a.
    - unfold plus. change (own (optr q) a) with (ow a (Some q)). assert (G : nth_error (set (snd s) i None) j = Some (Some q)) by (rewrite nth_set_neq; assumption). unfold rest at 1. apply (cnt_at _ _ _ a G).
    - unfold plus. change (own (optr o) a) with (ow a (Some o)). unfold rest. rewrite set_swap by assumption. assert (G : nth_error (set (snd s) j None) i = Some (Some o)) by (rewrite nth_set_neq by congruence; assumption). apply (cnt_at _ _ _ a G).
  Qed.

  Lemma slot2 : forall s i j x y o q h', Inv s -> i <> j -> nth_error (snd s) i = Some x -> nth_error (snd s) j = Some y ->
    W h' (fun a => rest (set (snd s) i None) j a + ow a o + ow a q) -> same (fst s) h' (rest (set (snd s) i None) j) -> clsok h' o -> clsok h' q ->
    Inv (h', set (set (snd s) i o) j q) /\ vals (h', set (set (snd s) i o) j q) = set (set (vals s) i (holds h' o)) j (holds h' q).
  Proof.
    intros s i j x y o q h' (IW & IC) N GI GJ WH S CO CQ.
    assert (SO : forall k z, k <> i -> k <> j -> nth_error (snd s) k = Some z -> holds h' z = holds (fst s) z /\ (clsok (fst s) z -> clsok h' z)).
    { intros k [[c p]|] NI NJ G; [|split; [reflexivity|auto]]. assert (V : val h' p = val (fst s) p).
      { apply (val_same _ _ (set (snd s) i None) j k c); auto. rewrite nth_set_neq by congruence. assumption. }
      split; [cbn; f_equal; f_equal; apply val_look; exact V|]. destruct c; cbn; [rewrite V; auto|auto]. }
    assert (GJ' : nth_error (set (snd s) i o) j = Some y) by (rewrite nth_set_neq; assumption).
    split; [split; cbn [fst snd]|].
    - apply W_ext with (2 := WH). intros a. rewrite (cnt_set _ _ _ _ _ GJ'). unfold rest. rewrite (set_swap _ (snd s) i j None None) by assumption. rewrite (set_swap _ (snd s) i j o None) by assumption.
      assert (GI' : nth_error (set (snd s) j None) i = Some x) by (rewrite nth_set_neq by congruence; assumption). rewrite (cnt_set _ _ _ o _ GI'). unfold rest. lia.
    - intros k z H. apply nth_set in H. destruct H as [(<- & ->)|(NJ & H)]; [assumption|]. apply nth_set in H. destruct H as [(<- & ->)|(NI & H)]; [assumption|]. apply (SO k z); [congruence|congruence|assumption|exact (IC _ _ H)].
    - unfold vals. cbn [fst snd]. apply nth_ext'. intros k. rewrite !map_set. destruct (Nat.eq_dec j k) as [->|NJ].
      + rewrite !nth_set_eq; [reflexivity| |]; rewrite set_length, map_length; apply nth_error_Some; congruence.
      + rewrite !(nth_set_neq _ _ j) by assumption. destruct (Nat.eq_dec i k) as [->|NI].
        * rewrite !nth_set_eq; [reflexivity| |]; rewrite map_length; apply nth_error_Some; congruence.
        * rewrite !(nth_set_neq _ _ i) by assumption. rewrite !nth_error_map. destruct (nth_error (snd s) k) as [z|] eqn:H; [|reflexivity]. cbn [option_map]. f_equal. apply (SO k z); congruence.
  Qed.
  Lemma holds_look : forall h c p e t sh, look h p = Some (e, t, sh) -> holds h (Some (mkobj c p)) = Some (c, (e, t)).
  Proof. intros h c p e t sh L. cbn. rewrite L. reflexivity. Qed.
  Lemma look_val : forall h p e t sh, look h p = Some (e, t, sh) -> val h p = Some (e, t).
  Proof. intros h p e t sh L. unfold val. rewrite L. reflexivity. Qed.
  Lemma val_holds : forall h c p x, val h p = Some x -> holds h (Some (mkobj c p)) = Some (c, x).
  Proof. intros h c p x L. cbn. unfold val in L. destruct (look h p) as [[[? ?] ?]|]; congruence. Qed.
  (** An operation that changes one slot. *)
  Lemma one : forall s i x c p h' e t, Inv s -> nth_error (snd s) i = Some x -> W h' (plus (rest (snd s) i) p) -> same (fst s) h' (rest (snd s) i) ->
    val h' p = Some (e, t) -> match c with Some k => cls e = k | None => True end ->
    Inv (h', set (snd s) i (Some (mkobj c p))) /\ vals (h', set (snd s) i (Some (mkobj c p))) = set (vals s) i (Some (c, (e, t))).
  Proof.
    intros s i x c p h' e t I G WH S V C. rewrite <- (val_holds h' c p _ V). apply (slot s i x); auto. destruct c; cbn; [exists e, t; auto|auto].
  Qed.
  Lemma cls_cls : forall e, cls (cls e) = cls e.
  Proof. destruct e; reflexivity. Qed.
  Lemma ansi_cls : forall e, is_ansi (cls e) = is_ansi e.
  Proof. destruct e; reflexivity. Qed.
  Lemma added_convert : forall es e l, (es = e \/ is_ansi es && is_ansi e = false) -> added conv es e l = match convert es e l with Some r => r | None => [] end.
  Proof.
    intros es e l H. unfold added, convert. destruct (enc_dec es e) as [->|N]; [destruct (enc_dec (cls e) (cls e)); congruence|]. destruct H as [H|H]; [congruence|]. destruct (enc_dec (cls es) (cls e)) as [E|]; [|reflexivity]. exfalso. destruct es, e; cbn in *; congruence.
  Qed.
  Lemma free_W : forall s i, Inv s -> free_slot s i = true -> W (fst s) (rest (snd s) i).
  Proof. intros s i (IW & _) F. apply W_ext with (2 := IW). intros a. rewrite (cnt_at _ _ _ a (free_nth _ _ F)). cbn. lia. Qed.

  Lemma share : forall s i j q, Inv s -> free_slot s i = true -> get s j = Some q ->
    exists h', addref (fst s) (optr q) = Some h' /\ W h' (plus (rest (snd s) i) (optr q)) /\ same (fst s) h' (rest (snd s) i) /\ val h' (optr q) = val (fst s) (optr q).
  Proof.
    intros s i j q I F G. pose proof (own_at _ _ _ I G) as WA. destruct (addref_ok _ _ _ WA) as (h1 & E & W1 & S1). exists h1.
    assert (Q : forall a, rest (snd s) i a = plus (rest (snd s) j) (optr q) a). { intros a. pose proof (cnt_at _ _ _ a (free_nth _ _ F)) as A. pose proof (cnt_at _ _ _ a (get_nth _ _ _ G)) as B. cbn [ow] in *. unfold plus. lia. }
    split; [exact E|]. split; [|split].
    - apply W_ext with (2 := W1). intros a. unfold plus at 1 3. rewrite Q. reflexivity.
    - intros a H. apply S1. rewrite <- Q. exact H.
    - apply (same_own _ _ _ _ S1).
  Qed.
  Lemma refine : forall s o, Inv s -> ~ excluded s o ->
    match exec conv slack s o with
    | UB => False
    | Skip => spec (vals s) o = None
    | Ok s' b => Inv s' /\ steps_to (vals s) o (vals s')
    end.
  Proof.
    intros s o I X.
    destruct o as [i c|i e l|i j|i j|i j|i|i l|i l|i e|i e l|i j|i j|i e l|i e|i j|i]; cbn [exec]; unfold steps_to; cbn [spec]; rewrite ?at_vals, ?vacant_vals.
    - destruct (free_slot s i) eqn:F; [|destruct c; reflexivity].
      destruct (one s i None (match c with Some e => Some (cls e) | None => None end) (Stat (match c with Some e => cls e | None => ANSI 0 end)) (fst s) (match c with Some e => cls e | None => ANSI 0 end) []) as (A & B); auto using free_nth, same_refl, W_add_stat, free_W; [destruct c; [apply cls_cls|auto]|].
      split; [exact A|left]. rewrite B. destruct c; reflexivity.
    - destruct (free_slot s i) eqn:F; [|reflexivity]. unfold upd_p.
      destruct (set_text_ok (fst s) (rest (snd s) i) (Stat (cls e)) (cls e) l (cls e) [] true) as (h1 & p1 & sh1 & -> & W1 & S1 & L1 & D1); auto using W_add_stat, free_W.
      destruct (is_ansi e) eqn:A.
      + assert (E : cls e = ANSI 0) by (destruct e; try discriminate A; reflexivity). rewrite E in L1.
        destruct (set_page_ok h1 (rest (snd s) i) p1 (ANSI 0) l sh1 e W1 L1) as (h2 & p2 & sh2 & -> & W2 & S2 & L2 & _); auto.
        { destruct sh1; [destruct D1; auto|auto]. }
        destruct (one s i None (Some (cls e)) p2 h2 e l) as (IA & IB); eauto using free_nth, same_trans, look_val. split; [exact IA|left; congruence].
      + assert (E : cls e = e) by (destruct e; try discriminate A; reflexivity).
        destruct (one s i None (Some (cls e)) p1 h1 e l) as (IA & IB); eauto using free_nth. { rewrite (look_val _ _ _ _ _ L1). congruence. }
        split; [exact IA|left; congruence].
    - destruct (get s j) as [[[c|] q]|] eqn:G; [|reflexivity..]. destruct (cls_at _ _ _ _ I G) as (e & t & sh & L & C). rewrite (holds_look _ _ _ _ _ _ L). destruct (free_slot s i) eqn:F; [|reflexivity].
      destruct (share _ _ _ _ I F G) as (h1 & E & W1 & S1 & V1). cbn [optr] in *. rewrite E. cbn [upd_p].
      destruct (one s i None (Some c) q h1 e t) as (IA & IB); eauto using free_nth. { rewrite V1. exact (look_val _ _ _ _ _ L). } split; [exact IA|left; congruence].
    - destruct (get s j) as [[[c|] q]|] eqn:G; [|reflexivity..]. destruct (cls_at _ _ _ _ I G) as (e & t & sh & L & C). rewrite (holds_look _ _ _ _ _ _ L). destruct (free_slot s i) eqn:F; [|reflexivity].
      destruct (share _ _ _ _ I F G) as (h1 & E & W1 & S1 & V1). cbn [optr] in *. rewrite E. cbn [upd_p].
      destruct (one s i None None q h1 e t) as (IA & IB); eauto using free_nth. { rewrite V1. exact (look_val _ _ _ _ _ L). } split; [exact IA|left; congruence].
    - destruct (get s j) as [[[c|] q]|] eqn:G; [|reflexivity..]. destruct (cls_at _ _ _ _ I G) as (e & t & sh & L & C). rewrite (holds_look _ _ _ _ _ _ L). destruct (free_slot s i) eqn:F; [|reflexivity].
      pose proof (free_nth _ _ F) as FN. pose proof (get_nth _ _ _ G) as GN. assert (N : i <> j) by congruence.
      destruct (slot2 s i j None (Some (mkobj (Some c) q)) (Some (mkobj None q)) (Some (mkobj (Some c) (Stat c))) (fst s)) as (IA & IB); auto using same_refl.
      { apply W_ext with (2 := own_at _ _ _ I G). intros a. cbn. unfold plus. cbn [optr]. unfold rest. rewrite (set_swap _ (snd s) i j) by assumption.
        assert (GI' : nth_error (set (snd s) j None) i = Some None) by (rewrite nth_set_neq by congruence; assumption). rewrite (cnt_set _ _ _ None _ GI'). rewrite (cnt_at _ _ _ a GI'). cbn. lia. }
      { cbn. auto. } { cbn. exists c, []. split; [reflexivity|]. rewrite <- C. apply cls_cls. }
      split; [exact IA|left]. rewrite IB. rewrite (holds_look _ None _ _ _ _ L). reflexivity.
    - destruct (get s i) as [o|] eqn:G; [|reflexivity]. destruct (release_ok _ _ _ (own_at _ _ _ I G)) as (h1 & -> & W1 & S1).
      destruct (slot s i _ None h1 I (get_nth _ _ _ G)) as (IA & IB); auto. { apply W_ext with (2 := W1). intros a. cbn. lia. } { exact Logic.I. }
      split; [exact IA|left]. rewrite IB. destruct o; reflexivity.
    - destruct (get s i) as [[[c|] p]|] eqn:G; [|reflexivity..]. destruct (cls_at _ _ _ _ I G) as (e & t & sh & L & C). rewrite (holds_look _ _ _ _ _ _ L). pose proof (own_at _ _ _ I G) as WA. cbn [optr] in WA.
      destruct (set_text_ok _ _ _ c l _ _ _ WA L) as (h1 & p1 & sh1 & -> & W1 & S1 & L1 & D1). { right. rewrite <- C. symmetry. apply cls_width. }
      assert (E : (if sh then c else e) = e). { destruct sh; [|reflexivity]. destruct (enc_dec e (cls e)) as [H|H]; [congruence|]. destruct X. exists (mkobj (Some c) p), e, t. auto. }
      rewrite E in L1. cbn [upd_p]. destruct (one s i _ (Some c) p1 h1 e l I (get_nth _ _ _ G)) as (IA & IB); eauto using look_val. split; [exact IA|left; congruence].
    - destruct (get s i) as [[[c|] p]|] eqn:G; [|reflexivity..]. destruct (cls_at _ _ _ _ I G) as (e & t & sh & L & C). rewrite (holds_look _ _ _ _ _ _ L). pose proof (own_at _ _ _ I G) as WA. cbn [optr] in WA.
      destruct (append_ok _ _ _ c l 0 _ _ _ WA L) as (h1 & p1 & sh1 & -> & W1 & S1 & L1 & D1). { right. rewrite <- C. symmetry. apply cls_width. }
      assert (E : (if length l + 0 =? 0 then e else if sh then c else e) = e). { destruct l as [|x l]; [reflexivity|]. destruct sh; [|destruct (length (x :: l) + 0 =? 0); reflexivity]. destruct (enc_dec e (cls e)) as [H|H]; [rewrite C in H; destruct (length (x :: l) + 0 =? 0); congruence|]. destruct X. left. split; [discriminate|]. exists (mkobj (Some c) p), e, t. auto. }
      rewrite E in L1. cbn [upd_p]. destruct (one s i _ (Some c) p1 h1 e (t ++ l) I (get_nth _ _ _ G)) as (IA & IB); eauto using look_val. split; [exact IA|left; congruence].
    - destruct (get s i) as [[[c|] p]|] eqn:G; [|reflexivity..]. destruct (cls_at _ _ _ _ I G) as (e0 & t & sh & L & C). rewrite (holds_look _ _ _ _ _ _ L). pose proof (own_at _ _ _ I G) as WA. cbn [optr] in WA. destruct c as [k| | | | |]; [|reflexivity..].
      assert (A0 : is_ansi e0 = true) by (destruct e0; try discriminate C; reflexivity).
      destruct (is_ansi e) eqn:A.
      + destruct (set_page_ok _ _ _ _ _ _ e WA L (or_intror A0) A) as (h1 & p1 & sh1 & -> & W1 & S1 & L1 & D1).
        { destruct (enc_dec e0 e) as [H|H]; [auto|]. destruct sh; [|auto]. destruct t as [|x t]; [auto|]. destruct X. exists (mkobj (Some (ANSI k)) p), e0, (x :: t). repeat split; auto. discriminate. }
        cbn [upd_p]. destruct (one s i _ (Some (ANSI k)) p1 h1 e t I (get_nth _ _ _ G)) as (IA & IB); eauto using look_val. { destruct e; try discriminate A. destruct e0; try discriminate A0. exact C. } split; [exact IA|left; congruence].
      + unfold set_page. rewrite L, A. cbn [negb]. assert (N : e0 <> e) by congruence. destruct (enc_dec e0 e); [congruence|]. cbn [upd_p].
        destruct (one s i _ (Some (ANSI k)) p (fst s) e0 t I (get_nth _ _ _ G)) as (IA & IB); eauto using look_val, same_refl. split; [exact IA|left; congruence].
    - destruct (get s i) as [[[c|] p]|] eqn:G; [cbn; destruct (look (fst s) p) as [[[? ?] ?]|]; reflexivity| |reflexivity]. pose proof (own_at _ _ _ I G) as WA. cbn [optr] in WA. destruct (W_look _ _ _ WA) as (e0 & t & sh & L & _). rewrite (holds_look _ _ _ _ _ _ L).
      destruct (n_set_ok _ _ _ e l WA) as (h1 & p1 & sh1 & -> & W1 & S1 & L1). cbn [upd_p].
      destruct (one s i _ None p1 h1 e l I (get_nth _ _ _ G)) as (IA & IB); eauto using look_val. split; [exact IA|left; congruence].
    - destruct (get s i) as [[[ci|] p]|] eqn:GI; [reflexivity| |reflexivity]. destruct (get s j) as [[[c|] q]|] eqn:G; [|reflexivity..].
      pose proof (own_at _ _ _ I GI) as WA. cbn [optr] in WA. destruct (W_look _ _ _ WA) as (e0 & t0 & sh0 & L0 & _). rewrite (holds_look _ _ _ _ _ _ L0).
      destruct (cls_at _ _ _ _ I G) as (e & t & sh & L & C). rewrite (holds_look _ _ _ _ _ _ L). assert (N : i <> j) by congruence.
      destruct (own_two _ _ _ _ _ I GI G N) as (r & RI & RJ). cbn [optr] in *.
      assert (WB : W (fst s) (plus (plus r q) p)) by (apply W_ext with (2 := WA); intros a; unfold plus at 1 2; rewrite RI; reflexivity).
      destruct (n_set_from_ok _ _ _ c _ WB) as (h1 & p1 & -> & W1 & S1 & V1). cbn [upd_p].
      destruct (one s i _ None p1 h1 e t I (get_nth _ _ _ GI)) as (IA & IB); auto.
      { apply W_ext with (2 := W1). intros a. unfold plus at 1 3. rewrite RI. reflexivity. } { intros a H. apply S1. rewrite <- RI. exact H. } { rewrite V1. exact (look_val _ _ _ _ _ L). }
      split; [exact IA|left; congruence].
    - destruct (get s i) as [[[ci|] p]|] eqn:GI; [reflexivity| |reflexivity]. destruct (get s j) as [[[c|] q]|] eqn:G; [|reflexivity..].
      pose proof (own_at _ _ _ I GI) as WA. cbn [optr] in WA. destruct (W_look _ _ _ WA) as (e0 & t0 & sh0 & L0 & _). rewrite (holds_look _ _ _ _ _ _ L0).
      destruct (cls_at _ _ _ _ I G) as (e & t & sh & L & C). rewrite (holds_look _ _ _ _ _ _ L). assert (N : i <> j) by congruence.
      destruct (own_two _ _ _ _ _ I GI G N) as (r & RI & RJ). cbn [optr] in *.
      destruct (match p, q with Heap a, Heap b => a =? b | _, _ => false end) eqn:EQ.
      + split; [exact I|]. right. exists i, j, c, (e, t). rewrite !at_vals, GI, G, (holds_look _ _ _ _ _ _ L). assert (p = q) as -> by (destruct p, q; try discriminate EQ; apply Nat.eqb_eq in EQ; congruence). rewrite (holds_look _ _ _ _ _ _ L). auto.
      + destruct (attach_ok _ _ _ q WA) as (h1 & -> & W1 & S1).
        destruct (slot2 s i j _ _ (Some (mkobj None q)) (Some (mkobj (Some c) (Stat c))) h1 I N (get_nth _ _ _ GI) (get_nth _ _ _ G)) as (IA & IB).
        { apply W_ext with (2 := W1). intros a. cbn. rewrite RI. unfold plus. enough (rest (set (snd s) i None) j a = r a) by lia. pose proof (RI a) as K. unfold rest in K at 1. assert (G2 : nth_error (set (snd s) i None) j = Some (Some (mkobj (Some c) q))) by (rewrite nth_set_neq by assumption; exact (get_nth _ _ _ G)). rewrite (cnt_at _ _ _ a G2) in K. unfold plus in K. cbn in K. lia. }
        { intros a H. apply S1. rewrite RI. unfold plus. enough (rest (set (snd s) i None) j a = r a) by lia. pose proof (RI a) as K. unfold rest in K at 1. assert (G2 : nth_error (set (snd s) i None) j = Some (Some (mkobj (Some c) q))) by (rewrite nth_set_neq by assumption; exact (get_nth _ _ _ G)). rewrite (cnt_at _ _ _ a G2) in K. unfold plus in K. cbn in K. lia. }
        { exact Logic.I. } { cbn. exists c, []. split; [reflexivity|]. rewrite <- C. apply cls_cls. }
        split; [exact IA|left]. rewrite IB. f_equal. f_equal. f_equal. rewrite (val_holds h1 None q (e, t)); [reflexivity|]. rewrite (same_own (fst s) h1 r q); [exact (look_val _ _ _ _ _ L)|]. intros a H. apply S1. rewrite RI. exact H.
    - destruct (get s i) as [[[c|] p]|] eqn:G; [cbn; destruct (look (fst s) p) as [[[? ?] ?]|]; reflexivity| |reflexivity]. pose proof (own_at _ _ _ I G) as WA. cbn [optr] in WA. destruct (W_look _ _ _ WA) as (e0 & t & sh & L & _). rewrite (holds_look _ _ _ _ _ _ L).
      destruct (n_append_ok conv slack _ _ _ e l _ _ _ WA L) as (h1 & p1 & sh1 & b & -> & W1 & S1 & L1 & B). cbn [upd_pb].
      assert (E : match l with [] => e0 | _ => if sh then cls e0 else e0 end = e0). { destruct l as [|x l]; [reflexivity|]. destruct sh; [|reflexivity]. destruct (enc_dec e0 (cls e0)) as [H|H]; [auto|]. destruct X. left. split; [discriminate|]. exists (mkobj None p), e0, t. auto. }
      rewrite E in L1. destruct (one s i _ None p1 h1 _ _ I (get_nth _ _ _ G) W1 S1 (look_val _ _ _ _ _ L1)) as (IA & IB); auto. split; [exact IA|left]. rewrite IB. f_equal. f_equal. f_equal. f_equal. f_equal.
      destruct l as [|x l]; [rewrite app_nil_r; destruct (convert e e0 []); [reflexivity|reflexivity]|]. rewrite added_convert.
      + destruct (convert e e0 (x :: l)); [reflexivity|]. symmetry. apply app_nil_r.
      + destruct (enc_dec e e0) as [H|H]; [auto|]. right. destruct (is_ansi e && is_ansi e0) eqn:A; [|reflexivity]. destruct X. right. exists e, p, e0, t, sh. repeat split; auto. discriminate.
    - destruct (get s i) as [[[c|] p]|] eqn:G; [cbn; destruct (look (fst s) p) as [[[? ?] ?]|]; reflexivity| |reflexivity]. pose proof (own_at _ _ _ I G) as WA. cbn [optr] in WA. destruct (W_look _ _ _ WA) as (e0 & t & sh & L & _). rewrite (holds_look _ _ _ _ _ _ L).
      assert (Y : t <> [] -> e0 <> e -> is_ansi e0 && is_ansi e = false /\ endian e0 e = false /\ exists r, conv e0 e t = Some r).
      { intros T N. destruct (is_ansi e0 && is_ansi e) eqn:A; [destruct X; exists p, e0, t, sh; repeat split; auto|]. destruct (endian e0 e) eqn:EN; [destruct X; exists p, e0, t, sh; repeat split; auto|]. destruct (conv e0 e t) as [r|] eqn:R; [eauto|]. destruct X. exists p, e0, t, sh. repeat split; auto. }
      destruct (set_encoding_ok conv slack _ _ _ _ _ _ e WA L) as (h1 & p1 & sh1 & -> & W1 & S1 & L1).
      { intros -> N. destruct p as [x|a]; [eauto|]. destruct X. exists (Heap a), e0, [], sh. repeat split; auto. left. eauto. }
      { intros T N. destruct (Y T N) as (A & B & r & R). repeat split; auto. unfold good. rewrite R. destruct (enc_dec (cls e0) (cls e)); reflexivity. }
      cbn [upd_pb]. destruct (one s i _ None p1 h1 _ _ I (get_nth _ _ _ G) W1 S1 (look_val _ _ _ _ _ L1)) as (IA & IB); auto. split; [exact IA|left]. rewrite IB.
      destruct t as [|x t]; [destruct (enc_dec e0 e); reflexivity|]. f_equal. f_equal. f_equal. f_equal. unfold convert. destruct (enc_dec e0 e) as [->|N]; [reflexivity|].
      destruct (Y ltac:(discriminate) N) as (A & _ & r & R). rewrite added_convert by auto. unfold convert. destruct (enc_dec e0 e); [congruence|]. rewrite R. reflexivity.
    - destruct (get s i) as [[[ci|] p]|] eqn:GI; [cbn; destruct (look (fst s) p) as [[[? ?] ?]|]; reflexivity| |reflexivity].
      pose proof (own_at _ _ _ I GI) as WA. cbn [optr] in WA. destruct (W_look _ _ _ WA) as (e0 & t0 & sh0 & L0 & _). rewrite (holds_look _ _ _ _ _ _ L0).
      destruct (get s j) as [[[c|] q]|] eqn:G; [|cbn; destruct (look (fst s) q) as [[[? ?] ?]|]; reflexivity|reflexivity].
      destruct (cls_at _ _ _ _ I G) as (e & t & sh & L & C). rewrite (holds_look _ _ _ _ _ _ L). assert (N : i <> j) by congruence.
      destruct (own_two _ _ _ _ _ I GI G N) as (r & RI & RJ). pose proof (own_at _ _ _ I G) as WJ. cbn [optr] in *.
      assert (WB : W (fst s) (plus (plus r p) q)) by (apply W_ext with (2 := WJ); intros a; unfold plus at 1 2; rewrite RJ; reflexivity).
      destruct (n_get_ok conv slack _ _ _ _ _ _ _ _ _ _ _ WB L0 L C) as (h1 & q1 & b & -> & W1 & S1 & V1). cbn [upd_pb].
      assert (WQ : W h1 (plus (rest (snd s) j) q1)) by (apply W_ext with (2 := W1); intros a; unfold plus at 1 3; rewrite RJ; reflexivity).
      assert (SQ : same (fst s) h1 (rest (snd s) j)) by (intros a H; apply S1; rewrite <- RJ; exact H).
      destruct (enc_dec (cls e0) c) as [K|K].
      + destruct (one s j _ (Some c) q1 h1 _ _ I (get_nth _ _ _ G) WQ SQ V1 K) as (IA & IB).
        split; [exact IA|left; congruence].
      + destruct (one s j _ (Some c) q1 h1 _ _ I (get_nth _ _ _ G) WQ SQ V1 C) as (IA & IB).
        split; [exact IA|left]. rewrite IB. destruct t0 as [|x t0]; [reflexivity|]. rewrite added_convert; [reflexivity|]. right. destruct (is_ansi e0 && is_ansi e) eqn:A; [|reflexivity]. apply andb_true_iff in A. destruct A as (A0 & A1). destruct e0; try discriminate A0. destruct e; try discriminate A1. cbn in *. congruence.
    - destruct (get s i) as [[[c|] p]|] eqn:G; [cbn; destruct (look (fst s) p) as [[[? ?] ?]|]; reflexivity| |reflexivity]. pose proof (own_at _ _ _ I G) as WA. cbn [optr] in WA. destruct (W_look _ _ _ WA) as (e0 & t & sh & L & _). rewrite (holds_look _ _ _ _ _ _ L).
      destruct (n_clear_ok _ _ _ _ _ _ WA L) as (h1 & p1 & sh1 & -> & W1 & S1 & L1). cbn [upd_p].
      destruct (one s i _ None p1 h1 e0 [] I (get_nth _ _ _ G)) as (IA & IB); eauto using look_val. split; [exact IA|left; congruence].
  Qed.

  Lemma init_inv : forall n, Inv (init n).
  Proof.
    assert (R : forall n i (o : option obj), nth_error (repeat None n) i = Some o -> o = None) by (induction n; intros [|i] o H; cbn in H; try discriminate; [congruence|eauto]).
    intros n. split; cbn [fst snd init].
    - split; [intros a b H; discriminate H|]. intros a H. exfalso. unfold cnt in H. assert (Z : suml (ow a) (repeat None n) = 0) by (clear; induction n; cbn; auto). lia.
    - intros i o H. rewrite (R _ _ _ H). exact Logic.I.
  Qed.
  Lemma run_fine : forall l s, Inv s -> fine s l -> exists s', run conv slack s l = Ok s' true /\ Inv s' /\ specs (vals s) l (vals s').
  Proof.
    induction l as [|o r IH]; intros s I F; [exists s; cbn; auto using specs_nil|]. destruct F as (X & F). pose proof (refine _ _ I X) as R. cbn [run].
    destruct (exec conv slack s o) as [| |s1 b]; [contradiction| |].
    - destruct (IH _ I F) as (s2 & E & I2 & S2). exists s2. split; [exact E|]. split; [exact I2|]. apply specs_skip; assumption.
    - destruct R as (I1 & S1). destruct (IH _ I1 F) as (s2 & E & I2 & S2). exists s2. split; [exact E|]. split; [exact I2|]. apply specs_step with (vals s1); assumption.
  Qed.

  (** ** C98: no write behind a buffer, no use of a freed one, no leak.
      Full statement: for all operations.  Missing are the [excluded] ones, where it is false (below). *)
  Theorem C98_partial : forall n l, fine (init n) l ->
    exists s, run conv slack (init n) l = Ok s true
      /\ (forall a b, snd (fst s) a = Some b -> (length (txt b) + 1) * width (tag b) <= byt b
            /\ rc b = suml (fun o => match o with Some o => match optr o with Heap x => if x =? a then 1 else 0 | Stat _ => 0 end | None => 0 end) (snd s) /\ 1 <= rc b)
      /\ (forall i o, nth_error (snd s) i = Some (Some o) -> forall a, optr o = Heap a -> exists b, snd (fst s) a = Some b).
  Proof.
    intros n l F. destruct (run_fine l _ (init_inv n) F) as (s & E & (I1 & I2) & _). exists s. split; [exact E|]. split.
    - intros a b H. destruct I1 as (I1 & _). destruct (I1 _ _ H) as (_ & R & B1 & B2 & B3 & _). split; [|split; assumption].
      assert (0 <= Z.of_nat (width (tag b)))%Z by lia. nia.
    - intros i o G a P. destruct I1 as (_ & I1). apply I1. unfold cnt. pose proof (suml_ge _ (ow a) _ _ _ G) as K. cbn in K. rewrite P in K. cbn in K. rewrite Nat.eqb_refl in K. exact K.
  Qed.
  (** ** C99: each string holds the text and the encoding that the operations on it give, and the other strings
      keep theirs.  Missing: the [excluded] operations. *)
  Theorem C99_partial : forall n l, fine (init n) l -> exists s, run conv slack (init n) l = Ok s true /\ specs (repeat None n) l (vals s).
  Proof.
    intros n l F. destruct (run_fine l _ (init_inv n) F) as (s & E & _ & S). exists s. split; [exact E|]. assert (V : vals (init n) = repeat None n) by (unfold vals, init; cbn [fst snd]; clear; induction n; cbn; congruence). rewrite <- V. exact S.
  Qed.
  (** ** C100: an append whose conversion fails leaves every string as it was.  Missing: SetEncoding, where it is
      false (below). *)
  Theorem C100_partial : forall n l s i e x s', fine (init n) l -> run conv slack (init n) l = Ok s true -> ~ excluded s (NApp i e x) ->
    exec conv slack s (NApp i e x) = Ok s' false -> vals s' = vals s.
  Proof.
    intros n l s i e x s' F R X E. destruct (run_fine l _ (init_inv n) F) as (s0 & E0 & I & _). assert (s0 = s) as -> by congruence. pose proof (refine _ _ I X) as K. rewrite E in K. destruct K as (_ & [K|(? & ? & ? & ? & K & _)]); [|discriminate K].
    cbn [spec] in K. rewrite at_vals in K. cbn [exec] in E. destruct (get s i) as [[[c|] p]|] eqn:G; [discriminate E| |discriminate E].
    pose proof (own_at _ _ _ I G) as WA. cbn [optr] in WA. destruct (W_look _ _ _ WA) as (e0 & t & sh & L & _). rewrite (holds_look _ _ _ _ _ _ L) in K.
    destruct (n_append_ok conv slack _ _ _ e x _ _ _ WA L) as (h1 & p1 & sh1 & b & E1 & _ & _ & _ & B). rewrite E1 in E. cbn [upd_pb] in E. injection E as _ Eb.
    assert (Y : convert e e0 x = None). { rewrite B in Eb. destruct x as [|y x]; [discriminate Eb|]. unfold good in Eb. unfold convert. destruct (enc_dec (cls e) (cls e0)) as [Q|Q]; [discriminate Eb|]. destruct (enc_dec e e0); [congruence|]. destruct (conv e e0 (y :: x)); [discriminate Eb|reflexivity]. }
    rewrite Y in K. injection K as <-. apply nth_ext'. intros k. destruct (Nat.eq_dec i k) as [<-|N]; [|apply nth_set_neq; assumption].
    unfold vals. rewrite nth_set_eq by (rewrite map_length; apply nth_error_Some; rewrite (get_nth _ _ _ G); discriminate). rewrite nth_error_map, (get_nth _ _ _ G). cbn [option_map]. rewrite (holds_look _ _ _ _ _ _ L). reflexivity.
  Qed.
End NString.
Print Assumptions C98_partial.
Print Assumptions C99_partial.
Print Assumptions C100_partial.

(** ** Refutations *)
(** SetEncoding of an NString that was cleared scales the capacity twice: 255 recorded for 64 bytes. *)
Theorem C98_overrun_refuted : forall conv slack,
  (exists s b, run conv slack (init 2) [NewView 0 U32L [1]; FromMove 1 0; NClear 1; NEnc 1 U8] = Ok s true /\ snd (fst s) 0 = Some b /\ byt b = 64 /\ cap b = 255%Z /\ tag b = U8)
  /\ run conv slack (init 2) [NewView 0 U32L [1]; FromMove 1 0; NClear 1; NEnc 1 U8; NApp 1 U8 (repeat 7 100)] = UB.
Proof. intros conv slack. split; [|vm_compute; reflexivity]. eexists; eexists. split; [vm_compute; reflexivity|]. cbn. auto. Qed.
Print Assumptions C98_overrun_refuted.
(** The other way it ends at SIZE_MAX. *)
Theorem C98_wrap_refuted : forall conv slack,
  (exists s b, run conv slack (init 2) [NewView 0 U8 [1]; FromMove 1 0; NClear 1; NEnc 1 U16L; NSet 1 U8 []; NEnc 1 U32L] = Ok s true /\ snd (fst s) 0 = Some b /\ cap b = (-1)%Z)
  /\ run conv slack (init 2) [NewView 0 U8 [1]; FromMove 1 0; NClear 1; NEnc 1 U16L; NSet 1 U8 []; NEnc 1 U32L; NApp 1 U32L (repeat 7 4)] = UB.
Proof. intros conv slack. split; [|vm_compute; reflexivity]. eexists; eexists. split; [vm_compute; reflexivity|]. cbn. auto. Qed.
Print Assumptions C98_wrap_refuted.
(** UTF-16LE to UTF-16BE leaves the string with a buffer that is freed. *)
Definition same_length (conv : enc -> enc -> list nat -> option (list nat)) := forall e e' l r, conv e e' l = Some r -> length r = length l.
Theorem C98_dangling_refuted : forall conv slack, same_length conv ->
  (exists s, run conv slack (init 2) [NewView 0 U16L [1]; FromMove 1 0; NEnc 1 U16B] = Ok s true /\ nth_error (snd s) 1 = Some (Some (mkobj None (Heap 0))) /\ snd (fst s) 0 = None)
  /\ run conv slack (init 2) [NewView 0 U16L [1]; FromMove 1 0; NEnc 1 U16B; Drop 1] = UB.
Proof.
  intros conv slack H. specialize (H U16L U16B [1]). unfold run, exec, upd_pb, set_encoding. cbn -[endian_move]. unfold endian_move. cbn.
  destruct (conv U16L U16B [1]) as [r|]; [specialize (H _ eq_refl); destruct r as [|x [|y r]]; try discriminate H|]; (split; [eexists; split; [reflexivity|cbn; auto]|reflexivity]).
Qed.
Print Assumptions C98_dangling_refuted.
(** SetEncoding of an empty NString that shares its buffer with one other string changes the other's block. *)
Theorem C98_stale_refuted : forall conv slack,
  run conv slack (init 2) [NewView 0 U32L [1]; Set_ 0 []; FromStr 1 0; NEnc 1 U8; App 0 (repeat 7 20)] = UB
  /\ (exists s, run conv slack (init 2) [NewView 0 U32L [1]; Set_ 0 []; FromStr 1 0; App 0 (repeat 7 20)] = Ok s true).
Proof. intros conv slack. split; [vm_compute; reflexivity|]. eexists. vm_compute. reflexivity. Qed.
Print Assumptions C98_stale_refuted.
(** SetEncoding(UTF32BE) of such a string ends in UTF16BE. *)
Theorem C99_encoding_refuted : forall conv slack,
  exists s, run conv slack (init 2) [NewView 0 U8 [1]; Set_ 0 []; FromStr 1 0; NEnc 1 U32B] = Ok s true
    /\ nth_error (vals s) 1 = Some (Some (None, (U16B, []))) /\ nth_error (vals s) 0 = Some (Some (Some U8, (U32B, []))).
Proof. intros conv slack. eexists. split; [vm_compute; reflexivity|]. split; reflexivity. Qed.
Print Assumptions C99_encoding_refuted.
(** From one code page to another the characters are not converted; when the buffer is shared they are lost. *)
Theorem C99_page_refuted : forall conv slack,
  (exists s, run conv slack (init 2) [NewView 0 (ANSI 936) [65]; FromMove 1 0; NEnc 1 (ANSI 1252)] = Ok s true /\ nth_error (vals s) 1 = Some (Some (None, (ANSI 1252, [65]))))
  /\ (exists s, run conv slack (init 2) [NewView 0 (ANSI 936) [65]; FromStr 1 0; NEnc 1 (ANSI 1252)] = Ok s true /\ nth_error (vals s) 1 = Some (Some (None, (ANSI 1252, [])))).
Proof. intros conv slack. split; eexists; (split; [vm_compute; reflexivity|reflexivity]). Qed.
Print Assumptions C99_page_refuted.
(** An append of text of another code page is not converted; an append to a shared string loses its code page. *)
Theorem C99_append_refuted : forall conv slack,
  (exists s, run conv slack (init 2) [NewView 0 (ANSI 936) [65]; FromMove 1 0; NApp 1 (ANSI 1252) [66]] = Ok s true /\ nth_error (vals s) 1 = Some (Some (None, (ANSI 936, [65; 66]))))
  /\ (exists s, run conv slack (init 2) [NewView 0 (ANSI 936) [65]; FromStr 1 0; NApp 1 (ANSI 936) [66]] = Ok s true /\ nth_error (vals s) 1 = Some (Some (None, (ANSI 0, [65; 66])))).
Proof. intros conv slack. split; eexists; (split; [vm_compute; reflexivity|reflexivity]). Qed.
Print Assumptions C99_append_refuted.
(** SetEncoding reports the failed conversion, and the text is gone. *)
Theorem C100_refuted : exists conv slack s,
  run conv slack (init 2) [NewView 0 U8 [255]; FromMove 1 0] = Ok s true /\ nth_error (vals s) 1 = Some (Some (None, (U8, [255])))
  /\ exists s', exec conv slack s (NEnc 1 U16L) = Ok s' false /\ nth_error (vals s') 1 = Some (Some (None, (U16L, []))).
Proof. exists (fun _ _ _ => None), (fun _ _ _ => 0). eexists. split; [vm_compute; reflexivity|]. split; [reflexivity|]. eexists. split; [vm_compute; reflexivity|reflexivity]. Qed.
Print Assumptions C100_refuted.

(** ** Examples *)
(** A conversion from Unicode to a code page that fails on characters above 127. *)
Definition cv (e e' : enc) (l : list nat) : option (list nat) := if is_ansi e' then (if forallb (fun x => x <? 128) l then Some l else None) else Some (l ++ []).
Definition cs (e e' : enc) (l : list nat) : nat := 0.
Definition trace := [New 0 None; NewView 1 U8 [72; 105]; NSetStr 0 1; NApp 0 U16L [200]; NEnc 0 U32L; New 2 (Some (ANSI 0)); NGet 0 2; NClear 0; App 1 [33]; Drop 0; Drop 1; Drop 2].
(** A check for [fine]. *)
Definition eqe (a b : enc) : bool := if enc_dec a b then true else false.
Definition pageb (s : st) (i : nat) : bool := match get s i with Some o => match look (fst s) (optr o) with Some (e, _, true) => negb (eqe e (cls e)) | _ => false end | None => false end.
Definition is_nil (l : list nat) : bool := match l with [] => true | _ => false end.
Definition maybe (s : st) (o : op) : bool :=
  match o with
  | Set_ i _ => pageb s i
  | App i l => negb (is_nil l) && pageb s i
  | NApp i e l => negb (is_nil l) && (pageb s i || match get s i with Some o => match look (fst s) (optr o) with Some (e0, _, _) => negb (eqe e e0) && (is_ansi e && is_ansi e0) | None => false end | None => false end)
  | Page _ _ => true
  | NEnc i e => match get s i with
                | Some o => match look (fst s) (optr o) with
                            | Some (e0, t, _) => negb (eqe e0 e) && (if is_nil t then match optr o with Heap _ => true | _ => false end else is_ansi e0 && is_ansi e || endian e0 e || match cv e0 e t with None => true | _ => false end)
                            | None => false end
                | None => false end
  | _ => false
  end.
Fixpoint fineb (s : st) (l : list op) : bool :=
  match l with [] => true | o :: r => negb (maybe s o) && match exec cv cs s o with Ok s' _ => fineb s' r | _ => fineb s r end end.
Lemma eqe_neq : forall a b, a <> b -> eqe a b = false.
Proof. intros a b N. unfold eqe. destruct (enc_dec a b); congruence. Qed.
Lemma nil_neq : forall l, l <> [] -> is_nil l = false.
Proof. intros [|x l] N; [congruence|reflexivity]. Qed.
Lemma pageb_ok : forall s i, shared_page s i -> pageb s i = true.
Proof. intros s i (o & e & t & G & L & N). unfold pageb. rewrite G, L, (eqe_neq _ _ N). reflexivity. Qed.
Lemma maybe_ok : forall s o, excluded cv s o -> maybe s o = true.
Proof.
  intros s o X. destruct o; try contradiction; cbn [excluded maybe] in *.
  - apply pageb_ok. exact X.
  - destruct X as [(L & X)|(? & ? & ? & ? & ? & E & _)]; [|discriminate E]. rewrite (nil_neq _ L), (pageb_ok _ _ X). reflexivity.
  - reflexivity.
  - destruct X as [(L & X)|(e1 & p & e0 & t & sh & E & G & L & NL & NE & A)]; [rewrite (nil_neq _ L), (pageb_ok _ _ X); reflexivity|]. injection E as <-. rewrite G. cbn [optr]. rewrite L, (nil_neq _ NL), (eqe_neq _ _ NE), A. apply orb_true_r.
  - destruct X as (p & e0 & t & sh & G & L & NE & X). rewrite G. cbn [optr]. rewrite L, (eqe_neq _ _ NE). destruct X as [(-> & a & ->)|(NT & X)]; [reflexivity|]. rewrite (nil_neq _ NT). cbn [negb andb]. destruct X as [X|[X|X]]; rewrite X; rewrite ?orb_true_r; reflexivity.
Qed.
Lemma fineb_ok : forall l s, fineb s l = true -> fine cv cs s l.
Proof.
  induction l as [|o r IH]; intros s H; [exact Logic.I|]. cbn [fineb fine] in *. apply andb_true_iff in H. destruct H as (H & K). split; [intros X; rewrite (maybe_ok _ _ X) in H; discriminate H|]. destruct (exec cv cs s o); auto.
Qed.
Lemma trace_fine : fine cv cs (init 3) trace.
Proof. apply fineb_ok. vm_compute. reflexivity. Qed.
Example C98_case : exists s, run cv cs (init 3) trace = Ok s true /\ map (snd (fst s)) (seq 0 (fst (fst s))) = repeat None 4.
Proof. eexists. split; [vm_compute; reflexivity|reflexivity]. Qed.
Example C99_case : exists s, run cv cs (init 3) (firstn 7 trace) = Ok s true
  /\ vals s = [Some (None, (U32L, [72; 105; 200])); Some (Some U8, (U8, [72; 105])); Some (Some (ANSI 0), (ANSI 0, []))].
Proof. eexists. split; [vm_compute; reflexivity|reflexivity]. Qed.
Example C100_case : exists s s', run cv cs (init 2) [NewView 0 (ANSI 0) [72]; FromMove 1 0] = Ok s true /\ exec cv cs s (NApp 1 U8 [200]) = Ok s' false
  /\ ~ excluded cv s (NApp 1 U8 [200]) /\ fine cv cs (init 2) [NewView 0 (ANSI 0) [72]; FromMove 1 0] /\ vals s' = vals s.
Proof.
  eexists. eexists. split; [vm_compute; reflexivity|]. split; [vm_compute; reflexivity|]. split; [|split; [cbn; tauto|reflexivity]].
  cbn. intros [(_ & o & e & t & G & L & N)|(e & p & e0 & t & sh & E & G & L & _ & _ & A)]; cbn in *; [|inversion E; subst; discriminate A]. injection G as <-. cbn in L. discriminate L.
Qed.
