(** C126: QueryInterface obeys the rules of COM.  C127: the object lives as long as it is referenced. *)
From Coq Require Import List Bool Arith ZArith Lia.
From Verif Require Import ComObjModel.
Import ListNotations.

Lemma chain_cast_spec k js r : chain_cast k js r = if existsb (Nat.eqb r) js then Some k else None.
Proof. induction js as [|j js IH]; cbn; [reflexivity|]. destruct (r =? j); [reflexivity|exact IH]. Qed.
Lemma base_cast_spec k b r : base_cast k b r = if existsb (Nat.eqb r) (declared b) then Some k else None.
Proof. destruct b as [i|i js]; cbn; rewrite ?chain_cast_spec; destruct (r =? i); reflexivity. Qed.
Lemma existsb_In r l : existsb (Nat.eqb r) l = true <-> In r l.
Proof. rewrite existsb_exists. split; [intros (x & H & E); apply Nat.eqb_eq in E; subst; exact H|intros H; exists r; split; [exact H|apply Nat.eqb_refl]]. Qed.
Lemma cast_some bs r : forall k p, cast k bs r = Some p -> exists b, k <= p /\ nth_error bs (p - k) = Some b /\ In r (declared b) /\
  forall q c, q < p - k -> nth_error bs q = Some c -> ~ In r (declared c).
Proof.
  induction bs as [|b bs IH]; intros k p H; cbn in H; [discriminate|]. rewrite base_cast_spec in H. destruct (existsb (Nat.eqb r) (declared b)) eqn:E.
  - injection H as <-. apply existsb_In in E. exists b. rewrite Nat.sub_diag. repeat split; auto. intros; lia.
  - destruct (IH _ _ H) as (c & L & N & D & F). exists c. replace (p - k) with (S (p - S k)) by lia. repeat split; auto; [lia|].
    intros [|q] d Q M; cbn in M; [injection M as ->; intros X; apply existsb_In in X; congruence|apply (F q d); [lia|exact M]].
Qed.
Lemma cast_none bs r : forall k, cast k bs r = None <-> forall b, In b bs -> ~ In r (declared b).
Proof.
  induction bs as [|b bs IH]; intros k; cbn; [intuition|]. rewrite base_cast_spec. destruct (existsb (Nat.eqb r) (declared b)) eqn:E.
  - apply existsb_In in E. split; [discriminate|]. intros H. exfalso. exact (H b (or_introl eq_refl) E).
  - rewrite IH. split; [intros H c [<-|C]; [intros X; apply existsb_In in X; congruence|auto]|intros H c C; apply H; auto].
Qed.

(** * C126 *)
(** Exactly the declared interfaces and IUnknown are found; otherwise the result is null; the first declaration counts. *)
Theorem C126_found : forall bs r,
  ((exists p, query bs false r = OK p) <-> (r = IUNKNOWN \/ exists b, In b bs /\ In r (declared b))) /\
  ((forall p, query bs false r <> OK p) -> query bs false r = NOINTERFACE None) /\
  (forall p b, nth_error bs p = Some b -> In r (declared b) -> (forall q c, q < p -> nth_error bs q = Some c -> ~ In r (declared c)) -> query bs false r = OK p) /\
  query bs true r = INVALIDARG.
Proof.
  intros bs r. unfold query. destruct (cast 0 bs r) as [p|] eqn:C.
  - destruct (cast_some bs r 0 p C) as (b & _ & N & D & F). rewrite Nat.sub_0_r in *. repeat split.
    + intros _. right. exists b. split; [exact (nth_error_In _ _ N)|exact D].
    + intros _. eauto.
    + intros H. exfalso. exact (H p eq_refl).
    + intros p' b' N' D' F'. f_equal. destruct (lt_eq_lt_dec p p') as [[L|L]|L]; [|exact L|].
      * exfalso. exact (F' p b L N D).
      * exfalso. exact (F p' b' L N' D').
  - rewrite cast_none in C. destruct (Nat.eqb_spec r IUNKNOWN) as [->|NE]; repeat split.
    + auto.
    + eauto.
    + intros H. exfalso. exact (H 0 eq_refl).
    + intros p b N D _. exfalso. exact (C b (nth_error_In _ _ N) D).
    + intros (p & H). discriminate.
    + intros [H|(b & B & D)]; [contradiction|exfalso; exact (C b B D)].
    + intros p b N D _. exfalso. exact (C b (nth_error_In _ _ N) D).
Qed.
(** What is handed out may be used as the interface that was asked for. *)
Theorem C126_usable_partial : forall parent bs r p, documented parent bs -> query bs false r = OK p -> usable parent bs p r.
Proof.
  intros parent bs r p (NE & U & D) Q. unfold query in Q. destruct (cast 0 bs r) as [p'|] eqn:C.
  - injection Q as <-. destruct (cast_some bs r 0 p' C) as (b & _ & N & I & _). rewrite Nat.sub_0_r in N. exists b. split; [exact N|].
    destruct b as [i|i js]; cbn in *; [destruct I as [<-|[]]; constructor|destruct I as [<-|I]; [constructor|]]. exact (D i js r (nth_error_In _ _ N) I).
  - destruct (Nat.eqb_spec r IUNKNOWN) as [->|]; [|discriminate]. injection Q as <-. destruct bs as [|b bs]; [contradiction|]. exists b. split; [reflexivity|]. apply U. left; reflexivity.
Qed.
(** The rules of COM: through any pointer that was handed out every query is defined and has the same answer as through any other;
    so IUnknown is always the same pointer, and what was found once is found again from everywhere. *)
Inductive obtained parent (bs : list base) : nat -> Prop :=
| o_new p b : nth_error bs p = Some b -> obtained parent bs p
| o_query p q r : obtained parent bs p -> query_via parent bs p false r (OK q) -> obtained parent bs q.
Lemma via_inv parent bs p null r a : query_via parent bs p null r a -> query bs null r = a.
Proof. intros []; reflexivity. Qed.
Theorem C126_rules_partial : forall parent bs, documented parent bs -> forall p q, obtained parent bs p -> obtained parent bs q ->
  forall null r a, query_via parent bs p null r a <-> query_via parent bs q null r a.
Proof.
  intros parent bs D. assert (U : forall p, obtained parent bs p -> usable parent bs p IUNKNOWN).
  { assert (V : forall p b, nth_error bs p = Some b -> usable parent bs p IUNKNOWN) by (intros p b N; exists b; split; [exact N|]; destruct D as (_ & D & _); apply D; exact (nth_error_In _ _ N)).
    intros p [p' b N|p' q r _ Q]; [eauto|]. destruct (C126_usable_partial parent bs r q D (via_inv _ _ _ _ _ _ Q)) as (b & N & _). eauto. }
  intros p q P Q null r a. split; intros [_]; constructor; auto.
Qed.
Theorem C126_defined_partial : forall parent bs, documented parent bs -> forall p, obtained parent bs p -> forall null r, exists a, query_via parent bs p null r a.
Proof.
  intros parent bs D p O null r. exists (query bs null r). constructor. destruct O as [p b N|p q r' _ Q].
  - exists b. split; [exact N|]. destruct D as (_ & D & _). apply D. exact (nth_error_In _ _ N).
  - destruct (C126_usable_partial parent bs r' q D (via_inv _ _ _ _ _ _ Q)) as (b & N & _). exists b. split; [exact N|]. destruct D as (_ & D & _). apply D. exact (nth_error_In _ _ N).
Qed.
(** Interfaces of the examples: 1 and 2 inherit from IUnknown, 3 from 1; 5 is no COM interface. *)
Definition tree (i : nat) : option nat := match i with 1 | 2 => Some 0 | 3 => Some 1 | _ => None end.
Lemma tree_no5 : ~ derives tree 5 IUNKNOWN.
Proof. intros H. inversion H as [|i j k E D]. cbn in E. discriminate. Qed.
Lemma tree_no31 : ~ derives tree 1 3.
Proof. intros H. inversion H as [|i j k E D]; subst. cbn in E. injection E as <-. inversion D as [|i j k E D']; subst. cbn in E. discriminate. Qed.
(** The assertion only asks that some base inherits from IUnknown, the fallback reinterprets the first (lines 173-180): with another class in
    front, the pointer given out for IUnknown is not one. *)
Theorem C126_unknown_refuted : exists parent bs p, compiles parent bs /\ query bs false IUNKNOWN = OK p /\ ~ usable parent bs p IUNKNOWN.
Proof.
  exists tree, [Plain 5; Plain 1], 0. split; [split|split; [reflexivity|]].
  - exists (Plain 1). split; [right; left; reflexivity|]. apply (d_step tree 1 0); [reflexivity|constructor].
  - intros i js j [H|[H|[]]]; discriminate.
  - intros (b & N & D). cbn in N. injection N as <-. exact (tree_no5 D).
Qed.
(** A chain in the wrong order is accepted, as static_cast also goes down (line 62): the object then hands out an interface that it
    does not implement. *)
Theorem C126_order_refuted : exists parent bs r p, compiles parent bs /\ (forall b, In b bs -> derives parent (itf b) IUNKNOWN) /\
  query bs false r = OK p /\ ~ usable parent bs p r.
Proof.
  assert (D1 : derives tree 1 IUNKNOWN) by (apply (d_step tree 1 0); [reflexivity|constructor]).
  exists tree, [Chain 1 [3]], 3, 0. split; [split|split; [|split; [reflexivity|]]].
  - exists (Chain 1 [3]). split; [left; reflexivity|exact D1].
  - intros i js j [H|[]] J. injection H as <- <-. destruct J as [<-|[]]. right. apply (d_step tree 3 1); [reflexivity|constructor].
  - intros b [<-|[]]. exact D1.
  - intros (b & N & D). cbn in N. injection N as <-. exact (tree_no31 D).
Qed.
(** The third form of the documentation. *)
Example C126_third : documented tree [Chain 3 [1]; Plain 2] /\ query [Chain 3 [1]; Plain 2] false 1 = OK 0 /\ query [Chain 3 [1]; Plain 2] false 2 = OK 1 /\
  query [Chain 3 [1]; Plain 2] false 0 = OK 0 /\ query [Plain 3; Plain 2] false 1 = NOINTERFACE None /\ obtained tree [Chain 3 [1]; Plain 2] 1.
Proof.
  assert (D1 : derives tree 1 0) by (apply (d_step tree 1 0); [reflexivity|constructor]). assert (D2 : derives tree 2 0) by (apply (d_step tree 2 0); [reflexivity|constructor]).
  assert (D3 : derives tree 3 1) by (apply (d_step tree 3 1); [reflexivity|constructor]). assert (D30 : derives tree 3 0) by (apply (d_step tree 3 1); [reflexivity|exact D1]).
  repeat split; try reflexivity; try discriminate.
  - intros b [<-|[<-|[]]]; assumption.
  - intros i js j [H|[H|[]]] J; [|discriminate]. injection H as <- <-. destruct J as [<-|[]]. exact D3.
  - apply (o_new _ _ 1 (Plain 2)). reflexivity.
Qed.

(** * C127 *)
Open Scope Z_scope.
Fixpoint total (l : list nat) : Z := match l with [] => 0 | x :: l => Z.of_nat x + total l end.
Lemma total_pos l : 0 <= total l.
Proof. induction l; cbn; lia. Qed.
Lemma total_S l : forall i x, nth_error l i = Some x -> total (upd l i S) = total l + 1.
Proof. induction l as [|y l IH]; intros [|i] x H; cbn -[Z.of_nat] in *; try discriminate; [lia|rewrite (IH i x H); lia]. Qed.
Lemma total_pred l : forall i x, nth_error l i = Some (S x) -> total (upd l i pred) = total l - 1 /\ 0 < total l.
Proof.
  induction l as [|y l IH]; intros [|i] x H; cbn -[Z.of_nat] in *; try discriminate.
  - injection H as ->. pose proof (total_pos l). cbn [pred]. lia.
  - destruct (IH i x H). lia.
Qed.
Lemma nth_upd l : forall i j f x, nth_error l j = Some x -> exists y, nth_error (upd l i f) j = Some y.
Proof. induction l as [|z l IH]; intros [|i] [|j] f x H; cbn in *; try discriminate; eauto. Qed.
Definition good (s : refs) : Prop := cnt s = total (hold s) mod W32 /\ total (hold s) < W32 /\ deleted s = (if total (hold s) =? 0 then 1%nat else 0%nat).
Lemma rstep_good bs s a s' : good s -> rstep bs s a = Some s' -> total (hold s') < W32 -> good s'.
Proof.
  assert (ADD : forall s i n, good s -> nth_error (hold s) i = Some (S n) -> total (hold (inc s i)) < W32 -> good (inc s i)).
  { intros s0 i n (C & L & D) N B. unfold good, inc in *; cbn in *. pose proof (total_S _ _ _ N) as T. destruct (total_pred _ _ _ N) as (_ & P). rewrite T in *.
    rewrite C, Zplus_mod_idemp_l. destruct (Z.eqb_spec (total (hold s0)) 0); [lia|]. destruct (Z.eqb_spec (total (hold s0) + 1) 0); [lia|]. auto. }
  intros G E B. destruct a as [i nl r|i|i|i j]; cbn in E.
  - destruct (nth_error (hold s) i) as [[|n]|] eqn:N; try discriminate. injection E as <-. destruct (query bs nl r); auto. exact (ADD s i n G N B).
  - destruct (nth_error (hold s) i) as [[|n]|] eqn:N; try discriminate. injection E as <-. exact (ADD s i n G N B).
  - destruct (nth_error (hold s) i) as [[|n]|] eqn:N; try discriminate. injection E as <-. destruct G as (C & L & D). unfold good, dec_ in *; cbn in *.
    destruct (total_pred _ _ _ N) as (T & P). rewrite T in *. rewrite C, Zminus_mod_idemp_l. rewrite Z.mod_small by lia.
    destruct (Z.eqb_spec (total (hold s)) 0); [lia|]. destruct (Z.eqb_spec (total (hold s) - 1) 0); repeat split; auto; lia.
  - destruct (nth_error (hold s) i) as [[|n]|] eqn:N; try discriminate. destruct (nth_error (hold s) j) as [m|] eqn:M; try discriminate. injection E as <-.
    destruct G as (C & L & D). unfold good in *; cbn in *. destruct (total_pred _ _ _ N) as (T & P). destruct (nth_upd _ i j pred m M) as (y & Y).
    rewrite (total_S _ _ _ Y), T in *. replace (total (hold s) - 1 + 1) with (total (hold s)) by lia. auto.
Qed.
(** However often it was queried, referenced, released and passed on: as long as fewer than 2^32 references exist at a time, the object is
    deleted once, exactly when the last reference is released. *)
Fixpoint bounded (bs : list base) (s : refs) (l : list ract) : Prop :=
  total (hold s) < W32 /\ match l with [] => True | a :: l => match rstep bs s a with Some s' => bounded bs s' l | None => True end end.
Lemma init_good n : good (rinit n).
Proof.
  assert (Z : total (repeat 0%nat n) = 0) by (induction n; cbn in *; lia). unfold good; cbn -[Z.of_nat W32]. rewrite Z. vm_compute. auto.
Qed.
Theorem C127_deleted_partial : forall bs n l s, rrun bs (rinit n) l = Some s -> bounded bs (rinit n) l ->
  (total (hold s) = 0 -> deleted s = 1%nat) /\ (0 < total (hold s) -> deleted s = 0%nat).
Proof.
  intros bs n l s R B. assert (G : good s).
  { pose proof (init_good n) as G. revert R B G. generalize (rinit n) as s0. induction l as [|a l IH]; intros s0 R (B0 & B) G; cbn in R; [injection R as <-; exact G|].
    destruct (rstep bs s0 a) as [s1|] eqn:E; [|discriminate]. apply (IH s1 R B). apply (rstep_good bs s0 a); auto. destruct l; exact (proj1 B). }
  destruct G as (_ & _ & D). destruct (Z.eqb_spec (total (hold s)) 0); split; intros; auto; lia.
Qed.
(** Beyond, the counter (uint32_t) wraps: with 2^32 + 1 references one Release deletes the object though 2^32 are left. *)
Theorem C127_wrap_refuted : forall bs s i x, hold s = [x; i] -> Z.of_nat x + Z.of_nat i = W32 + 1 -> cnt s = total (hold s) mod W32 -> deleted s = 0%nat ->
  (0 < x)%nat -> exists s', rstep bs s (Release 0) = Some s' /\ deleted s' = 1%nat /\ total (hold s') = W32.
Proof.
  intros bs s i x H T C D P. destruct x as [|x]; [lia|]. exists (dec_ s 0). cbn -[Z.of_nat W32]. rewrite H. cbn -[Z.of_nat W32]. split; [reflexivity|].
  rewrite C, H, D. cbn -[Z.of_nat W32]. replace (Z.of_nat (S x) + (Z.of_nat i + 0)) with (W32 + 1) by lia. split; [reflexivity|lia].
Qed.
(** Such states are reached: [k] calls of AddRef lead from the new object to [k + 1] references. *)
Lemma addrefs bs k : forall c x y, (0 < x)%nat -> c = (Z.of_nat x + Z.of_nat y) mod W32 ->
  rrun bs (Refs c 0 [x; y]) (repeat (AddRef 0) k) = Some (Refs ((Z.of_nat x + Z.of_nat y + Z.of_nat k) mod W32) 0 [(x + k)%nat; y]).
Proof.
  induction k as [|k IH]; intros c x y P C; cbn [repeat rrun].
  - rewrite Nat.add_0_r, Z.add_0_r, C. reflexivity.
  - destruct x as [|x]; [lia|]. cbn [rstep nth_error hold]. unfold inc; cbn [cnt deleted hold upd]. rewrite (IH _ (S (S x)) y); [|lia|rewrite C, Zplus_mod_idemp_l; f_equal; lia].
    replace (S (S x) + k)%nat with (S x + S k)%nat by lia. replace (Z.of_nat (S (S x)) + Z.of_nat y + Z.of_nat k) with (Z.of_nat (S x) + Z.of_nat y + Z.of_nat (S k)) by lia. reflexivity.
Qed.
Lemma reached bs k : Z.of_nat k = W32 -> exists l s, rrun bs (rinit 1) l = Some s /\ deleted s = 1%nat /\ 0 < total (hold s).
Proof.
  intros K. pose proof (addrefs bs k 1 1 0 ltac:(lia) eq_refl) as R.
  destruct (C127_wrap_refuted bs (Refs ((Z.of_nat 1 + Z.of_nat 0 + Z.of_nat k) mod W32) 0 [(1 + k)%nat; 0%nat]) 0 (1 + k)) as (s' & E & D & T).
  - reflexivity.
  - lia.
  - cbn [cnt hold total]. f_equal. lia.
  - reflexivity.
  - lia.
  - exists (repeat (AddRef 0) k ++ [Release 0]), s'. split; [|split; [exact D|rewrite T; reflexivity]].
    assert (A : forall l1 l2 s0 s1, rrun bs s0 l1 = Some s1 -> rrun bs s0 (l1 ++ l2) = rrun bs s1 l2).
    { induction l1 as [|a l1 IH]; intros l2 s0 s1 X; cbn [rrun app] in *; [congruence|]. destruct (rstep bs s0 a); [apply IH; exact X|discriminate]. }
    change (rinit 1) with (Refs 1 0 [1%nat; 0%nat]). rewrite (A _ [Release 0] _ _ R). cbn [rrun]. rewrite E. reflexivity.
Qed.
Theorem C127_reached_refuted : forall bs, exists l s, rrun bs (rinit 1) l = Some s /\ deleted s = 1%nat /\ 0 < total (hold s).
Proof. intros bs. apply (reached bs (Z.to_nat W32)). apply Z2Nat.id. unfold W32; lia. Qed.
(** Two clients. *)
Example C127_two : exists s, rrun [Plain 1] (rinit 1) [Query 0 false 1; Query 0 false 7; Give 0 1; Release 0; AddRef 1; Release 1; Release 1] = Some s /\ deleted s = 1%nat /\
  bounded [Plain 1] (rinit 1) [Query 0 false 1; Query 0 false 7; Give 0 1; Release 0; AddRef 1; Release 1; Release 1].
Proof. eexists. split; [reflexivity|]. split; [reflexivity|]. repeat split. Qed.

Print Assumptions C126_found.
Print Assumptions C126_usable_partial.
Print Assumptions C126_rules_partial.
Print Assumptions C126_defined_partial.
Print Assumptions C126_unknown_refuted.
Print Assumptions C126_order_refuted.
Print Assumptions C127_deleted_partial.
Print Assumptions C127_wrap_refuted.
Print Assumptions C127_reached_refuted.
