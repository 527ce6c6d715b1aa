(** Property C13: [Optional] objects behave as values of the option type and construct and
    destroy their elements in balance. *)
From Coq Require Import Arith Lia Bool List.
From Verif Require Import OptionalModel.
Import ListNotations.

Section Thms.
  Variable V : Type.
  Variable moved : V -> V.

  (** Specification: which objects exist and what each contains. *)
  Definition world := nat -> option (option V).
  Definition wput (w : world) (i : nat) (x : option (option V)) : world :=
    fun k => if k =? i then x else w k.

  (** One operation; objects named must exist, new objects must not. *)
  Inductive ospec (w : world) : oop V -> world -> Prop :=
  | P_New i : w i = None -> ospec w (OpNew V i) (wput w i (Some None))
  | P_NewValue i v : w i = None -> ospec w (OpNewValue V i v) (wput w i (Some (Some v)))
  | P_NewCopy i j x : w i = None -> w j = Some x -> ospec w (OpNewCopy V i j) (wput w i (Some x))
  | P_NewMove i j x : w i = None -> w j = Some x ->
      ospec w (OpNewMove V i j) (wput (wput w i (Some x)) j (Some None))
  | P_Delete i x : w i = Some x -> ospec w (OpDelete V i) (wput w i None)
  | P_Emplace i x v : w i = Some x -> ospec w (OpEmplace V i v) (wput w i (Some (Some v)))
  | P_Reset i x : w i = Some x -> ospec w (OpReset V i) (wput w i (Some None))
  | P_Assign i x v : w i = Some x -> ospec w (OpAssign V i v) (wput w i (Some (Some v)))
  | P_AssignOwn i v : w i = Some (Some v) -> ospec w (OpAssignOwn V i) w
  | P_AssignCopy i j x y : w i = Some x -> w j = Some y -> ospec w (OpAssignCopy V i j) (wput w i (Some y))
  | P_AssignMoveSelf i x : w i = Some x -> ospec w (OpAssignMove V i i) w
  | P_AssignMove i j x y : i <> j -> w i = Some x -> w j = Some y ->
      ospec w (OpAssignMove V i j) (wput (wput w i (Some y)) j (Some None)).

  Inductive ospecs (w : world) : list (oop V) -> world -> Prop :=
  | P_nil : ospecs w [] w
  | P_cons o w1 ops w2 : ospec w o w1 -> ospecs w1 ops w2 -> ospecs w (o :: ops) w2.

  (** The number of objects below [n] that contain a value. *)
  Fixpoint engaged (w : world) (n : nat) : nat :=
    match n with
    | O => 0
    | S n' => engaged w n' + match w n' with Some (Some _) => 1 | _ => 0 end
    end.

  (** The flag agrees with the buffer, and both with the specification. *)
  Definition slot_of (x : option V) : slot V := mkslot V (match x with Some _ => true | None => false end) x.
  Definition Rep (m : mem V) (w : world) : Prop :=
    forall k, objs V m k = match w k with Some x => Some (slot_of x) | None => None end.

  Lemma engaged_put : forall w i x n,
    engaged (wput w i x) n
    + (if i <? n then match w i with Some (Some _) => 1 | _ => 0 end else 0)
    = engaged w n + (if i <? n then match x with Some (Some _) => 1 | _ => 0 end else 0).
  Proof.
    intros w i x n. induction n as [|n IH]; cbn [engaged]; [reflexivity|].
    assert (W : wput w i x n = if n =? i then x else w n) by reflexivity. rewrite W.
    destruct (Nat.ltb_spec i n); destruct (Nat.ltb_spec i (S n)); destruct (Nat.eqb_spec n i) as [->|NE]; try lia.
  Qed.

  (** What one operation does to the counters: constructions minus destructions is the
      change in the number of values. *)
  Lemma ostep_ok : forall m w o w', Rep m w -> ospec w o w' ->
    exists m', ostep V moved m o = Some m' /\ Rep m' w'
      /\ forall n, (forall k, n <= k -> w k = None) -> (forall k, n <= k -> w' k = None) ->
           ctor V m' + dtor V m + engaged w n = ctor V m + dtor V m' + engaged w' n.
  Proof.
    intros m w o w' R H.
    assert (Dom : forall n i (x : option V), w i = Some x -> (forall k, n <= k -> w k = None) -> (i <? n) = true).
    { intros n i x E A. apply Nat.ltb_lt. destruct (Nat.lt_ge_cases i n) as [L|G]; [exact L|]. rewrite (A i G) in E. discriminate. }
    assert (Dom'' : forall n i, (forall k, n <= k -> w' k = None) -> w' i <> None -> (i <? n) = true).
    { intros n i A E. apply Nat.ltb_lt. destruct (Nat.lt_ge_cases i n) as [L|G]; [exact L|]. destruct (E (A i G)). }
    destruct H as [i Hi|i v Hi|i j x Hi Hj|i j x Hi Hj|i x Hi|i x v Hi|i x Hi|i x v Hi|i v Hi|i j x y Hi Hj|i x Hi|i j x y Hij Hi Hj];
      assert (Ri := R i); rewrite Hi in Ri; cbn beta iota in Ri;
      try (assert (Rj := R j); rewrite Hj in Rj; cbn beta iota in Rj).
    all: try (destruct (Nat.eq_dec i j) as [<-|Hij0]; [try congruence|]).
    all: try match goal with x : option V |- _ => destruct x end; try match goal with y : option V |- _ => destruct y end.
    all: cbn [ostep]; unfold NewValue, NewCopy, NewMove, New, Delete, Emplace, AssignCopy, AssignMove, AssignValue, GetValue, Reset,
           construct, destroy, assign, read, set_has, HasValue, bind, put;
         repeat (rewrite ?Ri, ?Rj, ?Nat.eqb_refl; cbn [objs ctor dtor has buf slot_of];
                 repeat match goal with
                 | |- context [?a =? ?b] => destruct (Nat.eqb_spec a b); [congruence|]
                 end).
    all: try (eexists; split; [reflexivity|split]).
    all: try (unfold Rep, wput in *; cbn [objs]; let k := fresh "k" in intros k; specialize (R k);
      repeat match goal with |- context [k =? ?b] => destruct (Nat.eqb_spec k b); [subst k|] end;
      repeat match goal with |- context [?a =? ?b] => destruct (Nat.eqb_spec a b); try congruence end;
      first [reflexivity | exact R | exact Ri | exact Rj | rewrite Hi; first [exact Ri|reflexivity] | rewrite Hj; first [exact Rj|reflexivity]]).
    all: let N := fresh "N" in intros N A B; cbn [ctor dtor];
      try (assert (LtI := Dom N i _ Hi A));
      try (assert (LtJ := Dom N j _ Hj A));
      try (assert (LtI := Dom'' N i B ltac:(unfold wput; rewrite ?Nat.eqb_refl; repeat match goal with |- context [?a =? ?b] => destruct (Nat.eqb_spec a b); try congruence end; try congruence; discriminate)));
      repeat match goal with
      | |- context [engaged (wput ?w0 ?i0 ?x0) N] =>
          let E := fresh "E" in assert (E := engaged_put w0 i0 x0 N); revert E; generalize (engaged (wput w0 i0 x0) N); intros ? E
      | E : context [engaged (wput ?w0 ?i0 ?x0) N] |- _ =>
          let E' := fresh "E" in assert (E' := engaged_put w0 i0 x0 N); revert E E'; generalize (engaged (wput w0 i0 x0) N); intros ? E E'
      end;
      rewrite ?LtI, ?LtJ in *; unfold wput in *; 
      repeat match goal with E : context [?a =? ?b] |- _ => destruct (Nat.eqb_spec a b); try congruence; try lia end;
      repeat match goal with E : @eq nat _ _ |- _ => rewrite Hi in E end;
      try repeat match goal with E : @eq nat _ _ |- _ => rewrite Hj in E end; try lia.
    all: congruence.
  Qed.

  (** ** C13 *)
  (** Every sequence of operations over any number of objects, including self-assignment and
      assignment between objects in any state: no element is constructed over a living one,
      destroyed twice, read when raw or lost with its object; [HasValue] and [GetValue]
      agree with the option specification; and the elements constructed and not destroyed
      are exactly the values present. *)
  Theorem C13_optional : forall ops w, ospecs (fun _ => None) ops w ->
    exists m, oruns V moved (mem_init V) ops = Some m
      /\ (forall i x, w i = Some x ->
            HasValue V m i = Some (match x with Some _ => true | None => false end)
            /\ (forall v, x = Some v -> GetValue V m i = Some v))
      /\ (forall n, (forall ops1 ops2 w1, ops = ops1 ++ ops2 -> ospecs (fun _ => None) ops1 w1 ->
                       forall k, n <= k -> w1 k = None) ->
            ctor V m = dtor V m + engaged w n).
  Proof.
    intros ops w H.
    assert (G : forall ops w0 m0 w, Rep m0 w0 -> ospecs w0 ops w ->
      exists m, oruns V moved m0 ops = Some m /\ Rep m w
        /\ forall n, (forall ops1 ops2 w1, ops = ops1 ++ ops2 -> ospecs w0 ops1 w1 -> forall k, n <= k -> w1 k = None) ->
             ctor V m + dtor V m0 + engaged w0 n = ctor V m0 + dtor V m + engaged w n).
    { clear. intros ops. induction ops as [|o ops IH]; intros w0 m0 w R H; inversion H as [|o' w1 ops' w2 H1 H2]; subst.
      - exists m0. split; [reflexivity|]. split; [exact R|]. intros; lia.
      - destruct (ostep_ok m0 w0 o w1 R H1) as (m1 & E1 & R1 & B1).
        destruct (IH w1 m1 w R1 H2) as (m & E & R' & B).
        exists m. split; [cbn [oruns]; rewrite E1; exact E|]. split; [exact R'|].
        intros n D.
        assert (A0 : forall k, n <= k -> w0 k = None) by (apply (D [] (o :: ops)); [reflexivity|apply P_nil]).
        assert (A1 : forall k, n <= k -> w1 k = None).
        { apply (D [o] ops); [reflexivity|]. eapply P_cons; [exact H1|apply P_nil]. }
        specialize (B1 n A0 A1).
        assert (B2 := B n). specialize (B2 ltac:(intros ops1 ops2 w3 Eo Ho; apply (D (o :: ops1) ops2); [rewrite Eo; reflexivity|eapply P_cons; eassumption])).
        lia. }
    destruct (G ops (fun _ => None) (mem_init V) w) as (m & E & R & B); [intros k; reflexivity|exact H|].
    exists m. split; [exact E|]. split.
    - intros i x Hx. assert (Ri := R i). rewrite Hx in Ri. unfold GetValue, HasValue, read, bind. rewrite Ri.
      destruct x as [v0|]; cbn; split; try reflexivity; intros v Ev; congruence.
    - intros n D. specialize (B n D). cbn in B.
      assert (E0 : engaged (fun _ => None) n = 0) by (clear; induction n as [|n IH]; cbn; [reflexivity|lia]).
      rewrite E0 in B. lia.
  Qed.

  (** When all objects have been deleted, every element constructed has been destroyed
      exactly once. *)
  Theorem C13_all_destroyed : forall ops w, ospecs (fun _ => None) ops w -> (forall i, w i = None) ->
    exists m, oruns V moved (mem_init V) ops = Some m /\ ctor V m = dtor V m.
  Proof.
    intros ops w H Z. destruct (C13_optional ops w H) as (m & E & _ & B). exists m. split; [exact E|].
    (* a bound on the objects used *)
    set (bound := fold_right (fun o b => match o with
       | OpNew _ i | OpNewValue _ i _ | OpNewCopy _ i _ | OpNewMove _ i _ => Nat.max (S i) b | _ => b end) 0 ops).
    assert (D : forall ops1 ops2 w1, ops = ops1 ++ ops2 -> ospecs (fun _ => None) ops1 w1 ->
                       forall k, bound <= k -> w1 k = None).
    { assert (G : forall ops1 (w0 w1 : world) b, ospecs w0 ops1 w1 -> (forall k, b <= k -> w0 k = None) ->
        fold_right (fun o b => match o with
          | OpNew _ i | OpNewValue _ i _ | OpNewCopy _ i _ | OpNewMove _ i _ => Nat.max (S i) b | _ => b end) 0 ops1 <= b ->
        forall k, b <= k -> w1 k = None).
      { clear. induction ops1 as [|o ops1 IH]; intros w0 w1 b H A F k L; inversion H as [|o' wm ops' w2 H1 H2]; subst; [apply A; exact L|].
        apply (IH wm w1 b H2); [|cbn [fold_right] in F; destruct o; lia|exact L].
        intros k' L'. assert (Ak := A k' L'). cbn [fold_right] in F.
        destruct H1; unfold wput;
          repeat match goal with |- context [?a =? ?b] => destruct (Nat.eqb_spec a b); subst end; try congruence; lia. }
      intros ops1 ops2 w1 Eo H1. apply (G ops1 (fun _ => None) w1 bound H1); [reflexivity|].
      unfold bound. subst ops. rewrite fold_right_app. clear. generalize (fold_right (fun o b => match o with
          | OpNew _ i | OpNewValue _ i _ | OpNewCopy _ i _ | OpNewMove _ i _ => Nat.max (S i) b | _ => b end) 0 ops2).
      induction ops1 as [|o ops1 IH]; intros n; cbn [fold_right]; [lia|]. specialize (IH n). destruct o; lia. }
    specialize (B bound D). rewrite B.
    assert (E0 : forall n, engaged w n = 0) by (induction n as [|n IH]; cbn [engaged]; [reflexivity|rewrite Z; lia]).
    rewrite E0. lia.
  Qed.

  (** Comparison of two existing objects: equal exactly when both are empty or hold equal
      values; [operator!=] is the negation when the element's [!=] is. *)
  Theorem C13_compare : forall (eqb neb : V -> V -> bool) m w i j x y, Rep m w -> w i = Some x -> w j = Some y ->
    (forall a b, eqb a b = true <-> a = b) -> (forall a b, neb a b = negb (eqb a b)) ->
    exists r, opt_eq V eqb m i j = Some r /\ (r = true <-> x = y) /\ opt_ne V neb m i j = Some (negb r).
  Proof.
    intros eqb neb m w i j x y R Hi Hj Heq Hne.
    assert (Ri := R i). rewrite Hi in Ri. assert (Rj := R j). rewrite Hj in Rj.
    unfold opt_eq, opt_ne, GetValue, HasValue, read, bind. rewrite Ri, Rj.
    destruct x as [a|], y as [b|]; cbn; eexists; (split; [reflexivity|]); split; try reflexivity; try (split; congruence).
    - rewrite Heq. split; congruence.
    - rewrite Hne. reflexivity.
  Qed.
End Thms.

(** Instance: four objects; copies, moves between them, self-assignment, deletion. *)
Definition ops1 : list (oop nat) :=
  [OpNewValue nat 0 7; OpNew nat 1; OpAssignCopy nat 1 0; OpNewMove nat 2 0; OpAssignMove nat 1 2; OpAssignMove nat 1 1;
   OpAssignOwn nat 1; OpEmplace nat 1 9; OpNewCopy nat 3 1; OpReset nat 1; OpAssign nat 0 4; OpDelete nat 0; OpDelete nat 3].
Ltac osolve := cbn; reflexivity.
Example ex_ospec : exists w, ospecs nat (fun _ => None) ops1 w /\ w 1 = Some None /\ w 2 = Some None /\ w 3 = None.
Proof.
  eexists. split.
  - unfold ops1.
    eapply P_cons; [apply P_NewValue; osolve|]. eapply P_cons; [apply P_New; osolve|].
    eapply P_cons; [eapply P_AssignCopy; osolve|]. eapply P_cons; [eapply P_NewMove; osolve|].
    eapply P_cons; [eapply P_AssignMove; [lia|osolve|osolve]|]. eapply P_cons; [eapply P_AssignMoveSelf; osolve|].
    eapply P_cons; [eapply P_AssignOwn; osolve|]. eapply P_cons; [eapply P_Emplace; osolve|].
    eapply P_cons; [eapply P_NewCopy; osolve|]. eapply P_cons; [eapply P_Reset; osolve|].
    eapply P_cons; [eapply P_Assign; osolve|]. eapply P_cons; [eapply P_Delete; osolve|].
    eapply P_cons; [eapply P_Delete; osolve|]. apply P_nil.
  - repeat split.
Qed.
Example ex_orun : match oruns nat (fun _ => 0) (mem_init nat) ops1 with
  | Some m => ctor nat m = 6 /\ dtor nat m = 6 | None => False end.
Proof. vm_compute. split; reflexivity. Qed.

Print Assumptions C13_optional.
Print Assumptions C13_all_destroyed.
Print Assumptions C13_compare.
